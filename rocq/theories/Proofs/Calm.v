(** What calls leave alone: readings change nothing but the order of arrays and the state of
    health checks; a call that writes changes what its receiver stands for, averages and what
    meters publish. *)
From Coq Require Import ZArith List String Bool Lia Arith Permutation.
From Verif.Model Require Import GoInt GoFloat GoBase Stats Uniform ExpDecay Conc CounterGauge Ewma Meter World.
From Verif.Proofs Require Import SortFacts StatsInt WorldBase WorldStep WorldFrame.
Import ListNotations.
Local Open Scope nat_scope.
Local Open Scope list_scope.

Definition calm_obj (x y : obj) : Prop :=
  match x with
  | OArr xs => exists ys, y = OArr ys /\ Permutation xs ys /\ (sortz xs = xs -> ys = xs)
  | OHealth _ f => exists e, y = OHealth e f
  | OEwma _ => exists e, y = OEwma e
  | _ => y = x
  end.
Definition calm (h h' : list obj) : Prop := forall l x, nth_error h l = Some x -> exists y, nth_error h' l = Some y /\ calm_obj x y.
Lemma calm_obj_refl x : calm_obj x x.
Proof. destruct x; cbn; eauto. Qed.
Lemma calm_obj_trans x y z : calm_obj x y -> calm_obj y z -> calm_obj x z.
Proof.
  destruct x; cbn [calm_obj]; intros A B; try (subst y; exact B).
  - destruct A as (e1 & ->). exact B.
  - destruct A as (ys & -> & P & F). destruct B as (zs & -> & P' & F'). exists zs. split; auto. split; [now transitivity ys|]. intros Q. specialize (F Q). subst ys. auto.
  - destruct A as (e1 & ->). exact B.
Qed.
Lemma calm_refl h : calm h h. Proof. intros l x E. exists x. split; auto. apply calm_obj_refl. Qed.
Lemma calm_trans h h' h'' : calm h h' -> calm h' h'' -> calm h h''.
Proof. intros A B l x E. destruct (A _ _ E) as (y & Ey & Cy). destruct (B _ _ Ey) as (z & Ez & Cz). exists z. split; auto. eapply calm_obj_trans; eauto. Qed.
Lemma calm_app h x : calm h (h ++ [x]).
Proof. intros l y E. exists y. split; [|apply calm_obj_refl]. rewrite nth_error_app1; auto. apply nth_error_Some. congruence. Qed.
Lemma calm_set h l x y : nth_error h l = Some x -> calm_obj x y -> calm h (lset h l y).
Proof.
  intros E C k z Ek. destruct (Nat.eq_dec l k) as [<-|N].
  - exists y. split; [apply lset_nth_eq; apply nth_error_Some; congruence|]. congruence.
  - exists z. split; [|apply calm_obj_refl]. now rewrite lset_nth_neq.
Qed.

Section Exp.
Variable mexp : f64 -> f64.
Definition cm {A} (m : M A) : Prop := forall o w, calm (heap w) (heap (fst (m o w))).
Lemma cm_bind {A B} (m : M A) (f : A -> M B) : cm m -> (forall r, cm (f r)) -> cm (bind m f).
Proof. intros H G o w. unfold bind. specialize (H o w). destruct (m o w) as [w' [r|msg]]; cbn [fst] in *; auto. eapply calm_trans; [exact H|apply G]. Qed.
Lemma cm_ret {A} (r : A) : cm (ret r). Proof. intros o w. apply calm_refl. Qed.
Lemma cm_throw {A} m : cm (@throw A m). Proof. intros o w. apply calm_refl. Qed.
Lemma cm_lift {A} (r : res A) : cm (lift r). Proof. intros o w. apply calm_refl. Qed.
Lemma cm_ask {A} (f : orc -> A) : cm (ask f). Proof. intros o w. apply calm_refl. Qed.
Lemma cm_gets {A} (f : world -> A) : cm (gets f). Proof. intros o w. apply calm_refl. Qed.
Lemma cm_load l : cm (load l). Proof. intros o w. unfold load. destruct (nth_error _ _); apply calm_refl. Qed.
Lemma cm_alloc x : cm (alloc x). Proof. intros o w. cbn. apply calm_app. Qed.
Lemma cm_new_slice xs : cm (new_slice xs). Proof. apply cm_alloc. Qed.
(** read an object and put back one that differs in what does not matter *)
Lemma cm_rewrite {A} l (f : obj -> M A) : (forall x o w, nth_error (heap w) l = Some x -> calm (heap w) (heap (fst (f x o w)))) -> cm (bind (load l) f).
Proof. intros H o w. unfold bind, load. destruct (nth_error (heap w) l) as [x|] eqn:E; [|apply calm_refl]. now apply H. Qed.
Lemma cm_store {A} l x y (r : A) o w : nth_error (heap w) l = Some x -> calm_obj x y -> calm (heap w) (heap (fst (bind (store l y) (fun _ => ret r) o w))).
Proof. intros E C. unfold bind, store, ret. cbn [fst heap set_heap]. now apply (calm_set _ _ x). Qed.
Create HintDb cm.
Hint Resolve cm_ret cm_throw cm_lift cm_ask cm_gets cm_load cm_alloc cm_new_slice : cm.
Ltac cms := repeat first
  [ solve [auto 2 with cm]
  | apply cm_bind; [|intros ?]
  | match goal with |- context [let '(_, _) := ?x in _] => destruct x end
  | match goal with |- cm (match ?x with _ => _ end) => destruct x end
  | match goal with |- cm (if ?x then _ else _) => destruct x end ].
Lemma cm_counter l op : op = CCount \/ op = CSnapshot -> cm (c_do l op).
Proof. intros D. unfold c_do, c_load. intros o w. unfold bind at 1 2, load. destruct (nth_error (heap w) l) as [x|] eqn:E; [|apply calm_refl]. destruct x; try apply calm_refl. cbn [ret]. eapply cm_store; [exact E|]. destruct D as [-> | ->]; reflexivity. Qed.
Lemma cm_gauge l op : op = GValue \/ op = GSnapshot -> cm (g_do l op).
Proof. intros D. unfold g_do. apply cm_rewrite. intros x o w E. destruct x; try apply calm_refl. eapply cm_store; [exact E|]. destruct D as [-> | ->]; reflexivity. Qed.
Lemma cm_gaugef l op : op = GFValue \/ op = GFSnapshot -> cm (gf_do l op).
Proof. intros D. unfold gf_do. apply cm_rewrite. intros x o w E. destruct x; try apply calm_refl. eapply cm_store; [exact E|]. destruct D as [-> | ->]; reflexivity. Qed.
Lemma cm_ewma l op : cm (ewma_do l op).
Proof. unfold ewma_do. apply cm_rewrite. intros x o w E. destruct x; try apply calm_refl. destruct (cseq _ _) as [[e' r]|]; [|apply calm_refl]. eapply cm_store; [exact E|]. cbn; eauto. Qed.
Hint Resolve cm_ewma : cm.
Hint Extern 1 (cm (c_do _ _)) => (apply cm_counter; auto) : cm.
Hint Extern 1 (cm (g_do _ _)) => (apply cm_gauge; auto) : cm.
Hint Extern 1 (cm (gf_do _ _)) => (apply cm_gaugef; auto) : cm.
Lemma cm_counter_count v : cm (counter_count v). Proof. destruct v; cbn; cms. Qed.
Lemma cm_counter_snapshot v : cm (counter_snapshot v). Proof. destruct v; cbn; cms. Qed.
Lemma cm_gauge_value v : cm (gauge_value v). Proof. destruct v; cbn; cms. Qed.
Lemma cm_gaugef_value v : cm (gaugef_value v). Proof. destruct v; cbn; cms. Qed.
Hint Resolve cm_counter_count cm_counter_snapshot cm_gauge_value cm_gaugef_value : cm.
Lemma cm_gauge_snapshot v : cm (gauge_snapshot v). Proof. destruct v; cbn; cms. Qed.
Lemma cm_gaugef_snapshot v : cm (gaugef_snapshot v). Proof. destruct v; cbn; cms. Qed.
Lemma cm_ewma_rate v : cm (ewma_rate v). Proof. destruct v; cbn; cms. Qed.
Lemma cm_ewma_snapshot v : cm (ewma_snapshot v). Proof. destruct v; cbn; cms. Qed.
Hint Resolve cm_gauge_snapshot cm_gaugef_snapshot cm_ewma_rate cm_ewma_snapshot : cm.
(** health checks *)
Lemma cm_health_set v e : cm (health_set v e).
Proof. destruct v; cbn [health_set]; auto with cm. apply cm_rewrite. intros x o w E. destruct x; try apply calm_refl. unfold store. cbn [fst heap set_heap]. eapply calm_set; [exact E|]. cbn; eauto. Qed.
Hint Resolve cm_health_set : cm.
Lemma cm_health_acts v l : cm (health_acts v l).
Proof. induction l as [|a l IH]; cbn [health_acts]; auto with cm. apply cm_bind; auto. destruct a; cbn [health_act]; auto with cm. Qed.
Hint Resolve cm_health_acts : cm.
Lemma cm_health_check v : cm (health_check v). Proof. destruct v; cbn [health_check]; cms. Qed.
Lemma cm_health_error v : cm (health_error v). Proof. destruct v; cbn [health_error]; cms. Qed.
Hint Resolve cm_health_check cm_health_error : cm.
(** samples and histograms *)
Lemma cm_sort a ps : cm (bind (arr_get a) (fun xs => let '(after, r) := SamplePercentiles xs ps in bind (store a (OArr after)) (fun _ => lift r))).
Proof.
  unfold arr_get. intros o w. unfold bind at 1 2, load. destruct (nth_error (heap w) a) as [x|] eqn:E; [|apply calm_refl]. destruct x; try apply calm_refl. cbn [ret].
  pose proof (SamplePercentiles_after xs ps) as P. destruct (SamplePercentiles xs ps) as [after r]. cbn [fst] in P. subst after. unfold bind, store, lift. cbn [fst heap set_heap]. eapply calm_set; [exact E|].
  cbn. eexists. split; [reflexivity|split; [apply sortz_perm|auto]].
Qed.
Lemma cm_uni_get l : cm (uni_get l). Proof. unfold uni_get. cms. Qed.
Lemma cm_exp_get l : cm (exp_get l). Proof. unfold exp_get. cms. Qed.
Lemma cm_ssnap_get l : cm (ssnap_get l). Proof. unfold ssnap_get. cms. Qed.
Lemma cm_arr_get l : cm (arr_get l). Proof. unfold arr_get. cms. Qed.
Hint Resolve cm_uni_get cm_exp_get cm_ssnap_get cm_arr_get : cm.
Lemma cm_sample_contents v : cm (sample_contents v). Proof. destruct v; cbn [sample_contents]; cms. Qed.
Lemma cm_sample_count v : cm (sample_count v). Proof. destruct v; cbn [sample_count]; cms. Qed.
Hint Resolve cm_sample_contents cm_sample_count : cm.
Lemma cm_sample_stat s v : cm (sample_stat s v). Proof. unfold sample_stat. cms. Qed.
Lemma cm_sample_percentiles ps v : cm (sample_percentiles ps v).
Proof.
  destruct v; cbn [sample_percentiles]; auto with cm.
  - apply cm_bind; auto with cm. intros [[c n] a]. apply cm_sort.
  - cms.
  - apply cm_bind; auto with cm. intros [c a]. apply cm_sort.
Qed.
Lemma cm_sample_snapshot v : cm (sample_snapshot v). Proof. destruct v; cbn [sample_snapshot]; cms. Qed.
Hint Resolve cm_sample_stat cm_sample_percentiles cm_sample_snapshot : cm.
Lemma cm_hist_sample v : cm (hist_sample v). Proof. destruct v; cbn [hist_sample]; cms. Qed.
Hint Resolve cm_hist_sample : cm.
Lemma cm_hist_count v : cm (hist_count v). Proof. unfold hist_count. cms. Qed.
Lemma cm_hist_stat s v : cm (hist_stat s v). Proof. unfold hist_stat. cms. Qed.
Lemma cm_hist_percentiles ps v : cm (hist_percentiles ps v). Proof. unfold hist_percentiles. cms. Qed.
Lemma cm_hist_snapshot v : cm (hist_snapshot v). Proof. unfold hist_snapshot. cms. Qed.
Hint Resolve cm_hist_count cm_hist_stat cm_hist_percentiles cm_hist_snapshot : cm.
(** meters and timers *)
Lemma cm_meter_view v : cm (meter_view v). Proof. unfold meter_view, meter_get, msnap_get. cms. Qed.
Hint Resolve cm_meter_view : cm.
Lemma cm_meter_count v : cm (meter_count v). Proof. unfold meter_count. cms. Qed.
Lemma cm_meter_rate k v : cm (meter_rate k v). Proof. unfold meter_rate. cms. Qed.
Lemma cm_meter_snapshot v : cm (meter_snapshot v). Proof. unfold meter_snapshot. cms. Qed.
Hint Resolve cm_meter_count cm_meter_rate cm_meter_snapshot : cm.
Lemma cm_timer_get v : cm (timer_get v). Proof. unfold timer_get. cms. Qed.
Hint Resolve cm_timer_get : cm.
Lemma cm_timer_count v : cm (timer_count v). Proof. unfold timer_count. cms. Qed.
Lemma cm_timer_stat s v : cm (timer_stat s v). Proof. unfold timer_stat. cms. Qed.
Lemma cm_timer_percentiles ps v : cm (timer_percentiles ps v). Proof. unfold timer_percentiles. cms. Qed.
Lemma cm_timer_rate k v : cm (timer_rate k v). Proof. unfold timer_rate. cms. Qed.
Lemma cm_timer_snapshot v : cm (timer_snapshot v). Proof. unfold timer_snapshot. cms. Qed.
Hint Resolve cm_timer_count cm_timer_stat cm_timer_percentiles cm_timer_rate cm_timer_snapshot : cm.
(** GetAll *)
Lemma cm_get_all_one v : cm (get_all_one v). Proof. unfold get_all_one. cms. Qed.
Hint Resolve cm_get_all_one : cm.
Lemma cm_get_all_each es : cm (get_all_each es). Proof. induction es as [|[n v] es IH]; cbn [get_all_each]; cms. Qed.
Hint Resolve cm_get_all_each : cm.
Lemma cm_reg_get_all r : cm (reg_get_all r).
Proof. induction r; cbn [reg_get_all]; auto with cm. unfold std_get_all, std_registered, entries_get. cms. Qed.
Hint Resolve cm_reg_get_all : cm.

Definition reading_call (c : op) : bool :=
  match c with OCount _ | OValue _ | OSnapshot _ | OPercentile _ _ | OPercentiles _ _ | OGetAll _ => true | _ => false end.
Lemma step_heap (st : state) c o (P : list obj -> Prop) :
  (World.call mexp (snd st) c = None -> P (heap (fst st))) -> (forall m, World.call mexp (snd st) c = Some m -> P (heap (fst (m o (fst st))))) ->
  P (heap (fst (fst (step mexp st (c, o))))).
Proof.
  intros A B. unfold World.step. cbn [fst snd]. destruct (World.call mexp (snd st) c) as [m|]; auto. specialize (B m eq_refl). destruct (m o (fst st)) as [w' [z|msg]]; auto.
Qed.
Lemma calm_step (st : state) c o : reading_call c = true -> calm (heap (fst st)) (heap (fst (fst (step mexp st (c, o))))).
Proof.
  intros R. apply step_heap; [intros; apply calm_refl|]. intros m.
  intros Hm. enough (G : cm m) by apply G.
  destruct c; try discriminate R; cbn [World.call] in Hm; unfold obind, only in Hm; destruct (nth_error (snd st) _) as [v|]; try discriminate.
  - unfold m_count in Hm. destruct (cls v); inversion Hm; unfold z_rv; cms.
  - unfold m_value in Hm. destruct (cls v); inversion Hm; unfold z_rv, f_rv; cms.
  - unfold m_snapshot in Hm. destruct (cls v); inversion Hm; unfold v_rv; cms.
  - unfold m_percentiles in Hm. destruct (cls v); inversion Hm; unfold f_rv; apply cm_bind; intros; auto with cm; (apply cm_bind; intros; auto with cm; unfold first_score; auto with cm).
  - unfold m_percentiles in Hm. destruct (cls v); inversion Hm; cms.
  - destruct (class_eqb _ _); inversion Hm; cms.
Qed.

(** ** calls that write *)
(** everything is kept except at the places [P], averages, and what meters publish *)
Definition spared (P : nat -> Prop) (h h' : list obj) : Prop :=
  forall l x, nth_error h l = Some x -> ~ P l -> tag_of x <> TEwma -> tag_of x <> TMeterSnap -> nth_error h' l = Some x.
Lemma spared_refl P h : spared P h h. Proof. intros l x E _ _ _. exact E. Qed.
Lemma spared_trans P h h' h'' : spared P h h' -> spared P h' h'' -> spared P h h''.
Proof. intros A B l x E N T1 T2. apply B; auto. Qed.
Lemma spared_app P h x : spared P h (h ++ [x]).
Proof. intros l y E _ _ _. rewrite nth_error_app1; auto. apply nth_error_Some. congruence. Qed.
Lemma spared_set (P : nat -> Prop) h l y : P l -> spared P h (lset h l y).
Proof. intros H k x E N _ _. rewrite lset_nth_neq; auto. intros ->. auto. Qed.
Lemma spared_set2 (P : nat -> Prop) h l x y : nth_error h l = Some x -> tag_of x = TEwma \/ tag_of x = TMeterSnap -> spared P h (lset h l y).
Proof. intros E T k z Ek N T1 T2. rewrite lset_nth_neq; auto. intros ->. rewrite E in Ek. inversion Ek; subst. intuition. Qed.
Lemma spared_mono (P Q : nat -> Prop) h h' : (forall k, P k -> Q k) -> spared P h h' -> spared Q h h'.
Proof. intros S H l x E N. apply H; auto. Qed.
Definition sp {A} (m : M A) : Prop := forall o w, spared (fun _ => False) (heap w) (heap (fst (m o w))).
Lemma sp_bind {A B} (m : M A) (f : A -> M B) : sp m -> (forall r, sp (f r)) -> sp (bind m f).
Proof. intros H G o w. unfold bind. specialize (H o w). destruct (m o w) as [w' [r|msg]]; cbn [fst] in *; auto. eapply spared_trans; [exact H|apply G]. Qed.
Lemma sp_ret {A} (r : A) : sp (ret r). Proof. intros o w. apply spared_refl. Qed.
Lemma sp_throw {A} m : sp (@throw A m). Proof. intros o w. apply spared_refl. Qed.
Lemma sp_load l : sp (load l). Proof. intros o w. unfold load. destruct (nth_error _ _); apply spared_refl. Qed.
Lemma sp_ewma_do l op : sp (ewma_do l op).
Proof.
  unfold ewma_do. intros o w. unfold bind at 1, load. destruct (nth_error (heap w) l) as [x|] eqn:E; [|apply spared_refl]. destruct x; try apply spared_refl. destruct (cseq _ _) as [[e' r]|]; [|apply spared_refl].
  unfold bind, store, ret. cbn [fst heap set_heap]. eapply spared_set2; [exact E|auto].
Qed.
Lemma sp_ewma_mut op v : sp (ewma_mut op v).
Proof. destruct v; cbn; auto using sp_throw, sp_ret. apply sp_bind; [apply sp_ewma_do|intros; apply sp_ret]. Qed.
Lemma sp_ewma_rate v : sp (ewma_rate v).
Proof. destruct v; cbn; auto using sp_throw, sp_ret, sp_ewma_do. Qed.
Lemma sp_update_snapshot m : sp (update_snapshot m).
Proof.
  unfold update_snapshot. do 3 (apply sp_bind; [apply sp_ewma_rate|intros ?]). unfold msnap_get.
  intros o w. unfold bind at 1 2. unfold load. destruct (nth_error (heap w) (mo_snap m)) as [y|] eqn:E; [|apply spared_refl].
  destruct y; try apply spared_refl. unfold ret, bind, ask, store. cbn [fst heap set_heap]. eapply spared_set2; [exact E|auto].
Qed.
Lemma sp_mark n v : sp (meter_mark n v).
Proof.
  destruct v; cbn; auto using sp_throw, sp_ret. intros o w. unfold meter_get. unfold bind at 1 2. unfold load.
  destruct (nth_error (heap w) l) as [y|] eqn:E; [|apply spared_refl]. destruct y; try apply spared_refl. cbn [ret mo_stopped].
  destruct stopped; [apply spared_refl|]. unfold msnap_get. unfold bind at 1 2. unfold load. cbn [mo_snap].
  destruct (nth_error (heap w) snap) as [y|] eqn:E1; [|apply spared_refl]. destruct y; try apply spared_refl. cbn [ret].
  unfold bind at 1, store. eapply spared_trans; [eapply spared_set2; [exact E1|auto]|].
  match goal with |- spared _ _ (heap (fst (?m ?o ?w))) => enough (G : sp m) by apply (G o w) end.
  do 3 (apply sp_bind; [apply sp_ewma_mut|intros ?]). apply sp_update_snapshot.
Qed.

(** the places a value stands for *)
Definition saim (h : list obj) (s : val) (k : nat) : Prop :=
  match s with
  | VUniform l => k = l \/ exists c n, nth_error h l = Some (OUniform c n k)
  | VExp l => k = l
  | _ => False
  end.
Definition haim (h : list obj) (v : val) (k : nat) : Prop :=
  match v with VHist l => exists s, nth_error h l = Some (OHist s) /\ saim h s k | _ => False end.
Definition aim (h : list obj) (v : val) (k : nat) : Prop :=
  match v with
  | VCounter l | VGauge l | VGaugeF l | VSlice l => k = l
  | VUniform _ | VExp _ => saim h v k
  | VHist _ => haim h v k
  | VTimer l => exists hi m, nth_error h l = Some (OTimer hi m) /\ haim h hi k
  | _ => False
  end.
Lemma sp_sample_update n v o w : spared (saim (heap w) v) (heap w) (heap (fst (sample_update mexp n v o w))).
Proof.
  destruct v; cbn [sample_update]; try apply spared_refl.
  - unfold uni_get, arr_get. unfold bind at 1 2. unfold load. destruct (nth_error (heap w) l) as [y|] eqn:E; [|apply spared_refl]. destruct y; try apply spared_refl. cbn [ret].
    unfold bind at 1 2. destruct (nth_error (heap w) arr) as [y|] eqn:E1; [|apply spared_refl]. destruct y; try apply spared_refl. cbn [ret]. unfold bind at 1, ask. cbn [fst].
    destruct (uni_update _ _ _) as [u r]. unfold bind, store, lift. cbn [fst heap set_heap].
    eapply spared_trans; apply spared_set; cbn [saim]; eauto.
  - unfold exp_get. unfold bind at 1 2. unfold load. destruct (nth_error (heap w) l) as [y|] eqn:E; [|apply spared_refl]. destruct y; try apply spared_refl. cbn [ret]. unfold bind, ask. cbn [fst].
    destruct (exp_update _ _ _ _ _) as [u r]. unfold store, lift. cbn [fst heap set_heap]. apply spared_set. reflexivity.
Qed.
Lemma sp_sample_clear v o w : spared (saim (heap w) v) (heap w) (heap (fst (sample_clear v o w))).
Proof.
  destruct v; cbn [sample_clear]; try apply spared_refl.
  - unfold uni_get. unfold bind at 1 2. unfold load. destruct (nth_error (heap w) l) as [y|] eqn:E; [|apply spared_refl]. destruct y; try apply spared_refl. cbn [ret].
    unfold bind, new_slice, alloc, store. cbn [fst heap set_heap]. eapply spared_trans; [apply spared_app|]. apply spared_set. cbn; auto.
  - unfold exp_get. unfold bind at 1 2. unfold load. destruct (nth_error (heap w) l) as [y|] eqn:E; [|apply spared_refl]. destruct y; try apply spared_refl. cbn [ret]. unfold bind, ask, store. cbn [fst heap set_heap].
    apply spared_set. reflexivity.
Qed.
Lemma sp_hist {A} (f : val -> M A) v o w : (forall s o w, spared (saim (heap w) s) (heap w) (heap (fst (f s o w)))) ->
  spared (haim (heap w) v) (heap w) (heap (fst (bind (hist_sample v) f o w))).
Proof.
  intros H. assert (N : forall s, f s = f s -> match s with VUniform _ | VExp _ => False | _ => True end -> spared (haim (heap w) v) (heap w) (heap (fst (f s o w)))).
  { intros s _ D. eapply spared_mono; [|apply H]. intros k. destruct s; cbn; tauto. }
  unfold bind. destruct v; cbn [hist_sample]; try apply spared_refl.
  - unfold bind, load. destruct (nth_error (heap w) l) as [y|] eqn:E; [|apply spared_refl]. destruct y; try apply spared_refl. cbn [ret]. eapply spared_mono; [|apply H]. intros k S. cbn. eauto.
  - unfold bind, load. destruct (nth_error (heap w) l) as [y|] eqn:E; [|apply spared_refl]. destruct y; try apply spared_refl. cbn [ret]. apply N; auto.
  - apply N; auto.
Qed.
Lemma sp_hist_update n v o w : spared (haim (heap w) v) (heap w) (heap (fst (hist_update mexp n v o w))).
Proof. destruct v; try (apply sp_hist; intros; apply sp_sample_update). apply spared_refl. Qed.
Lemma sp_hist_clear v o w : spared (haim (heap w) v) (heap w) (heap (fst (hist_clear v o w))).
Proof. destruct v; try (apply sp_hist; intros; apply sp_sample_clear). apply spared_refl. Qed.
Lemma sp_record d hi m o w : spared (haim (heap w) hi) (heap w) (heap (fst (bind (hist_update mexp d hi) (fun _ => meter_mark 1 m) o w))).
Proof.
  unfold bind. pose proof (sp_hist_update d hi o w) as H. destruct (hist_update mexp d hi o w) as [w' [r|msg]]; cbn [fst] in *; auto.
  eapply spared_trans; [exact H|]. eapply spared_mono; [|apply sp_mark]. intros k [].
Qed.
Lemma sp_timer_update d v o w : spared (aim (heap w) v) (heap w) (heap (fst (timer_update mexp d v o w))).
Proof.
  destruct v; cbn [timer_update]; try apply spared_refl. cbn [timer_get]. unfold bind at 1 2, load. destruct (nth_error (heap w) l) as [y|] eqn:E; [|apply spared_refl]. destruct y; try apply spared_refl. cbn [ret].
  eapply spared_mono; [|apply sp_record]. intros k S. cbn. eauto.
Qed.
Lemma sp_timer_since d v o w : spared (aim (heap w) v) (heap w) (heap (fst (timer_update_since mexp d v o w))).
Proof.
  destruct v; cbn [timer_update_since]; try apply spared_refl. unfold bind at 1, ask. cbn [timer_get]. unfold bind at 1 2, load. destruct (nth_error (heap w) l) as [y|] eqn:E; [|apply spared_refl]. destruct y; try apply spared_refl. cbn [ret].
  eapply spared_mono; [|apply sp_record]. intros k S. cbn. eauto.
Qed.
Lemma sp_unit {A B} P (m : M A) (r : B) o w : spared P (heap w) (heap (fst (m o w))) -> spared P (heap w) (heap (fst (bind m (fun _ => ret r) o w))).
Proof. unfold bind. destruct (m o w) as [w' [a|msg]]; auto. Qed.
Lemma sp_at {A} l (f : obj -> M A) (P : nat -> Prop) o w : (forall x, nth_error (heap w) l = Some x -> spared P (heap w) (heap (fst (f x o w)))) -> spared P (heap w) (heap (fst (bind (load l) f o w))).
Proof. intros H. unfold bind, load. destruct (nth_error (heap w) l) as [x|] eqn:E; [|apply spared_refl]. now apply H. Qed.
Lemma sp_counter_mut v op o w : spared (aim (heap w) v) (heap w) (heap (fst (counter_mut v op o w))).
Proof.
  destruct v; cbn [counter_mut]; try apply spared_refl. apply sp_unit. unfold c_do, c_load. unfold bind at 1 2, load. destruct (nth_error (heap w) l) as [x|] eqn:E; [|apply spared_refl]. destruct x; try apply spared_refl. cbn [ret].
  apply sp_unit. unfold store. cbn [fst heap set_heap]. apply spared_set. reflexivity.
Qed.
Lemma sp_gauge_update v n o w : spared (aim (heap w) v) (heap w) (heap (fst (gauge_update v n o w))).
Proof.
  destruct v; cbn [gauge_update]; try apply spared_refl. apply sp_unit. unfold g_do. apply sp_at. intros x E. destruct x; try apply spared_refl. apply sp_unit. apply spared_set. reflexivity.
Qed.
Lemma sp_gaugef_update v n o w : spared (aim (heap w) v) (heap w) (heap (fst (gaugef_update v n o w))).
Proof.
  destruct v; cbn [gaugef_update]; try apply spared_refl. apply sp_unit. unfold gf_do. apply sp_at. intros x E. destruct x; try apply spared_refl. apply sp_unit. apply spared_set. reflexivity.
Qed.

(** the receiver of a call that writes *)
Definition writes_on (en : env) (c : op) : option val :=
  match c with
  | OInc y _ | ODec y _ | OClear y | OUpdate y _ | OUpdateF y _ | OTimeEnd y _ | OUpdateSince y _ | OWriteSlice y _ _ => nth_error en y
  | _ => None
  end.
Definition writing_call (c : op) : bool :=
  match c with OInc _ _ | ODec _ _ | OClear _ | OUpdate _ _ | OUpdateF _ _ | OTimeEnd _ _ | OUpdateSince _ _ | OWriteSlice _ _ _ => true | _ => false end.
Lemma spared_step (st : state) c o : writing_call c = true ->
  spared (fun k => exists v, writes_on (snd st) c = Some v /\ aim (heap (fst st)) v k) (heap (fst st)) (heap (fst (fst (step mexp st (c, o))))).
Proof.
  intros R. apply step_heap; [intros; apply spared_refl|]. intros m Hm.
  assert (G : forall v, writes_on (snd st) c = Some v -> spared (aim (heap (fst st)) v) (heap (fst st)) (heap (fst (m o (fst st))))).
  { intros v Hv. assert (SS : forall v, match v with VUniform _ | VExp _ => aim (heap (fst st)) v = saim (heap (fst st)) v | _ => forall k, saim (heap (fst st)) v k -> False end) by (intros []; cbn; auto).
    assert (S1 : spared (saim (heap (fst st)) v) (heap (fst st)) (heap (fst (m o (fst st)))) -> spared (aim (heap (fst st)) v) (heap (fst st)) (heap (fst (m o (fst st))))).
    { apply spared_mono. intros k S. specialize (SS v). destruct v; try (exfalso; eapply SS; eassumption); exact S. }
    assert (S2 : spared (haim (heap (fst st)) v) (heap (fst st)) (heap (fst (m o (fst st)))) -> spared (aim (heap (fst st)) v) (heap (fst st)) (heap (fst (m o (fst st))))).
    { apply spared_mono. intros k S. destruct v; cbn in S; try contradiction. exact S. }
    destruct c; try discriminate R; cbn [writes_on] in Hv; cbn [World.call] in Hm; unfold obind, only, arg in Hm; rewrite Hv in Hm.
    - destruct (cls v) eqn:C; try discriminate. inversion Hm; subst m. apply sp_unit. unfold slice_write. destruct v; try apply spared_refl.
      unfold arr_get. unfold bind at 1 2, load. destruct (nth_error (heap (fst st)) l) as [y|] eqn:E; [|apply spared_refl]. destruct y; try apply spared_refl. cbn [ret]. unfold bind, lift. destruct (sset xs i n) as [ys|]; [|apply spared_refl].
      unfold store. cbn [fst heap set_heap]. apply spared_set. reflexivity.
    - destruct (class_eqb _ _); inversion Hm; subst m. apply sp_unit, sp_counter_mut.
    - destruct (class_eqb _ _); inversion Hm; subst m. apply sp_unit, sp_counter_mut.
    - unfold m_clear in Hm. destruct (cls v) eqn:C; inversion Hm; subst m.
      + apply sp_unit, sp_counter_mut.
      + apply S1. apply sp_unit, sp_sample_clear.
      + apply S2. apply sp_unit, sp_hist_clear.
    - unfold m_update in Hm. destruct (cls v) eqn:C; inversion Hm; subst m.
      + apply sp_unit, sp_gauge_update.
      + apply S1. apply sp_unit, sp_sample_update.
      + apply S2. apply sp_unit, sp_hist_update.
      + apply sp_unit. eapply spared_mono; [|apply sp_ewma_mut]. intros k [].
      + apply sp_unit, sp_timer_update.
    - destruct (class_eqb _ _); inversion Hm; subst m. apply sp_unit, sp_gaugef_update.
    - destruct (class_eqb _ _); inversion Hm; subst m. apply sp_unit. unfold timer_end, bind, ask. apply sp_timer_update.
    - destruct (class_eqb _ _); inversion Hm; subst m. apply sp_unit, sp_timer_since. }
  destruct (writes_on (snd st) c) as [v|] eqn:Ev.
  - eapply spared_mono; [|exact (G v eq_refl)]. intros k A. exists v. auto.
  - exfalso. destruct c; try discriminate R; cbn [writes_on] in Ev; cbn [World.call] in Hm; unfold obind, arg in Hm; rewrite Ev in Hm; discriminate.
Qed.

(** ** together: what a call does to an object it is not aimed at *)
Definition settled (t : tag) : Prop := match t with TCounter | TGauge | TGaugeF | TUniform | TExp | TArr => True | _ => False end.
Lemma keeps_step (st : state) c o l x : inv st -> nth_error (heap (fst st)) l = Some x -> settled (tag_of x) ->
  (forall v, writes_on (snd st) c = Some v -> ~ aim (heap (fst st)) v l) ->
  exists y, nth_error (heap (fst (fst (step mexp st (c, o))))) l = Some y /\ calm_obj x y.
Proof.
  intros I E S N. destruct (reading_call c) eqn:R; [exact (calm_step st c o R l x E)|].
  destruct (writing_call c) eqn:W.
  - exists x. split; [|apply calm_obj_refl]. apply (spared_step st c o W); auto.
    + intros (v & Ev & A). exact (N v Ev A).
    + destruct x; cbn in *; try discriminate; contradiction.
    + destruct x; cbn in *; try discriminate; contradiction.
  - exists x. split; [|apply calm_obj_refl]. apply untouched; auto. intros T. destruct x; cbn in S; try contradiction; destruct c; try discriminate R; try discriminate W; cbn in T; intuition congruence.
Qed.
End Exp.
