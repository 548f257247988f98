(** Constructors, registries and whole calls. *)
From Coq Require Import ZArith List String Bool Lia Permutation Arith.
From Verif.Model Require Import GoInt GoFloat GoBase Stats Uniform ExpDecay Conc CounterGauge Ewma Meter World.
From Verif.Proofs Require Import SortFacts StatsInt EwmaSeq WorldBase WorldOps.
Import ListNotations.
Local Open Scope nat_scope.
Local Open Scope list_scope.

(** ** registry entries *)
Lemma lookup_in name es v : lookup name es = Some v -> In (name, v) es.
Proof.
  induction es as [|[k x] es IH]; cbn; [discriminate|]. destruct (String.eqb_spec k name) as [->|N]; [|auto].
  intros H; inversion H; auto.
Qed.
Lemma lookup_none name es : lookup name es = None <-> ~ In name (map fst es).
Proof.
  induction es as [|[k x] es IH]; cbn; [tauto|]. destruct (String.eqb_spec k name) as [->|N].
  - split; [discriminate|]. intros H; exfalso; apply H; auto.
  - rewrite IH. tauto.
Qed.
Lemma in_lookup name es v : NoDup (map fst es) -> In (name, v) es -> lookup name es = Some v.
Proof.
  induction es as [|[k x] es IH]; cbn; [tauto|]. intros N [H|H].
  - inversion H; subst. now rewrite String.eqb_refl.
  - inversion N; subst. destruct (String.eqb_spec k name) as [->|D]; [|auto].
    exfalso. apply H2. change name with (fst (name, v)). now apply in_map.
Qed.
Lemma nodup_fst_filter {B} (f : string * B -> bool) es : NoDup (map fst es) -> NoDup (map fst (filter f es)).
Proof.
  induction es as [|kv es IH]; cbn; auto. intros N. inversion N; subst. destruct (f kv); cbn; auto.
  constructor; auto. intros H. apply H1. apply in_map_iff in H. destruct H as (x & E & H). apply filter_In in H.
  rewrite <- E. apply in_map. apply H.
Qed.

Section U.
Variable U : nat -> Prop.
Variable mexp : f64 -> f64.
Notation tri := (tri U).

Ltac stab := repeat first [apply stable_snapat|apply stable_arg|apply stable_ook|apply stable_and|apply stable_tag|apply stable_vok|apply stable_const|apply stable_owned].
Ltac crush := repeat match goal with H : _ /\ _ |- _ => destruct H end; cbn in *; subst; intuition (try congruence; auto).
Ltac bad := apply tri_absurd; intros ? _ ?; crush; fail.
Ltac tb L := eapply tri_bind'; [stab|apply L|cbv beta|cbv beta; intros].
Ltac nod := solve [discriminate | apply tri_throw; discriminate].
Notation any := (fun _ : world => True).
(** what a call may hand out: anything but a slice, slices the program has already, and new ones *)
Variable X : val -> Prop.
Variable n0 : nat.
Definition nsl (v : val) : Prop := match v with VSlice _ => False | _ => True end.
Hypothesis X_nsl : forall v, nsl v -> X v.
Hypothesis X_zero : X (VSlice zero_base).
Definition good (v : val) (w : world) : Prop := vok (heap w) v /\ X v.
Lemma cls_nsl v : cls v <> CSlice -> nsl v.
Proof. destruct v; cbn; auto. Qed.
Lemma arg_good c v w : c <> CSlice -> arg_ok c v w -> good v w.
Proof. intros N [C V]. split; auto. apply X_nsl, cls_nsl. congruence. Qed.
Lemma stable_good v : stable U (good v).
Proof. apply stable_and; [apply stable_vok|apply stable_const]. Qed.
Lemma metric_nsl v : is_metric v = true -> nsl v.
Proof. destruct v; cbn; auto; discriminate. Qed.

(** ** constructors *)
Lemma t_unless stub m c P : cls stub = c -> vok [] stub -> tri P m (arg_ok c) -> tri P (unless_nil stub m) (arg_ok c).
Proof.
  intros C V H o w W Pw. unfold unless_nil, bind, gets. destruct (usenil w); [|apply H; auto].
  cbn [ret fst snd]. split; auto. split; [apply legalh_refl|]. split; auto.
  eapply vok_mono; [|exact V]. split; intros l t (x & E & _); destruct l; discriminate.
Qed.
Lemma t_alloc_val {A} (o : obj) (f : nat -> A) (P : world -> Prop) (Q : A -> world -> Prop) :
  no_own o ->
  stable U P -> (forall w, P w -> ook (heap w) o) ->
  (forall l w, tagat (heap w) l (tag_of o) -> Q (f l) w) -> tri P (l <- alloc o;; ret (f l)) Q.
Proof.
  intros N S K H. eapply tri_bind'; [exact S|apply (tri_alloc U o N)|exact K|]. intros l. apply tri_ret. intros w [_ T]. auto.
Qed.
Lemma t_new_ewma a : tri any (new_ewma a) (arg_ok CEwma).
Proof.
  apply t_unless; cbn; auto. apply t_alloc_val; cbn; auto; [stab|intros; reflexivity|]. intros l w T. split; auto.
Qed.
Lemma t_new_exp n a : tri any (new_exp n a) (arg_ok CSample).
Proof.
  apply t_unless; cbn; auto. destruct (n <? 0)%Z; [nod|]. tb (@tri_ask U Z (fun _ => True)); auto.
  apply t_alloc_val; cbn; auto; [stab|]. intros l w T. split; auto.
Qed.
Lemma t_new_hist s : tri (arg_ok CSample s) (new_hist s) (arg_ok CHist).
Proof.
  apply t_unless; cbn; auto. apply t_alloc_val; cbn; auto; [stab|]. intros l w T. split; auto.
Qed.
Lemma nth_mid {A} (l : list A) a r : nth_error (l ++ a :: r) (List.length l) = Some a.
Proof. rewrite nth_error_app2, Nat.sub_diag by lia. reflexivity. Qed.
Lemma t_new_uniform n : tri any (new_uniform n) (arg_ok CSample).
Proof.
  apply t_unless; cbn; auto. destruct (n <? 0)%Z; [nod|].
  intros o w W _. unfold new_slice, alloc, bind, ret. cbn [fst snd set_heap heap].
  set (a := List.length (heap w)).
  assert (A2 : 2 <= a) by (pose proof (nth_lt _ _ _ (wf_zero w W)); unfold zero_base in *; lia).
  assert (W1 : wf (set_heap (heap w ++ [OArr []]) w)) by (apply wf_alloc; cbn; auto).
  split; [|split].
  - apply (wf_alloc _ (OUniform 0 n a) W1 I). cbn. split; auto. exists (OArr []). split; auto. apply nth_mid.
  - unfold legal. cbn [heap set_heap]. rewrite <- app_assoc. apply legalh_apps. repeat constructor.
  - split; auto. cbn. exists (OUniform 0 n a). split; auto. apply nth_mid.
Qed.
Lemma running_app_meter h s a b c t k :
  running (h ++ [OMeter s a b c t false]) k <-> running h k \/ k = List.length h.
Proof.
  unfold running. split.
  - intros (s' & a' & b' & c' & t' & E). destruct (lt_dec k (List.length h)) as [L|L].
    + rewrite nth_error_app1 in E by auto. left. eauto 7.
    + right. apply nth_lt in E. rewrite app_length in E. cbn in E. lia.
  - intros [(s' & a' & b' & c' & t' & E)| ->].
    + eexists _, _, _, _, _. apply nth_app_l. exact E.
    + eexists _, _, _, _, _. apply nth_mid.
Qed.
Lemma t_new_meter : tri any (new_meter mexp) (arg_ok CMeter).
Proof.
  intros o w W _. unfold new_meter, unless_nil, gets, bind. destruct (usenil w) eqn:B.
  { cbn. split; auto. split; [apply legalh_refl|]. split; cbn; auto. }
  unfold alloc, new_ewma, unless_nil, gets, bind, ask, ret, alloc.
  cbn [set_heap heap alive ticking usenil]. rewrite !B. cbn [set_heap heap alive ticking usenil fst snd]. rewrite !B.
  cbn [set_heap heap alive ticking usenil fst snd]. rewrite ?B. cbn [set_heap heap alive ticking usenil fst snd].
  set (h0 := heap w). set (e1 := OEwma (NewEWMA (ewma_alpha mexp 1))). set (e5 := OEwma (NewEWMA (ewma_alpha mexp 5))). set (e15 := OEwma (NewEWMA (ewma_alpha mexp 15))).
  set (s := OMeterSnap 0 0 0 0 0).
  set (h1 := h0 ++ [s]). set (h2 := h1 ++ [e1]). set (h3 := h2 ++ [e5]). set (h4 := h3 ++ [e15]).
  set (m := OMeter (List.length h0) (VEwma (List.length h1)) (VEwma (List.length h2)) (VEwma (List.length h3)) (o_now o) false).
  assert (W1 : wf (set_heap h1 w)) by (apply wf_alloc; cbn; auto).
  assert (W2 : wf (set_heap h2 w)) by (apply (wf_alloc _ e1 W1 I); reflexivity).
  assert (W3 : wf (set_heap h3 w)) by (apply (wf_alloc _ e5 W2 I); reflexivity).
  assert (W4 : wf (set_heap h4 w)) by (apply (wf_alloc _ e15 W3 I); reflexivity).
  assert (T : tagat h4 (List.length h0) TMeterSnap /\ tagat h4 (List.length h1) TEwma /\ tagat h4 (List.length h2) TEwma /\ tagat h4 (List.length h3) TEwma).
  { repeat split.
    - exists s. split; auto. unfold h4, h3, h2, h1. rewrite <- !app_assoc. apply nth_mid.
    - exists e1. split; auto. unfold h4, h3, h2. rewrite <- !app_assoc. apply nth_mid.
    - exists e5. split; auto. unfold h4, h3. rewrite <- !app_assoc. apply nth_mid.
    - exists e15. split; auto. unfold h4. apply nth_mid. }
  assert (EQ : h4 ++ [m] = h0 ++ [s; e1; e5; e15; m]) by (unfold h4, h3, h2, h1; rewrite <- !app_assoc; reflexivity).
  assert (K : ook (h4 ++ [m]) m).
  { cbn. destruct T as (T1 & T2 & T3 & T4).
    assert (G : forall l t, tagat h4 l t -> tagat (h4 ++ [m]) l t) by (intros l t (x & E & H); exists x; split; auto; now apply nth_app_l).
    repeat split; auto. }
  assert (L0 : tags_le h0 (h4 ++ [m])).
  { rewrite EQ. apply tags_le_app. repeat constructor. }
  split; [|split].
  - pose proof (wf_obj w W) as O0. pose proof (wf_reg w W) as R0. fold h0 in O0, R0.
    destruct W4. cbn [set_heap heap alive ticking usenil] in *. constructor; cbn [set_heap heap alive ticking usenil].
    + intros l x E. destruct (lt_dec l (List.length h0)) as [L|L].
      * rewrite EQ, nth_error_app1 in E by auto. eapply ook_mono; [exact L0|]. eauto.
      * rewrite EQ, nth_error_app2 in E by lia. remember (l - List.length h0) as k.
        destruct k as [|[|[|[|[|[|]]]]]]; cbn in E; inversion E; subst x; try exact I; try reflexivity. exact K.
    + apply L0. auto.
    + now apply nth_app_l.
    + apply NoDup_app_disj; auto; [repeat constructor; auto|]. intros x Hx [<-|[]]. apply wf_alive in Hx.
      destruct Hx as (a1 & a2 & a3 & a4 & a5 & E). apply nth_lt in E. lia.
    + intros l. rewrite in_app_iff. unfold m. rewrite running_app_meter. rewrite wf_alive. cbn. intuition.
    + auto.
    + intros l s' a b c t st E. destruct (lt_dec l (List.length h4)) as [L|L]; [rewrite nth_error_app1 in E by auto; eauto|].
      rewrite nth_error_app2 in E by lia. destruct (l - List.length h4) as [|j] eqn:J; cbn in E; [|destruct j; discriminate].
      inversion E; subst. unfold h4, h3, h2, h1 in *. rewrite !app_length in *. cbn [List.length] in *. repeat split; try (f_equal; lia).
  - unfold legal. cbn [heap]. unfold h4, h3, h2, h1. rewrite <- !app_assoc. apply legalh_apps. cbn. repeat constructor; cbn; auto.
  - split; auto. cbn. exists m. split; auto. apply nth_mid.
Qed.
Lemma t_new_timer : tri any (new_timer mexp) (arg_ok CTimer).
Proof.
  apply t_unless; cbn; auto. tb (t_new_exp 1028 f_0015); auto. tb (t_new_hist a); [crush|]. tb t_new_meter; auto.
  apply t_alloc_val; cbn; auto; [stab|unfold arg_ok; tauto|]. intros l w T. split; auto.
Qed.

Definition ctor_class (k : ctor) : class :=
  match k with
  | KCounter => CCounter | KGauge | KFuncGauge _ => CGauge | KGaugeF | KFuncGaugeF _ => CGaugeF | KHealth _ => CHealth
  | KUniform _ | KExp _ _ => CSample | KHist _ => CHist | KEwma _ => CEwma | KMeter => CMeter | KTimer | KCustomTimer _ _ => CTimer
  end.
Definition ctor_ok (k : ctor) (w : world) : Prop :=
  match k with KHist s => arg_ok CSample s w | KCustomTimer h m => arg_ok CHist h w /\ arg_ok CMeter m w | _ => True end.
Lemma stable_ctor k : stable U (ctor_ok k).
Proof. destruct k; cbn [ctor_ok]; stab. Qed.
Lemma t_construct k : tri (ctor_ok k) (construct mexp k) (arg_ok (ctor_class k)).
Proof.
  destruct k; cbn [construct ctor_ok ctor_class];
    try (apply t_unless; cbn; auto; first [apply t_alloc_val; cbn; auto; [stab|intros l w T; split; auto] | apply tri_ret; intros w _; split; cbn; auto]; fail).
  all: try first [apply t_new_uniform|apply t_new_exp|apply t_new_hist|apply t_new_ewma|apply t_new_meter|apply t_new_timer].
Qed.

(** ** the standard registry *)
Lemma t_entries_get l : tri (fun w => tagat (heap w) l TReg) (entries_get l) (fun es w => ook (heap w) (OReg es)).
Proof. unfold entries_get. tb (t_load U l TReg); auto. destruct a; try bad. apply tri_ret. intros w H. apply H. Qed.
Lemma ook_reg_in h es name v : ook h (OReg es) -> lookup name es = Some v -> is_metric v = true /\ vok h v.
Proof. intros [_ F] L. apply lookup_in in L. rewrite Forall_forall in F. apply (F _ L). Qed.
Lemma t_std_register l name v : tri (fun w => tagat (heap w) l TReg /\ vok (heap w) v) (std_register l name v) (fun _ _ => True).
Proof.
  unfold std_register. tb (t_entries_get l); [tauto|]. destruct (lookup name a) eqn:L; [apply tri_ret; auto|].
  eapply tri_bind' with (P' := fun w => (tagat (heap w) l TReg /\ vok (heap w) v) /\ ook (heap w) (OReg a)) (Q := fun _ _ => True); [stab| |intros w H; exact H|].
  - destruct (is_metric v) eqn:I; [|apply tri_ret; auto].
    eapply tri_weak; [apply tri_store_reg|]. intros w ((T & V) & N & F). split; auto. split.
    + rewrite map_app. apply NoDup_app_disj; auto; [repeat constructor; auto|]. intros x Hx [<-|[]].
      apply lookup_none in L. auto.
    + apply Forall_app. split; auto.
  - intros ?. apply tri_ret; auto.
Qed.
Lemma reg_good w es name v : ook (heap w) (OReg es) -> lookup name es = Some v -> good v w.
Proof. intros K L. destruct (ook_reg_in _ _ _ _ K L) as [M V]. split; auto. apply X_nsl, metric_nsl, M. Qed.
Lemma t_std_get l name : tri (fun w => tagat (heap w) l TReg) (std_get l name) good.
Proof.
  unfold std_get. tb (t_entries_get l); auto. apply tri_ret. intros w [_ K]. destruct (lookup name a) eqn:L.
  - eapply reg_good; eauto.
  - split; [cbn; auto|apply X_nsl; exact I].
Qed.
Lemma t_std_gor l name mk (P : world -> Prop) : stable U P -> tri P mk good ->
  tri (fun w => tagat (heap w) l TReg /\ P w) (std_get_or_register l name mk) good.
Proof.
  intros S H. unfold std_get_or_register.
  eapply tri_bind'; [apply stable_and; [stab|exact S]|apply t_entries_get|intros w Y; apply Y|]. intros es.
  destruct (lookup name es) eqn:L.
  - apply tri_ret. intros w [_ K]. eapply reg_good; eauto.
  - eapply tri_bind'; [apply stable_and; [apply stable_and; [stab|exact S]|stab]|exact H|intros w Y; apply Y|]. intros v.
    eapply tri_weak with (P' := fun w => tagat (heap w) l TReg /\ good v w); [|tauto].
    eapply tri_bind'; [apply stable_and; [stab|apply stable_good]|apply (t_std_register l name v)|unfold good; tauto|]. intros. apply tri_ret; tauto.
Qed.
Lemma t_stop_value v : tri (fun w => vok (heap w) v) (stop_value v) (fun _ _ => True).
Proof.
  unfold stop_value. destruct (cls v) eqn:C; try (apply tri_ret; auto; fail).
  - eapply tri_weak; [apply t_meter_stop|]. intros w V; split; auto.
  - eapply tri_weak; [apply t_timer_stop|]. intros w V; split; auto.
Qed.
Lemma ook_filter h f es : ook h (OReg es) -> ook h (OReg (filter f es)).
Proof.
  intros [N F]. split; [apply nodup_fst_filter; auto|]. rewrite Forall_forall in *. intros x Hx. apply filter_In in Hx. apply F, Hx.
Qed.
Lemma t_std_unregister l name : tri (fun w => tagat (heap w) l TReg) (std_unregister l name) (fun _ _ => True).
Proof.
  unfold std_unregister. tb (t_entries_get l); auto.
  eapply tri_bind' with (P' := fun w => tagat (heap w) l TReg /\ ook (heap w) (OReg a)) (Q := fun _ _ => True); [stab| |intros w H; exact H|].
  - destruct (lookup name a) eqn:L; [|apply tri_ret; auto]. eapply tri_weak; [apply t_stop_value|].
    intros w [_ K]. eapply ook_reg_in; eauto.
  - intros ?. eapply tri_weak with (P' := fun w => tagat (heap w) l TReg); [|tauto].
    tb (t_entries_get l); auto. eapply tri_weak; [apply tri_store_reg|]. intros w [T K]. split; auto. apply ook_filter; auto.
Qed.
Lemma t_unregister_each l names : tri (fun w => tagat (heap w) l TReg) (unregister_each l names) (fun _ _ => True).
Proof.
  induction names; cbn [unregister_each]; [apply tri_ret; auto|]. tb (t_std_unregister l a); auto.
  eapply tri_weak; [apply IHnames|tauto].
Qed.
Lemma t_std_unregister_all l : tri (fun w => tagat (heap w) l TReg) (std_unregister_all l) (fun _ _ => True).
Proof.
  unfold std_unregister_all. tb (t_entries_get l); auto. tb (@tri_ask U (list nat) any); auto.
  eapply tri_weak; [apply t_unregister_each|tauto].
Qed.
Lemma ook_perm h es es' : Permutation es es' -> ook h (OReg es) -> ook h (OReg es').
Proof.
  intros P [N F]. split; [eapply Permutation_NoDup; [apply Permutation_map; exact P|auto]|].
  rewrite Forall_forall in *. intros x Hx. apply F. eapply Permutation_in; [apply Permutation_sym; exact P|auto].
Qed.
Lemma t_std_registered l : tri (fun w => tagat (heap w) l TReg) (std_registered l) (fun es w => ook (heap w) (OReg es)).
Proof.
  unfold std_registered. tb (t_entries_get l); auto. tb (@tri_ask U (list nat) any); auto.
  apply tri_ret. intros w H. eapply ook_perm; [apply Permutation_sym, in_order_perm|]. apply H.
Qed.
Lemma stable_Forall {A} (p : A -> world -> Prop) l : (forall a, stable U (p a)) -> stable U (fun w => Forall (fun a => p a w) l).
Proof. intros S w w' L F. eapply Forall_impl; [|exact F]. intros a. apply (S a w w' L). Qed.
Lemma t_check_each vs : tri (fun w => Forall (fun v => vok (heap w) v) vs) (check_each vs) (fun _ _ => True).
Proof.
  induction vs; cbn [check_each]; [apply tri_ret; auto|].
  eapply tri_bind' with (P' := fun w => vok (heap w) a) (Q := fun _ _ => True).
  - apply (stable_Forall (fun v w => vok (heap w) v)). intros v. stab.
  - destruct (cls a) eqn:C; try (apply tri_ret; auto; fail). eapply tri_weak; [apply t_health_check|]. intros w V; split; auto.
  - intros w F. inversion F; auto.
  - intros ?. eapply tri_weak; [apply IHvs|]. intros w [F _]. inversion F; auto.
Qed.
Lemma ook_snd h es : ook h (OReg es) -> Forall (fun v => vok h v) (map snd es).
Proof.
  intros [_ F]. rewrite Forall_forall in *. intros v Hv. apply in_map_iff in Hv. destruct Hv as (x & <- & Hx). apply (F _ Hx).
Qed.
Lemma t_std_run_healthchecks l : tri (fun w => tagat (heap w) l TReg) (std_run_healthchecks l) (fun _ _ => True).
Proof.
  unfold std_run_healthchecks. tb (t_std_registered l); auto. eapply tri_weak; [apply t_check_each|]. intros w [_ K].
  apply ook_snd; auto.
Qed.

Lemma t_keep {A B} (P : world -> Prop) (m : M A) (f : A -> M B) R :
  stable U P -> tri P m (fun _ _ => True) -> (forall a, tri P (f a) R) -> tri P (bind m f) R.
Proof. intros S H K. eapply tri_bind; [exact S|exact H|]. intros a. eapply tri_weak; [apply K|tauto]. Qed.
Lemma t_get_all_one v : tri (fun w => vok (heap w) v) (get_all_one v) (fun _ _ => True).
Proof.
  unfold get_all_one. destruct (cls v) eqn:C; try (apply tri_ret; auto; fail); apply tri_weak with (P' := arg_ok (cls v) v) || idtac;
    try (intros w V; split; auto; fail); rewrite C.
  - apply t_keep; [stab|apply t_counter_count|intros; apply tri_ret; auto].
  - apply t_keep; [stab|apply t_gauge_value|intros; apply tri_ret; auto].
  - apply t_keep; [stab|apply t_gaugef_value|intros; apply tri_ret; auto].
  - apply t_keep; [stab|apply t_health_check|intros]. apply t_keep; [stab|apply t_health_error|intros; apply tri_ret; auto].
  - eapply tri_bind'; [stab|apply t_hist_snapshot|auto|]. intros h.
    apply tri_weak with (P' := arg_ok CHist h).
    + repeat (apply t_keep; [stab|first [apply t_hist_percentiles|apply t_hist_count|apply t_hist_stat]|intros]). apply tri_ret; auto.
    + intros w (_ & V & K). split; auto. destruct h; cbn; tauto.
  - eapply tri_bind'; [stab|apply t_meter_snapshot|auto|]. intros h.
    apply tri_weak with (P' := arg_ok CMeter h).
    + repeat (apply t_keep; [stab|first [apply t_meter_rate|apply t_meter_count]|intros]). apply tri_ret; auto.
    + intros w (_ & V & K). split; auto. destruct h; cbn; tauto.
  - eapply tri_bind'; [stab|apply t_timer_snapshot|auto|]. intros h.
    apply tri_weak with (P' := arg_ok CTimer h).
    + repeat (apply t_keep; [stab|first [apply t_timer_percentiles|apply t_timer_count|apply t_timer_stat|apply t_timer_rate]|intros]). apply tri_ret; auto.
    + intros w (_ & V & K). split; auto. destruct h; cbn; tauto.
Qed.
Lemma t_get_all_each es : tri (fun w => Forall (fun v => vok (heap w) v) (map snd es)) (get_all_each es) (fun _ _ => True).
Proof.
  induction es as [|[name v] es IH]; cbn [get_all_each map snd]; [apply tri_ret; auto|].
  apply t_keep; [apply (stable_Forall (fun v w => vok (heap w) v)); intros; stab| |intros f].
  - eapply tri_weak; [apply t_get_all_one|]. intros w F. inversion F; auto.
  - apply t_keep; [apply (stable_Forall (fun v w => vok (heap w) v)); intros; stab| |intros; apply tri_ret; auto].
    eapply tri_weak; [apply IH|]. intros w F. inversion F; auto.
Qed.
Lemma t_std_get_all l : tri (fun w => tagat (heap w) l TReg) (std_get_all l) (fun _ _ => True).
Proof.
  unfold std_get_all. tb (t_std_registered l); auto. eapply tri_weak; [apply t_get_all_each|]. intros w [_ K].
  apply ook_snd; auto.
Qed.

(** ** registries *)
Ltac regs r H := induction r; intros; cbn; try (unfold arg_ok; bad);
  [eapply tri_weak; [apply H|unfold arg_ok; cbn; tauto]|].
Lemma arg_under u p w : arg_ok CReg (VPref u p) w -> arg_ok CReg u w.
Proof. unfold arg_ok. cbn. tauto. Qed.
Lemma t_reg_get r : forall name, tri (arg_ok CReg r) (reg_get r name) good.
Proof.
  induction r; intros; cbn [reg_get]; try (unfold arg_ok; bad).
  - eapply tri_weak; [apply t_std_get|unfold arg_ok; cbn; tauto].
  - eapply tri_weak; [apply IHr|apply arg_under].
Qed.
Lemma t_reg_gor r mk P : stable U P -> tri P mk good -> forall name,
  tri (fun w => arg_ok CReg r w /\ P w) (reg_get_or_register r name mk) good.
Proof.
  intros S H. induction r; intros; cbn [reg_get_or_register]; try (unfold arg_ok; bad).
  - eapply tri_weak; [apply (t_std_gor _ _ _ P S H)|unfold arg_ok; cbn; tauto].
  - eapply tri_weak; [apply IHr|]. intros w [A B]. split; auto. eapply arg_under; eauto.
Qed.
Lemma t_reg_register r v : forall name, tri (fun w => arg_ok CReg r w /\ vok (heap w) v) (reg_register r name v) (fun _ _ => True).
Proof.
  induction r; intros; cbn [reg_register]; try (unfold arg_ok; bad).
  - eapply tri_weak; [apply t_std_register|unfold arg_ok; cbn; tauto].
  - eapply tri_weak; [apply IHr|]. intros w [A B]. split; auto. eapply arg_under; eauto.
Qed.
Lemma t_reg_unregister r : forall name, tri (arg_ok CReg r) (reg_unregister r name) (fun _ _ => True).
Proof.
  induction r; intros; cbn [reg_unregister]; try (unfold arg_ok; bad).
  - eapply tri_weak; [apply t_std_unregister|unfold arg_ok; cbn; tauto].
  - eapply tri_weak; [apply IHr|apply arg_under].
Qed.
Lemma t_reg_unregister_all r : tri (arg_ok CReg r) (reg_unregister_all r) (fun _ _ => True).
Proof.
  induction r; intros; cbn [reg_unregister_all]; try (unfold arg_ok; bad).
  - eapply tri_weak; [apply t_std_unregister_all|unfold arg_ok; cbn; tauto].
  - eapply tri_weak; [apply IHr|apply arg_under].
Qed.
Lemma t_reg_run_healthchecks r : tri (arg_ok CReg r) (reg_run_healthchecks r) (fun _ _ => True).
Proof.
  induction r; intros; cbn [reg_run_healthchecks]; try (unfold arg_ok; bad).
  - eapply tri_weak; [apply t_std_run_healthchecks|unfold arg_ok; cbn; tauto].
  - eapply tri_weak; [apply IHr|apply arg_under].
Qed.
Lemma t_reg_get_all r : tri (arg_ok CReg r) (reg_get_all r) (fun _ _ => True).
Proof.
  induction r; intros; cbn [reg_get_all]; try (unfold arg_ok; bad).
  - eapply tri_weak; [apply t_std_get_all|unfold arg_ok; cbn; tauto].
  - eapply tri_weak; [apply IHr|apply arg_under].
Qed.
Lemma find_prefix_ok r h : forall p, cls r = CReg -> vok h r -> exists l q, find_prefix r p = (Some l, q) /\ tagat h l TReg.
Proof.
  induction r; intros q; cbn; try discriminate.
  - intros _ T. eauto.
  - intros _ [C V]. auto.
Qed.
Lemma t_reg_each r : tri (arg_ok CReg r) (reg_each r) (fun es w => ook (heap w) (OReg es)).
Proof.
  intros o w W A. pose proof A as [C V].
  assert (G : forall l q, tagat (heap w) l TReg ->
    let m := (es <- std_registered l;; ret (filter (fun kv => String.prefix q (fst kv)) es)) in
    wf (fst (m o w)) /\ legal U w (fst (m o w)) /\ match snd (m o w) with Ok a => ook (heap (fst (m o w))) (OReg a) | Panic msg => msg <> msg_dangling end).
  { intros l q T. cbv zeta. apply (tri_bind' U (fun w => tagat (heap w) l TReg) (fun w => tagat (heap w) l TReg) _ (fun es w => ook (heap w) (OReg es)) _ (fun es w => ook (heap w) (OReg es))); auto.
    - stab.
    - apply t_std_registered.
    - intros es. apply tri_ret. intros w' [_ K]. apply ook_filter; auto. }
  destruct (find_prefix_ok r (heap w) "" C V) as (l & q & F & T).
  destruct r; cbn in C; try discriminate.
  - cbn [reg_each]. apply t_std_registered; auto.
  - unfold reg_each. rewrite F. apply (G l q T).
Qed.
Lemma t_assert c v : tri (good v) (assert_class c v) good.
Proof. unfold assert_class. destruct (class_eqb _ _); [apply tri_ret; auto|nod]. Qed.
Lemma t_construct_vok k : tri (ctor_ok k) (construct mexp k) good.
Proof. eapply tri_post; [apply t_construct|]. intros a w. apply arg_good. destruct k; discriminate. Qed.
Lemma t_new_registered k name r : tri (fun w => arg_ok CReg r w /\ ctor_ok k w) (new_registered mexp k name r) good.
Proof.
  unfold new_registered. eapply tri_bind'; [apply stable_and; [stab|apply stable_ctor]|apply t_construct_vok|tauto|]. cbv beta. intros v.
  apply tri_weak with (P' := fun w => arg_ok CReg r w /\ good v w); [|tauto].
  eapply tri_bind'; [apply stable_and; [stab|apply stable_good]|apply (t_reg_register r v name)|unfold good; tauto|]. intros. apply tri_ret. tauto.
Qed.
Lemma t_get_or_register_x k c name r : tri (fun w => arg_ok CReg r w /\ ctor_ok c w) (get_or_register_x mexp k c name r) good.
Proof.
  unfold get_or_register_x.
  eapply tri_bind' with (P' := fun w => arg_ok CReg r w /\ ctor_ok c w) (Q := good);
    [apply stable_and; [stab|apply stable_ctor]| |tauto|intros v; eapply tri_weak; [apply t_assert|tauto]].
  assert (G : tri (fun w => arg_ok CReg r w /\ ctor_ok c w) (reg_get_or_register r name (construct mexp c)) good).
  { apply t_reg_gor; [apply stable_ctor|apply t_construct_vok]. }
  destruct k; try exact G.
  eapply tri_bind'; [apply stable_and; [stab|apply stable_ctor]|apply t_construct_vok|tauto|]. cbv beta. intros g.
  apply tri_weak with (P' := fun w => arg_ok CReg r w /\ good g w); [|tauto].
  apply t_reg_gor; [apply stable_good|apply tri_ret; auto].
Qed.

(** ** calls *)
Lemma t_unit_rv (P : world -> Prop) m Q : tri P m Q -> tri P (unit_rv m) (fun r _ => yields r = []).
Proof. intros H. unfold unit_rv. intros o w W Pw. destruct (H o w W Pw) as (A & B & C). unfold bind. destruct (m o w) as [w' [a|msg]]; cbn in *; auto. Qed.
Lemma t_map {A B} (P : world -> Prop) (m : M A) (f : A -> B) Q (R : B -> world -> Prop) : tri P m Q -> (forall a w, Q a w -> R (f a) w) -> tri P (x <- m;; ret (f x)) R.
Proof. intros H K. intros o w W Pw. destruct (H o w W Pw) as (X1 & X2 & X3). unfold bind. destruct (m o w) as [w' [a|msg]]; cbn in *; auto. Qed.

Definition rv_ok (r : rv) (w : world) : Prop := Forall (fun v => good v w) (yields r).
Definition env_ok (e : env) (w : world) : Prop := Forall (fun v => vok (heap w) v) e /\ n0 <= List.length (heap w).
Lemma stable_n0 : stable U (fun w => n0 <= List.length (heap w)).
Proof. intros w w' (L & _) H. lia. Qed.
Lemma stable_env e : stable U (env_ok e).
Proof. apply stable_and; [|apply stable_n0]. apply (stable_Forall (fun v w => vok (heap w) v)). intros. stab. Qed.

Lemma no_yield (P : world -> Prop) m : tri P m (fun r _ => yields r = []) -> tri P m rv_ok.
Proof. intros H. eapply tri_post; [exact H|]. intros r w E. unfold rv_ok. rewrite E. constructor. Qed.
Lemma t_unit (P : world -> Prop) m : tri P m (fun _ _ => True) -> tri P (unit_rv m) rv_ok.
Proof. intros H. apply no_yield. eapply t_unit_rv; eauto. Qed.
Lemma t_z (P : world -> Prop) m : tri P m (fun _ _ => True) -> tri P (z_rv m) rv_ok.
Proof. intros H. apply no_yield. eapply t_map; eauto. Qed.
Lemma t_f (P : world -> Prop) m : tri P m (fun _ _ => True) -> tri P (f_rv m) rv_ok.
Proof. intros H. apply no_yield. eapply t_map; eauto. Qed.
Lemma t_v (P : world -> Prop) m : tri P m good -> tri P (v_rv m) rv_ok.
Proof. intros H. eapply t_map; [exact H|]. intros a w V. constructor; [exact V|constructor]. Qed.
Lemma env_nth e x v w : nth_error e x = Some v -> env_ok e w -> vok (heap w) v.
Proof. intros E [F _]. apply nth_error_In in E. rewrite Forall_forall in F. auto. Qed.
Lemma env_arg e c x v w : arg e c x = Some v -> env_ok e w -> arg_ok c v w.
Proof.
  unfold arg. destruct (nth_error e x) as [y|] eqn:E; [|discriminate]. intros H F. pose proof (env_nth _ _ _ _ E F) as V.
  split; destruct c, (cls y) eqn:C; try discriminate; inversion H; subst; auto.
Qed.
Lemma env_ctor e k c w : ctor_of e k = Some c -> env_ok e w -> ctor_ok c w.
Proof.
  intros H F. destruct k; cbn in H; try (inversion H; subst; cbn; auto; fail).
  - destruct (arg e CSample s) eqn:A; [|discriminate]. inversion H; subst. cbn. eapply env_arg; eauto.
  - destruct (arg e CHist h) eqn:A; [|discriminate]. cbn in H. destruct (arg e CMeter m) eqn:B; [|discriminate]. inversion H; subst.
    cbn. split; eapply env_arg; eauto.
Qed.
Lemma env_reg_arg e r v w : wf w -> reg_arg e r = Some v -> env_ok e w -> arg_ok CReg v w.
Proof. intros W H F. destruct r; cbn in H; [eapply env_arg; eauto|]. inversion H; subst. split; auto. apply (wf_reg w W). Qed.

Lemma sset_length {A} (l : list A) i a l' : sset l i a = Ok l' -> List.length l' = List.length l.
Proof.
  unfold sset. destruct (_ <? _)%Z; [discriminate|]. destruct (_ <? _)%Z; [|discriminate]. intros H; inversion H. apply lset_length.
Qed.
Lemma t_slice_write a i n : U a -> tri (fun w => tagat (heap w) a TArr) (slice_write (VSlice a) i n) (fun _ _ => True).
Proof.
  intros Ua o w W (x & E & T). destruct x; cbn in T; try discriminate.
  unfold slice_write, arr_get, bind, load. rewrite E. cbn [ret]. unfold lift.
  pose proof (okr_sset xs i n) as K. destruct (sset xs i n) as [ys|m] eqn:S.
  - unfold store. cbn [fst snd]. destruct (store_arr U w a xs ys W E) as [A B]; [|auto].
    right; right. split; auto. symmetry. eapply sset_length; eauto.
  - cbn. split; auto. split; auto. apply legalh_refl.
Qed.

(** a triple with the well-formedness of the world as part of the precondition *)
Lemma tri_wf {A} (P : world -> Prop) (m : M A) Q : tri (fun w => P w /\ wf w) m Q -> tri P m Q.
Proof. intros H o w W Pw. apply H; auto. Qed.

Ltac inv H := inversion H; subst; clear H.
Lemma tri_fact {A} (P : world -> Prop) (m : M A) Q (R : A -> Prop) :
  tri P m Q -> (forall o w, match snd (m o w) with Ok a => R a | Panic _ => True end) -> tri P m (fun a _ => R a).
Proof. intros H K o w W Pw. destruct (H o w W Pw) as (X1 & X2 & X3). specialize (K o w). destruct (snd (m o w)); auto. Qed.
Lemma ny_sample_stat s v o w : match snd (sample_stat s v o w) with Ok r => yields r = [] | Panic _ => True end.
Proof.
  assert (G : match snd ((xs <- sample_contents v;; ret (stat_of s xs)) o w) with Ok r => yields r = [] | Panic _ => True end).
  { unfold bind. destruct (sample_contents v o w) as [w' [xs|]]; cbn; auto. destruct s; reflexivity. }
  destruct v; try exact G.
Qed.
Lemma tri_and {A} (P : world -> Prop) (m : M A) Q R : tri P m Q -> tri P m R -> tri P m (fun a w => Q a w /\ R a w).
Proof. intros H K o w W Pw. destruct (H o w W Pw) as (A1 & A2 & A3), (K o w W Pw) as (B1 & B2 & B3). destruct (snd (m o w)); auto. Qed.
Ltac nslt m := unfold bind; destruct m as [? [?|]]; cbn; auto.
Lemma nsl_counter_snapshot v o w : match snd (counter_snapshot v o w) with Ok r => nsl r | Panic _ => True end.
Proof. destruct v; cbn; auto. nslt (c_do l CSnapshot o w). Qed.
Lemma nsl_gauge_snapshot v o w : match snd (gauge_snapshot v o w) with Ok r => nsl r | Panic _ => True end.
Proof. destruct v; cbn; auto. nslt (g_do l GSnapshot o w). Qed.
Lemma nsl_gaugef_snapshot v o w : match snd (gaugef_snapshot v o w) with Ok r => nsl r | Panic _ => True end.
Proof. destruct v; cbn; auto. nslt (gf_do l GFSnapshot o w). Qed.
Lemma nsl_ewma_snapshot v o w : match snd (ewma_snapshot v o w) with Ok r => nsl r | Panic _ => True end.
Proof. destruct v; cbn; auto. nslt (ewma_do l WSnapshot o w). Qed.
Lemma ny_hist_stat s v o w : match snd (hist_stat s v o w) with Ok r => yields r = [] | Panic _ => True end.
Proof. unfold hist_stat, bind. destruct (hist_sample v o w) as [w' [x|]]; [apply ny_sample_stat|cbn; auto]. Qed.
Lemma ny_timer_stat s v o w : match snd (timer_stat s v o w) with Ok r => yields r = [] | Panic _ => True end.
Proof. unfold timer_stat, bind. destruct (timer_get v o w) as [w' [[x y]|]]; [apply ny_hist_stat|cbn; auto]. Qed.
Lemma t_must name i : tri (fun w => tagat (heap w) default_reg TReg /\ vok (heap w) i)
  (er <- std_register default_reg name i;; match er with None => ret RUnit | Some _ => throw msg_user end) rv_ok.
Proof.
  apply no_yield. tb (t_std_register default_reg name i); auto. destruct a; [nod|apply tri_ret; auto].
Qed.
Lemma class_eqb_eq a b : class_eqb a b = true -> a = b.
Proof. destruct a, b; cbn; congruence. Qed.
Lemma t_only e c x v m m' : nth_error e x = Some v -> only c v m = Some m' -> tri (arg_ok c v) m rv_ok -> tri (env_ok e) m' rv_ok.
Proof.
  unfold only. intros E H T. destruct (class_eqb (cls v) c) eqn:C; [|discriminate]. inv H. apply class_eqb_eq in C.
  eapply tri_weak; [exact T|]. intros w F. split; auto. eapply env_nth; eauto.
Qed.
Lemma t_cls e x v m : nth_error e x = Some v -> tri (arg_ok (cls v) v) m rv_ok -> tri (env_ok e) m rv_ok.
Proof. intros E T. eapply tri_weak; [exact T|]. intros w F. split; auto. eapply env_nth; eauto. Qed.
Ltac recv x v E := destruct (nth_error _ x) as [v|] eqn:E; [|discriminate].
Ltac bycls v E := let C := fresh "C" in destruct (cls v) eqn:C; try discriminate; let H := fresh in intros H; inv H; apply (t_cls _ _ v _ E); rewrite C.
Lemma t_alloc_good (o : obj) (f : nat -> val) (P : world -> Prop) :
  no_own o ->
  stable U P -> (forall w, P w -> ook (heap w) o) -> (forall l, nsl (f l)) ->
  (forall l w, tagat (heap w) l (tag_of o) -> vok (heap w) (f l)) -> tri P (l <- alloc o;; ret (f l)) good.
Proof. intros. apply t_alloc_val; auto. intros l w T. split; auto. Qed.
Lemma t_new_slice_good xs (P : world -> Prop) : (forall a, n0 <= a -> X (VSlice a)) -> (forall w, P w -> n0 <= List.length (heap w)) ->
  tri P (a <- new_slice xs;; ret (VSlice a)) good.
Proof.
  intros X_new H o w W Pw. unfold new_slice, bind, alloc, ret. cbn [fst snd]. split; [apply wf_alloc; cbn; auto|].
  split; [unfold legal; cbn [heap set_heap]; apply legalh_app; exact I|]. split; [|apply X_new, H; auto].
  exists (OArr xs). split; auto. cbn [heap set_heap]. apply nth_mid.
Qed.
Lemma t_sample_values_good v : (forall a, n0 <= a -> X (VSlice a)) -> tri (fun w => arg_ok CSample v w /\ n0 <= List.length (heap w)) (sample_values v) good.
Proof.
  intros X_new. assert (G : tri (fun w => arg_ok CSample v w /\ n0 <= List.length (heap w)) (xs <- sample_contents v;; a <- new_slice xs;; ret (VSlice a)) good).
  { eapply tri_bind'; [apply stable_and; [stab|apply stable_n0]|apply t_sample_contents|tauto|]. intros xs. apply t_new_slice_good; auto. tauto. }
  destruct v; try exact G. cbn [sample_values]. intros o w W _. cbn [ret fst snd].
  split; auto. split; [apply legalh_refl|]. split; auto. cbn. exists (OArr []). split; auto. apply (wf_zero w W).
Qed.
Definition uses (e : env) (c : op) : Prop :=
  match c with OWriteSlice _ _ _ | ONewSampleSnapshot _ _ => forall a, In (VSlice a) e -> U a | _ => True end.
Lemma arg_in e c x v : arg e c x = Some v -> In v e.
Proof.
  unfold arg. destruct (nth_error e x) as [y|] eqn:E; [|discriminate]. apply nth_error_In in E. intros H.
  destruct c, (cls y); try discriminate; inversion H; subst; auto.
Qed.
Theorem call_tri e c m : uses e c -> (forall v, In v e -> X v) ->
  match c with OValues _ | OMakeSlice _ => forall a, n0 <= a -> X (VSlice a) | _ => True end -> call mexp e c = Some m -> tri (env_ok e) m rv_ok.
Proof.
  intros HU HX HN. destruct c; cbn [call]; unfold obind.
  - (* OSetNil *) intros H; inv H. intros o w W F. cbn. split; [|split; [apply legalh_refl|constructor]].
    destruct W; constructor; auto.
  - (* ONew *) destruct (ctor_of e k) eqn:C; [|discriminate]. intros H; inv H. apply t_v.
    eapply tri_weak; [apply t_construct_vok|]. intros w. eapply env_ctor; eauto.
  - (* ONewSampleSnapshot *) destruct (arg e CSlice slice) as [v|] eqn:A; [|discriminate]. destruct v; try discriminate. intros H; inv H.
    apply t_v. intros o w W F. unfold alloc, bind, ret. cbn [fst snd]. destruct (env_arg _ _ _ _ _ A F) as [_ T]. cbn in T.
    split; [apply wf_alloc; cbn; auto|]. split.
    { apply legalh_app. right. apply HU. eapply arg_in; eauto. }
    split; [|apply X_nsl; exact I]. cbn. eexists. split; [apply nth_mid|reflexivity].
  - intros H; inv H. apply t_v. apply t_alloc_good; cbn; auto; [apply stable_env|]. intros; repeat constructor.
  - intros H; inv H. apply t_v. apply t_alloc_good; cbn; auto; [apply stable_env|]. intros; repeat constructor.
  - destruct (arg e CReg r) eqn:A; [|discriminate]. intros H; inv H. apply t_v. apply tri_ret. intros w F.
    split; [|apply X_nsl; exact I]. apply (env_arg _ _ _ _ _ A F).
  - intros H; inv H. apply t_v. apply t_new_slice_good; [exact HN|]. intros w F; apply F.
  - destruct (arg e CSlice x) as [v|] eqn:A; [|discriminate]. intros H; inv H. apply t_unit.
    destruct v; try (apply tri_absurd; intros w _ F; destruct (env_arg _ _ _ _ _ A F); discriminate).
    eapply tri_weak; [apply t_slice_write|].
    + apply HU. eapply arg_in; eauto.
    + intros w F. apply (env_arg _ _ _ _ _ A F).
  - destruct (arg e CSlice x) as [v|] eqn:A; [|discriminate]. intros H; inv H. apply no_yield.
    destruct v; try (apply tri_absurd; intros w _ F; destruct (env_arg _ _ _ _ _ A F); discriminate).
    cbn [slice_read]. eapply t_map; [eapply tri_weak; [apply t_arr_get|]|auto]. intros w F. apply (env_arg _ _ _ _ _ A F).
  - intros H; inv H. apply tri_ret. intros w F. constructor; [|constructor]. split; [exact I|apply X_nsl; exact I].
  - intros H; inv H. apply t_unit. eapply tri_weak; [apply t_tick_meters|cbv beta; auto].
  - recv x v E. intros H. eapply t_only; eauto. apply t_unit, t_counter_mut.
  - recv x v E. intros H. eapply t_only; eauto. apply t_unit, t_counter_mut.
  - recv x v E. unfold m_clear. bycls v E; apply t_unit; [apply t_counter_mut|apply t_sample_clear|apply t_hist_clear].
  - recv x v E. unfold m_count. bycls v E; apply t_z; [apply t_counter_count|apply t_sample_count|apply t_hist_count|apply t_meter_count|apply t_timer_count].
  - recv x v E. unfold m_value. bycls v E; [apply t_z, t_gauge_value|apply t_f, t_gaugef_value].
  - recv x v E. unfold m_update. bycls v E; apply t_unit; [apply t_gauge_update|apply t_sample_update|apply t_hist_update|apply t_ewma_mut|apply t_timer_update].
  - recv x v0 E. intros H. eapply t_only; eauto. apply t_unit, t_gaugef_update.
  - recv x v E. unfold m_snapshot. bycls v E; apply t_v; first [
      eapply tri_post; [first [apply t_sample_snapshot|apply t_hist_snapshot|apply t_meter_snapshot|apply t_timer_snapshot]|
        intros r w [V K]; split; [exact V|apply X_nsl; destruct r; cbn; auto]] |
      eapply tri_post; [eapply tri_and; [first [apply t_counter_snapshot|apply t_gauge_snapshot|apply t_gaugef_snapshot|apply t_ewma_snapshot]|
        eapply tri_fact; [first [apply t_counter_snapshot|apply t_gauge_snapshot|apply t_gaugef_snapshot|apply t_ewma_snapshot]|
          first [apply nsl_counter_snapshot|apply nsl_gauge_snapshot|apply nsl_gaugef_snapshot|apply nsl_ewma_snapshot]]]|intros r w [V K]; split; auto]].
  - recv x v E. unfold m_stat. bycls v E; apply no_yield; (eapply tri_fact; [first [apply t_sample_stat|apply t_hist_stat|apply t_timer_stat]|first [apply ny_sample_stat|apply ny_hist_stat|apply ny_timer_stat]]).
  - recv x v E. unfold m_percentiles. bycls v E; apply t_f; (eapply tri_bind'; [stab|first [apply t_sample_percentiles|apply t_hist_percentiles|apply t_timer_percentiles]|auto|]; intros;
      eapply tri_weak; [apply t_first_score|cbv beta; auto]).
  - recv x v E. unfold m_percentiles. bycls v E; apply no_yield; (eapply t_map; [first [apply t_sample_percentiles|apply t_hist_percentiles|apply t_timer_percentiles]|auto]).
  - recv x v E. intros H. eapply t_only; eauto. apply t_z, t_sample_size.
  - recv x v E. intros H. unfold only in H. destruct (class_eqb _ _) eqn:C; [|discriminate]. inv H. apply class_eqb_eq in C.
    apply t_v. eapply tri_weak; [apply t_sample_values_good; exact HN|]. intros w F. split; [split; auto; eapply env_nth; eauto|apply F].
  - recv x v E. intros H. eapply t_only; eauto. apply t_v. eapply tri_post; [apply t_hist_sample|]. intros a w. apply arg_good. discriminate.
  - recv x v E. intros H. eapply t_only; eauto. apply t_unit, t_ewma_mut.
  - recv x v E. intros H. eapply t_only; eauto. apply t_f, t_ewma_rate.
  - recv x v E. intros H. eapply t_only; eauto. apply t_unit, t_meter_mark.
  - recv x v E. bycls v E; apply t_f; [apply t_meter_rate|apply t_timer_rate].
  - recv x v E. bycls v E; apply t_unit; [apply t_meter_stop|apply t_timer_stop].
  - recv x v E. intros H. eapply t_only; eauto. apply no_yield, t_timer_begin.
  - recv x v E. intros H. eapply t_only; eauto. apply t_unit, t_timer_end.
  - recv x v E. intros H. eapply t_only; eauto. apply t_unit, t_timer_update_since.
  - recv x v E. intros H. eapply t_only; eauto. apply t_unit, t_health_check.
  - recv x v E. intros H. eapply t_only; eauto. apply no_yield. eapply t_map; [apply t_health_error|auto].
  - recv x v E. intros H. eapply t_only; eauto. apply t_unit, t_health_set.
  - recv x v E. intros H. eapply t_only; eauto. apply t_unit, t_health_set.
  - recv r v E. intros H. eapply t_only; eauto. apply t_v, t_reg_get.
  - recv r v E. recv x i Ei. unfold only. destruct (class_eqb _ _) eqn:C; [|discriminate]. apply class_eqb_eq in C. intros H; inv H.
    apply t_v. eapply tri_weak; [apply (t_reg_gor v (ret i) (good i)); [apply stable_good|apply tri_ret; auto]|].
    intros w F. split; [split; auto; eapply env_nth; eauto|]. split; [eapply env_nth; eauto|]. apply HX. eapply nth_error_In; eauto.
  - recv r v E. destruct (ctor_of e k) eqn:K; [|discriminate]. unfold only. destruct (class_eqb _ _) eqn:C; [|discriminate]. apply class_eqb_eq in C. intros H; inv H.
    apply t_v. eapply tri_weak; [apply (t_reg_gor v _ (ctor_ok c)); [apply stable_ctor|apply t_construct_vok]|].
    intros w F. split; [split; auto; eapply env_nth; eauto|]. eapply env_ctor; eauto.
  - recv r v E. recv x i Ei. unfold only. destruct (class_eqb _ _) eqn:C; [|discriminate]. apply class_eqb_eq in C. intros H; inv H.
    apply no_yield. eapply t_map; [eapply tri_weak; [apply t_reg_register|]|auto].
    intros w F. split; [split; auto|]; eapply env_nth; eauto.
  - recv x i Ei. intros H; inv H. apply tri_wf. eapply tri_weak; [apply t_must|]. intros w [F W]. split; [apply (wf_reg w W)|eapply env_nth; eauto].
  - recv r v E. intros H. eapply t_only; eauto. apply t_unit, t_reg_unregister.
  - recv r v E. intros H. eapply t_only; eauto. apply t_unit, t_reg_unregister_all.
  - recv r v E. intros H. eapply t_only; eauto. eapply t_map; [apply t_reg_each|]. intros es w [_ K]. unfold rv_ok. cbn [yields]. rewrite Forall_forall in *. intros y Hy. apply in_map_iff in Hy. destruct Hy as (kv & <- & Hy). destruct (K _ Hy) as [M V]. split; auto. apply X_nsl, metric_nsl, M.
  - recv r v E. intros H. eapply t_only; eauto. apply no_yield. eapply t_map; [apply t_reg_get_all|auto].
  - recv r v E. intros H. eapply t_only; eauto. apply t_unit, t_reg_run_healthchecks.
  - destruct (has_new_registered k); [|discriminate]. destruct (ctor_of e k) eqn:K; [|discriminate]. destruct (reg_arg e r) eqn:R; [|discriminate].
    intros H; inv H. apply t_v. apply tri_wf. eapply tri_weak; [apply t_new_registered|]. intros w [F W]. split; [eapply env_reg_arg; eauto|eapply env_ctor; eauto].
  - destruct (ctor_of e (regk_new k)) eqn:K; [|discriminate]. destruct (reg_arg e r) eqn:R; [|discriminate].
    intros H; inv H. apply t_v. apply tri_wf. eapply tri_weak; [apply t_get_or_register_x|]. intros w [F W]. split; [eapply env_reg_arg; eauto|eapply env_ctor; eauto].
Qed.
End U.
