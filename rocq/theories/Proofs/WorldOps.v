(** Every call of the API takes a well-formed world to a well-formed world by a legal change. *)
From Coq Require Import ZArith List String Bool Lia Permutation Arith.
From Verif.Model Require Import GoInt GoFloat GoBase Stats Uniform ExpDecay Conc CounterGauge Ewma Meter World.
From Verif.Proofs Require Import SortFacts StatsInt EwmaSeq WorldBase.
Import ListNotations.
Local Open Scope nat_scope.

(** ** panics of the pure functions are not model artefacts *)
Definition okr {A} (r : res A) : Prop := match r with Ok _ => True | Panic m => m <> msg_dangling end.
Lemma okr_bind {A B} (r : res A) (f : A -> res B) : okr r -> (forall a, okr (f a)) -> okr (res_bind r f).
Proof. destruct r; cbn; auto. Qed.
Lemma okr_sget {A} (l : list A) i : okr (sget l i).
Proof. unfold sget. destruct (_ || _)%bool; [discriminate|]. destruct (nth_error _ _); cbn; auto; discriminate. Qed.
Lemma okr_sset {A} (l : list A) i a : okr (sset l i a).
Proof. unfold sset. destruct (_ <? _)%Z; [discriminate|]. destruct (_ <? _)%Z; cbn; auto; discriminate. Qed.
Lemma okr_percentile l p : okr (percentile_of_sorted l p).
Proof.
  unfold percentile_of_sorted. destruct (flt _ _); [apply okr_bind; [apply okr_sget|cbn; auto]|].
  destruct (fge _ _); [apply okr_bind; [apply okr_sget|cbn; auto]|].
  apply okr_bind; [apply okr_sget|]. intros a. apply okr_bind; [apply okr_sget|cbn; auto].
Qed.
Lemma okr_percentiles l ps : okr (snd (SamplePercentiles l ps)).
Proof.
  unfold SamplePercentiles. destruct l; [cbn; auto|]. cbn [snd]. generalize (sortz (z :: l)) as s. intros s.
  induction ps; cbn; auto. apply okr_bind; [apply okr_percentile|]. intros x. apply okr_bind; auto. cbn; auto.
Qed.
Lemma okr_hget h i : okr (hget h i).
Proof. unfold hget. destruct (_ <? _); [|discriminate]. destruct (nth_error _ _); cbn; auto; discriminate. Qed.
Lemma okr_hput h i e : okr (hput h i e).
Proof. unfold hput. destruct (_ <? _); cbn; auto; discriminate. Qed.
Lemma okr_hreslice h n : okr (hreslice h n).
Proof. unfold hreslice. destruct (_ <=? _); cbn; auto; discriminate. Qed.
Lemma okr_hswap h i j : okr (hswap h i j).
Proof. unfold hswap. repeat (apply okr_bind; intros; auto using okr_hget, okr_hput). Qed.
Lemma okr_up n : forall h j, okr (up n h j).
Proof.
  induction n; cbn [up]; intros; [discriminate|]. cbv zeta. destruct (_ =? _); [cbn; auto|].
  apply okr_bind; [apply okr_hget|]. intros. apply okr_bind; [apply okr_hget|]. intros.
  destruct (flt _ _); [|cbn; auto]. apply okr_bind; [apply okr_hswap|auto].
Qed.
Lemma okr_down n : forall h i k, okr (down n h i k).
Proof.
  induction n; cbn [down]; intros; [discriminate|]. cbv zeta. destruct (_ <=? _); [cbn; auto|].
  apply okr_bind; [destruct (_ <? _); [apply okr_bind; [apply okr_hget|]; intros; apply okr_bind; [apply okr_hget|cbn; auto]|cbn; auto]|].
  intros. apply okr_bind; [apply okr_hget|]. intros. apply okr_bind; [apply okr_hget|]. intros.
  destruct (flt _ _); [|cbn; auto]. apply okr_bind; [apply okr_hswap|auto].
Qed.
Lemma okr_push h e : okr (hpush h e).
Proof. unfold hpush. cbv zeta. apply okr_bind; [apply okr_hreslice|]. intros. apply okr_bind; [apply okr_hput|]. intros. apply okr_up. Qed.
Lemma okr_pop h : okr (hpop h).
Proof.
  unfold hpop. destruct (h_len h); [discriminate|].
  apply okr_bind; [apply okr_hswap|]. intros. apply okr_bind; [apply okr_down|]. intros.
  apply okr_bind; [apply okr_hget|]. intros. apply okr_bind; [apply okr_hreslice|cbn; auto].
Qed.
Lemma okr_rescale m : forall i f h, okr (snd (rescale_loop m i f h)).
Proof.
  induction m; cbn [rescale_loop]; intros; [cbn; auto|]. destruct (nth_error _ _); [|discriminate].
  pose proof (okr_push h (MkEntry (fmul (e_k e) f) (e_v e))) as H. destruct (hpush _ _); auto.
Qed.
Lemma okr_exp_update mexp s t v r : okr (snd (exp_update mexp s t v r)).
Proof.
  unfold exp_update, exp_update_raw. cbv zeta.
  assert (H : okr (if hsize (x_heap s) =? x_size s then res_bind (hpop (x_heap s)) (fun p => Ok (fst p)) else Ok (x_heap s))).
  { destruct (_ =? _); [apply okr_bind; [apply okr_pop|cbn; auto]|cbn; auto]. }
  destruct (if _ =? _ then _ else _) as [h1|m]; [|auto].
  pose proof (okr_push h1 (MkEntry (fdiv (mexp (exp_arg1 s t)) r) v)) as H1. destruct (hpush _ _) as [h2|m]; [|auto].
  destruct (_ <? _)%Z; [|cbn; auto].
  pose proof (okr_rescale (h_len h2) 0 (mexp (exp_arg2 s t)) (hclear h2)) as H2. destruct (rescale_loop _ _ _ _); auto.
Qed.
Lemma okr_uni_update s v d : okr (snd (uni_update s v d)).
Proof.
  unfold uni_update. cbv zeta. destruct (_ <? _)%Z; [cbn; auto|]. unfold Int63n. destruct (_ <=? _)%Z; [discriminate|].
  destruct (_ <? _)%Z; [|cbn; auto]. pose proof (okr_sset (u_values s) (d mod wrap64 (u_count s + 1))%Z v) as H.
  destruct (sset _ _ _); auto.
Qed.
Lemma uni_update_size s v d : u_size (fst (uni_update s v d)) = u_size s.
Proof.
  unfold uni_update. cbv zeta. destruct (_ <? _)%Z; [auto|]. destruct (Int63n _ _); [|auto].
  destruct (_ <? _)%Z; [|auto]. destruct (sset _ _ _); auto.
Qed.

(** ** map orders *)
Lemma memn_in x l : memn x l = true <-> In x l.
Proof.
  unfold memn. rewrite existsb_exists. split; [intros (y & A & B); apply Nat.eqb_eq in B; congruence|].
  intros H; exists x; split; auto. apply Nat.eqb_refl.
Qed.
Lemma in_visit order set x : In x (visit order set) <-> In x set.
Proof.
  unfold visit. rewrite in_app_iff, !filter_In, nodup_In, memn_in. split; [tauto|]. intros H.
  destruct (memn x order) eqn:E; [apply memn_in in E; auto|auto].
Qed.
Lemma NoDup_app_disj {A} (l m : list A) : NoDup l -> NoDup m -> (forall x, In x l -> ~ In x m) -> NoDup (l ++ m).
Proof.
  induction l; cbn; auto. intros N M D. inversion N; subst. constructor; [|apply IHl; auto].
  rewrite in_app_iff. intros [H|H]; [auto|]. apply (D a); auto.
Qed.
Lemma visit_perm order set : NoDup set -> Permutation (visit order set) set.
Proof.
  intros N. apply NoDup_Permutation; auto; [|apply in_visit]. unfold visit.
  apply NoDup_app_disj; [apply NoDup_filter, NoDup_nodup|apply NoDup_filter; auto|].
  intros x. rewrite !filter_In, nodup_In. intros [A _] [_ B]. rewrite (proj2 (memn_in x order) A) in B. discriminate.
Qed.
Lemma map_nth_seq {A} (l : list A) : flat_map (fun i => match nth_error l i with Some a => [a] | None => [] end) (seq 0 (List.length l)) = l.
Proof.
  induction l; cbn; auto. f_equal. rewrite <- seq_shift, flat_map_concat_map, map_map, <- flat_map_concat_map. cbn. auto.
Qed.
Lemma in_order_perm {A} order (l : list A) : Permutation (in_order order l) l.
Proof.
  unfold in_order. eapply perm_trans; [|apply Permutation_refl', (map_nth_seq l)].
  rewrite !flat_map_concat_map. pose proof (visit_perm order (seq 0 (List.length l)) (seq_NoDup _ _)) as P.
  generalize dependent (visit order (seq 0 (List.length l))). generalize (seq 0 (List.length l)). intros a b P.
  induction P; cbn; auto.
  - now apply Permutation_app_head.
  - rewrite !app_assoc. apply Permutation_app_tail, Permutation_app_comm.
  - eapply perm_trans; eauto.
Qed.

Section U.
Variable U : nat -> Prop.
Notation tri := (tri U).

Lemma tri_bind' {A B} (P P' : world -> Prop) (m : M A) Q (f : A -> M B) R :
  stable U P -> tri P' m Q -> (forall w, P w -> P' w) -> (forall a, tri (fun w => P w /\ Q a w) (f a) R) -> tri P (bind m f) R.
Proof.
  intros S H1 H2 H3. eapply tri_bind; eauto. eapply tri_conseq; [exact H1| |]; auto.
Qed.
Lemma tri_weak {A} (P P' : world -> Prop) (m : M A) Q : tri P' m Q -> (forall w, P w -> P' w) -> tri P m Q.
Proof. intros H K. eapply tri_conseq; eauto. Qed.
Lemma tri_post {A} (P : world -> Prop) (m : M A) (Q Q' : A -> world -> Prop) : tri P m Q' -> (forall a w, Q' a w -> Q a w) -> tri P m Q.
Proof. intros H K. eapply tri_conseq; eauto. Qed.
Lemma tri_pure {A} (P : world -> Prop) (X : Prop) (m : M A) Q : (X -> tri P m Q) -> tri (fun w => X /\ P w) m Q.
Proof. intros H o w W [x p]. apply H; auto. Qed.

Ltac stab := repeat first [apply stable_snapat|apply stable_and|apply stable_tag|apply stable_vok|apply stable_const|apply stable_ook|apply stable_owned].
Ltac crush := repeat match goal with H : _ /\ _ |- _ => destruct H end; cbn in *; subst; intuition (try congruence; auto).
Ltac bad := apply tri_absurd; intros ? _ ?; crush; fail.
Ltac tb L := eapply tri_bind'; [stab|apply L|cbv beta|cbv beta; intros].
Ltac nod := solve [discriminate | apply tri_throw; discriminate].

(** a value of the class, pointing at an object of the right kind *)
Definition arg_ok (c : class) (v : val) (w : world) : Prop := cls v = c /\ vok (heap w) v.
Lemma stable_arg c v : stable U (arg_ok c v).
Proof. apply stable_and; stab. Qed.

(** ** loads *)
Lemma t_load l t : tri (fun w => tagat (heap w) l t) (load l) (fun o w => tag_of o = t /\ ook (heap w) o).
Proof. eapply tri_post; [apply tri_load|]. cbn. tauto. Qed.
Lemma t_arr_get a : tri (fun w => tagat (heap w) a TArr) (arr_get a) (fun _ _ => True).
Proof. unfold arr_get. tb (t_load a TArr); auto. destruct a0; try bad. apply tri_ret; auto. Qed.
Lemma t_uni_get l : tri (fun w => tagat (heap w) l TUniform) (uni_get l) (fun r w => tagat (heap w) (snd r) TArr /\ 2 <= snd r).
Proof. unfold uni_get. tb (t_load l TUniform); auto. destruct a; try bad. apply tri_ret. cbn. tauto. Qed.
Lemma t_exp_get l : tri (fun w => tagat (heap w) l TExp) (exp_get l) (fun _ _ => True).
Proof. unfold exp_get. tb (t_load l TExp); auto. destruct a; try bad. apply tri_ret; auto. Qed.
Lemma t_ssnap_get l : tri (fun w => tagat (heap w) l TSampleSnap) (ssnap_get l) (fun r w => tagat (heap w) (snd r) TArr).
Proof. unfold ssnap_get. tb (t_load l TSampleSnap); auto. destruct a; try bad. apply tri_ret. cbn. tauto. Qed.

(** ** counters, gauges, health checks *)
Lemma t_c_do l op : tri (fun w => tagat (heap w) l TCounter) (c_do l op) (fun _ _ => True).
Proof.
  unfold c_do, c_load.
  eapply tri_bind' with (Q := fun _ _ => True); [stab| |intros w H; exact H|].
  - tb (t_load l TCounter); auto. destruct a; try bad. apply tri_ret; auto.
  - intros n. tb (tri_store_plain U l (OCounter (seq_state (counter_body op) n)) I I); [crush|]. apply tri_ret; auto.
Qed.
Lemma t_g_do l op : tri (fun w => tagat (heap w) l TGauge) (g_do l op) (fun _ _ => True).
Proof.
  unfold g_do. tb (t_load l TGauge); auto. destruct a; try bad.
  eapply tri_weak. 2: intros w H; exact (proj1 H).
  tb (tri_store_plain U l (OGauge (seq_state (gauge_body op) n)) I I); [crush|]. apply tri_ret; auto.
Qed.
Lemma t_gf_do l op : tri (fun w => tagat (heap w) l TGaugeF) (gf_do l op) (fun _ _ => True).
Proof.
  unfold gf_do. tb (t_load l TGaugeF); auto. destruct a; try bad.
  eapply tri_weak. 2: intros w H; exact (proj1 H).
  tb (tri_store_plain U l (OGaugeF (seq_state (gaugef_body op) b)) I I); [crush|]. apply tri_ret; auto.
Qed.

Lemma t_counter_mut v op : tri (arg_ok CCounter v) (counter_mut v op) (fun _ _ => True).
Proof.
  unfold arg_ok. destruct v; cbn [counter_mut]; try bad; try nod; try (apply tri_ret; auto; fail).
  cbn [vok]. tb (t_c_do l op); [crush|]. apply tri_ret; auto.
Qed.
Lemma t_counter_count v : tri (arg_ok CCounter v) (counter_count v) (fun _ _ => True).
Proof.
  unfold arg_ok. destruct v; cbn [counter_count]; try bad; try (apply tri_ret; auto; fail).
  eapply tri_weak; [apply t_c_do|crush].
Qed.
Lemma t_counter_snapshot v : tri (arg_ok CCounter v) (counter_snapshot v) (fun r w => vok (heap w) r).
Proof.
  unfold arg_ok. destruct v; cbn [counter_snapshot]; try bad; try (apply tri_ret; cbn; auto; fail).
  cbn [vok]. tb (t_c_do l CSnapshot); [crush|]. apply tri_ret; cbn; auto.
Qed.
Lemma t_gauge_update v n : tri (arg_ok CGauge v) (gauge_update v n) (fun _ _ => True).
Proof.
  unfold arg_ok. destruct v; cbn [gauge_update]; try bad; try nod; try (apply tri_ret; auto; fail).
  cbn [vok]. tb (t_g_do l (GUpdate n)); [crush|]. apply tri_ret; auto.
Qed.
Lemma t_gauge_value v : tri (arg_ok CGauge v) (gauge_value v) (fun _ _ => True).
Proof.
  unfold arg_ok. destruct v; cbn [gauge_value]; try bad; try (apply tri_ret; auto; fail); try apply tri_ask.
  eapply tri_weak; [apply t_g_do|crush].
Qed.
Lemma t_gauge_snapshot v : tri (arg_ok CGauge v) (gauge_snapshot v) (fun r w => vok (heap w) r).
Proof.
  destruct v; cbn [gauge_snapshot]; try (unfold arg_ok; bad); try (apply tri_ret; cbn; auto; fail).
  - unfold arg_ok; cbn [vok]. tb (t_g_do l GSnapshot); [crush|]. apply tri_ret; cbn; auto.
  - eapply tri_bind'; [apply stable_arg|apply t_gauge_value|cbv beta; auto|]. intros. apply tri_ret; cbn; auto.
Qed.
Lemma t_gaugef_update v n : tri (arg_ok CGaugeF v) (gaugef_update v n) (fun _ _ => True).
Proof.
  unfold arg_ok. destruct v; cbn [gaugef_update]; try bad; try nod; try (apply tri_ret; auto; fail).
  cbn [vok]. tb (t_gf_do l (GFUpdate n)); [crush|]. apply tri_ret; auto.
Qed.
Lemma t_gaugef_value v : tri (arg_ok CGaugeF v) (gaugef_value v) (fun _ _ => True).
Proof.
  unfold arg_ok. destruct v; cbn [gaugef_value]; try bad; try (apply tri_ret; auto; fail); try apply tri_ask.
  eapply tri_weak; [apply t_gf_do|crush].
Qed.
Lemma t_gaugef_snapshot v : tri (arg_ok CGaugeF v) (gaugef_snapshot v) (fun r w => vok (heap w) r).
Proof.
  destruct v; cbn [gaugef_snapshot]; try (unfold arg_ok; bad); try (apply tri_ret; cbn; auto; fail).
  - unfold arg_ok; cbn [vok]. tb (t_gf_do l GFSnapshot); [crush|]. apply tri_ret; cbn; auto.
  - eapply tri_bind'; [apply stable_arg|apply t_gaugef_value|cbv beta; auto|]. intros. apply tri_ret; cbn; auto.
Qed.

Lemma t_health_set v e : tri (arg_ok CHealth v) (health_set v e) (fun _ _ => True).
Proof.
  unfold arg_ok. destruct v; cbn [health_set]; try bad; try (apply tri_ret; auto; fail).
  intros o w W [_ (x & E & T)]. destruct x; cbn in T; try discriminate.
  unfold bind, load. rewrite E. cbn [fst snd store].
  assert (X : chg U (heap w) l (OHealth e0 f) (OHealth e f)) by reflexivity.
  split; [|split; auto; eapply legalh_lset; eauto].
  eapply wf_store; eauto; cbn; auto; try discriminate.
  intros ->. rewrite (wf_zero w W) in E. discriminate.
Qed.
Lemma t_health_error v : tri (arg_ok CHealth v) (health_error v) (fun _ _ => True).
Proof.
  unfold arg_ok. destruct v; cbn [health_error]; try bad; try (apply tri_ret; auto; fail).
  cbn [vok]. tb (t_load l THealth); [crush|]. destruct a; try bad. apply tri_ret; auto.
Qed.
Lemma t_health_acts v l : tri (arg_ok CHealth v) (health_acts v l) (fun _ _ => True).
Proof.
  induction l; cbn [health_acts]; [apply tri_ret; auto|].
  eapply tri_bind' with (Q := fun _ _ => True); [apply stable_arg| |intros w H; exact H|].
  - destruct a; cbn [health_act]; try apply t_health_set. nod.
  - intros _. eapply tri_weak; [apply IHl|tauto].
Qed.
Lemma t_health_check v : tri (arg_ok CHealth v) (health_check v) (fun _ _ => True).
Proof.
  destruct v; cbn [health_check]; try (unfold arg_ok; bad); try (apply tri_ret; auto; fail).
  eapply tri_bind'; [apply stable_arg|apply (t_load l THealth)|intros w [_ H]; exact H|].
  intros x. destruct x; try bad.
  eapply tri_weak. 2: intros w H; exact (proj1 H).
  eapply tri_bind'; [apply stable_arg|apply tri_ask|intros w H; exact H|]. intros acts.
  eapply tri_weak; [apply t_health_acts|tauto].
Qed.

(** ** arrays *)
(** writing an array: in place for a permutation, an owned array or one of the user's *)
Lemma store_arr w a xs ys : wf w -> nth_error (heap w) a = Some (OArr xs) ->
  Permutation xs ys \/ owned_arr (heap w) a \/ (U a /\ List.length xs = List.length ys) ->
  wf (set_heap (lset (heap w) a (OArr ys)) w) /\ legalh U (heap w) (lset (heap w) a (OArr ys)).
Proof.
  intros W E H. assert (X : chg U (heap w) a (OArr xs) (OArr ys)) by exact H.
  split; [|eapply legalh_lset; eauto].
  destruct (Nat.eq_dec a zero_base) as [->|N].
  - assert (ys = []).
    { rewrite (wf_zero w W) in E. inversion E; subst. destruct H as [H|[(l & c & n & H)|[_ H]]].
      - apply Permutation_nil; auto.
      - apply (wf_obj w W) in H. cbn in H. unfold zero_base in H. lia.
      - destruct ys; auto; discriminate. }
    subst. replace (lset (heap w) zero_base (OArr [])) with (heap w); [destruct w; exact W|].
    pose proof (wf_zero w W) as Z. unfold zero_base in *. revert Z. generalize (heap w) as h. intros [|? [|? h]]; cbn; intros Q; try discriminate; congruence.
  - eapply wf_store; eauto; cbn; auto; discriminate.
Qed.
Lemma set_heap_heap w : set_heap (heap w) w = w.
Proof. now destruct w. Qed.

Lemma sortz_perm_of xs ps : Permutation xs (fst (SamplePercentiles xs ps)).
Proof. rewrite SamplePercentiles_after. apply sortz_perm. Qed.

Lemma t_percentiles_arr a ps : tri (fun w => tagat (heap w) a TArr)
  (xs <- arr_get a;; (let '(after, r) := SamplePercentiles xs ps in store a (OArr after);; lift r)) (fun _ _ => True).
Proof.
  intros o w W (x & E & T). destruct x; cbn in T; try discriminate.
  unfold arr_get, bind, load. rewrite E. cbn [ret].
  pose proof (sortz_perm_of xs ps) as P. pose proof (okr_percentiles xs ps) as K. destruct (SamplePercentiles xs ps) as [after r].
  cbn [fst snd] in *. destruct (store_arr w a xs after W E (or_introl P)) as [A B].
  unfold store, lift. cbn [fst snd]. split; [exact A|]. split; [exact B|]. destruct r; auto.
Qed.

(** ** samples *)
Lemma t_sample_contents v : tri (arg_ok CSample v) (sample_contents v) (fun _ _ => True).
Proof.
  unfold arg_ok. destruct v; cbn [sample_contents vok]; try bad; try (apply tri_ret; auto; fail).
  - tb (t_uni_get l); [crush|]. destruct a as [[c n] a]. eapply tri_weak; [apply t_arr_get|crush].
  - tb (t_exp_get l); [crush|]. apply tri_ret; auto.
  - tb (t_ssnap_get l); [crush|]. destruct a as [c a]. eapply tri_weak; [apply t_arr_get|crush].
Qed.
Lemma t_sample_count v : tri (arg_ok CSample v) (sample_count v) (fun _ _ => True).
Proof.
  unfold arg_ok. destruct v; cbn [sample_count vok]; try bad; try (apply tri_ret; auto; fail).
  - tb (t_uni_get l); [crush|]. destruct a as [[c n] a]. apply tri_ret; auto.
  - tb (t_exp_get l); [crush|]. apply tri_ret; auto.
  - tb (t_ssnap_get l); [crush|]. destruct a as [c a]. apply tri_ret; auto.
Qed.
Lemma t_sample_size v : tri (arg_ok CSample v) (sample_size v) (fun _ _ => True).
Proof. unfold sample_size. eapply tri_bind'; [apply stable_arg|apply t_sample_contents|cbv beta; auto|]. intros. apply tri_ret; auto. Qed.
Lemma t_new_slice xs : tri (fun _ => True) (new_slice xs) (fun a w => tagat (heap w) a TArr).
Proof. eapply tri_weak; [apply (tri_alloc U (OArr xs) I)|cbn; auto]. Qed.
Lemma t_sample_values v : tri (arg_ok CSample v) (sample_values v) (fun r w => vok (heap w) r).
Proof.
  assert (G : tri (arg_ok CSample v) (xs <- sample_contents v;; a <- new_slice xs;; ret (VSlice a)) (fun r w => vok (heap w) r)).
  { eapply tri_bind'; [apply stable_arg|apply t_sample_contents|cbv beta; auto|]. intros xs.
    eapply tri_bind'; [apply stable_and; [apply stable_arg|stab]|apply t_new_slice|cbv beta; auto|]. intros a. apply tri_ret; cbn; tauto. }
  destruct v; try exact G. cbn [sample_values]. intros o w W _. cbn [ret fst snd].
  split; auto. split; [apply legalh_refl|]. cbn. exists (OArr []). split; auto. apply (wf_zero w W).
Qed.
Lemma t_sample_stat s v : tri (arg_ok CSample v) (sample_stat s v) (fun _ _ => True).
Proof.
  assert (G : tri (arg_ok CSample v) (xs <- sample_contents v;; ret (stat_of s xs)) (fun _ _ => True)).
  { eapply tri_bind'; [apply stable_arg|apply t_sample_contents|cbv beta; auto|]. intros xs. apply tri_ret; auto. }
  destruct v; try exact G.
Qed.
Lemma t_sample_percentiles ps v : tri (arg_ok CSample v) (sample_percentiles ps v) (fun _ _ => True).
Proof.
  unfold arg_ok. destruct v; cbn [sample_percentiles vok]; try bad; try (apply tri_ret; auto; fail).
  - tb (t_uni_get l); [crush|]. destruct a as [[c n] a]. eapply tri_weak; [apply t_percentiles_arr|crush].
  - tb (t_exp_get l); [crush|]. apply tri_lift. intros w _. pose proof (okr_percentiles (exp_Values a) ps). destruct (snd _); auto.
  - tb (t_ssnap_get l); [crush|]. destruct a as [c a]. eapply tri_weak; [apply t_percentiles_arr|crush].
Qed.
Lemma t_first_score l : tri (fun _ => True) (first_score l) (fun _ _ => True).
Proof. apply tri_lift. intros w _. pose proof (okr_sget l 0%Z). destruct (sget l 0%Z); auto. Qed.

Lemma legalh_app_lset h l o o' x : nth_error h l = Some o -> chg U h l o o' ->
  no_own x -> legalh U h (lset (h ++ [x]) l o').
Proof.
  intros E X F. pose proof (nth_lt _ _ _ E) as Hl. split; [rewrite lset_length, app_length; lia|split].
  - intros k y Ek. destruct (Nat.eq_dec l k) as [<-|N].
    + exists o'. split; [apply lset_nth_eq; rewrite app_length; lia|]. congruence.
    + exists y. rewrite lset_nth_neq by auto. split; [apply nth_app_l; auto|apply chg_refl].
  - intros k y Hk Ek. rewrite lset_nth_neq in Ek by lia. rewrite nth_error_app2 in Ek by auto.
    destruct (k - List.length h) as [|j]; cbn in Ek; [inversion Ek; subst y; destruct x; cbn in *; auto; contradiction|destruct j; discriminate].
Qed.
Lemma t_sample_clear v : tri (arg_ok CSample v) (sample_clear v) (fun _ _ => True).
Proof.
  unfold arg_ok. destruct v; cbn [sample_clear vok]; try bad; try nod; try (apply tri_ret; auto; fail).
  - intros o w W [_ (x & E & T)]. destruct x; cbn in T; try discriminate.
    unfold uni_get, new_slice, alloc, bind, load. rewrite E. cbn [ret store fst snd set_heap heap alive ticking usenil].
    assert (X : chg U (heap w) l (OUniform count size arr) (OUniform 0 size (List.length (heap w)))) by (cbn; auto).
    split; [|split; auto; unfold legal; cbn [heap set_heap]; eapply legalh_app_lset; eauto; exact I].
    assert (W1 : wf (set_heap (heap w ++ [OArr []]) w)) by (apply wf_alloc; cbn; auto).
    pose proof (nth_lt _ _ _ E) as Hl.
    apply (wf_store _ l (OUniform count size arr) (OUniform 0 size (List.length (heap w))) W1); cbn [heap set_heap tag_of]; auto; try discriminate.
    + now apply nth_app_l.
    + cbn. split; [exists (OArr []); rewrite nth_error_app2, Nat.sub_diag by lia; auto|].
      pose proof (wf_obj w W _ _ E) as K. cbn in K. destruct K as [(y & Ey & _) K]. apply nth_lt in Ey. lia.
    + intros ->. rewrite (wf_zero w W) in E. discriminate.
  - tb (t_exp_get l); [crush|]. tb (@tri_ask U Z (fun _ => True)); auto. 
    eapply tri_weak; [apply (tri_store_plain U l (OExp (exp_clear a a0)) I I)|crush].
Qed.

Lemma t_sample_update mexp x v : tri (arg_ok CSample v) (sample_update mexp x v) (fun _ _ => True).
Proof.
  unfold arg_ok. destruct v; cbn [sample_update vok]; try bad; try nod; try (apply tri_ret; auto; fail).
  - intros o w W [_ (y & E & T)]. destruct y; cbn in T; try discriminate.
    pose proof (wf_obj w W _ _ E) as K. cbn in K. destruct K as [(z & Ea & Ta) Hz]. destruct z; cbn in Ta; try discriminate.
    unfold uni_get, arr_get, ask, bind, load. rewrite E. cbn [ret]. rewrite Ea. cbn [ret].
    pose proof (okr_uni_update (MkUniform count size xs) x (o_draw o)) as R.
    pose proof (uni_update_size (MkUniform count size xs) x (o_draw o)) as S.
    destruct (uni_update (MkUniform count size xs) x (o_draw o)) as [u r]. cbn [fst snd u_size] in *.
    unfold store, lift. cbn [fst snd].
    destruct (store_arr w arr xs (u_values u) W Ea) as [W1 L1]; [right; left; now exists l, count, size|].
    set (w1 := set_heap (lset (heap w) arr (OArr (u_values u))) w) in *.
    assert (NE : arr <> l) by (intros ->; congruence).
    assert (E1 : nth_error (heap w1) l = Some (OUniform count size arr)) by (cbn; rewrite lset_nth_neq; auto).
    assert (K1 : ook (heap w1) (OUniform (u_count u) (u_size u) arr)).
    { pose proof (wf_obj w1 W1 _ _ E1) as K. exact K. }
    assert (X : chg U (heap w1) l (OUniform count size arr) (OUniform (u_count u) (u_size u) arr)) by (cbn; auto).
    split; [|split].
    + eapply wf_store; eauto; try discriminate. intros ->. rewrite (wf_zero w1 W1) in E1. discriminate.
    + unfold legal. eapply legalh_trans; [exact L1|]. eapply legalh_lset; eauto.
    + destruct r; auto.
  - tb (t_exp_get l); [crush|]. tb (@tri_ask U Z (fun _ => True)); auto. tb (@tri_ask U f64 (fun _ => True)); auto.
    pose proof (okr_exp_update mexp a a0 x a1) as R. destruct (exp_update mexp a a0 x a1) as [s' r].
    tb (tri_store_plain U l (OExp s') I I); [crush|]. apply tri_lift. intros w _. destruct r; auto.
Qed.
Lemma t_snap_alloc xs c : tri (fun _ => True) (b <- new_slice xs;; s <- alloc (OSampleSnap c b);; ret (VSampleSnap s))
  (fun r w => vok (heap w) r /\ match r with VSampleSnap _ | VNilSample => True | _ => False end).
Proof.
  intros o w W _. unfold new_slice, alloc, bind, ret. cbn [fst snd set_heap heap].
  assert (W1 : wf (set_heap (heap w ++ [OArr xs]) w)) by (apply wf_alloc; cbn; auto).
  assert (T : nth_error (heap w ++ [OArr xs]) (List.length (heap w)) = Some (OArr xs)) by (rewrite nth_error_app2, Nat.sub_diag by lia; reflexivity).
  split; [|split].
  - apply (wf_alloc _ (OSampleSnap c (List.length (heap w))) W1 I). cbn. eexists; split; eauto.
  - unfold legal. cbn [heap set_heap]. rewrite <- app_assoc. apply legalh_apps. cbn [app]. constructor; [exact I|]. constructor; [|constructor]. left.
    rewrite app_length. cbn [List.length]. split; [lia|]. intros (k & d & e & E).
    destruct (lt_dec k (List.length (heap w))) as [L|L].
    + rewrite nth_error_app1 in E by auto. apply (wf_obj w W) in E. destruct E as [(x & E & _) _]. apply nth_lt in E. lia.
    + rewrite nth_error_app2 in E by lia. destruct (k - List.length (heap w)) as [|[|[|]]]; discriminate.
  - split; auto. cbn [vok]. eexists. split; [rewrite nth_error_app2 by lia; rewrite Nat.sub_diag; reflexivity|reflexivity].
Qed.
Lemma t_sample_snapshot v : tri (arg_ok CSample v) (sample_snapshot v)
  (fun r w => vok (heap w) r /\ match r with VSampleSnap _ | VNilSample => True | _ => False end).
Proof.
  unfold arg_ok. destruct v; cbn [sample_snapshot vok]; try bad; try (apply tri_ret; cbn; tauto).
  - tb (t_uni_get l); [crush|]. destruct a as [[c n] a]. tb (t_arr_get a); [crush|]. eapply tri_weak; [apply t_snap_alloc|cbv beta; auto].
  - tb (t_exp_get l); [crush|]. eapply tri_weak; [apply t_snap_alloc|cbv beta; auto].
Qed.

(** ** histograms *)
Lemma t_hist_sample v : tri (arg_ok CHist v) (hist_sample v) (arg_ok CSample).
Proof.
  unfold arg_ok. destruct v; cbn [hist_sample vok]; try bad; try (apply tri_ret; cbn; tauto).
  - tb (t_load l THist); [crush|]. destruct a; try bad. apply tri_ret. cbn. tauto.
  - tb (t_load l THistSnap); [crush|]. destruct a; try bad. apply tri_ret. cbn. tauto.
Qed.
Ltac th := eapply tri_bind'; [apply stable_arg|apply t_hist_sample|cbv beta; auto|cbv beta; intros].
Lemma t_hist_count v : tri (arg_ok CHist v) (hist_count v) (fun _ _ => True).
Proof. unfold hist_count. th. eapply tri_weak; [apply t_sample_count|tauto]. Qed.
Lemma t_hist_stat s v : tri (arg_ok CHist v) (hist_stat s v) (fun _ _ => True).
Proof. unfold hist_stat. th. eapply tri_weak; [apply t_sample_stat|tauto]. Qed.
Lemma t_hist_percentiles ps v : tri (arg_ok CHist v) (hist_percentiles ps v) (fun _ _ => True).
Proof. unfold hist_percentiles. th. eapply tri_weak; [apply t_sample_percentiles|tauto]. Qed.
Lemma t_hist_clear v : tri (arg_ok CHist v) (hist_clear v) (fun _ _ => True).
Proof.
  assert (G : tri (arg_ok CHist v) (s <- hist_sample v;; sample_clear s) (fun _ _ => True)).
  { th. eapply tri_weak; [apply t_sample_clear|tauto]. }
  destruct v; try exact G. cbn [hist_clear]. nod.
Qed.
Lemma t_hist_update mexp x v : tri (arg_ok CHist v) (hist_update mexp x v) (fun _ _ => True).
Proof.
  assert (G : tri (arg_ok CHist v) (s <- hist_sample v;; sample_update mexp x s) (fun _ _ => True)).
  { th. eapply tri_weak; [apply t_sample_update|tauto]. }
  destruct v; try exact G. cbn [hist_update]. nod.
Qed.
Lemma t_hist_snapshot v : tri (arg_ok CHist v) (hist_snapshot v)
  (fun r w => vok (heap w) r /\ match r with VHistSnap _ | VNilHist => True | _ => False end).
Proof.
  destruct v; cbn [hist_snapshot]; try (unfold arg_ok; bad); try (unfold arg_ok; apply tri_ret; cbn; tauto).
  th. eapply tri_bind' with (P' := arg_ok CSample a); [apply stable_and; apply stable_arg|apply t_sample_snapshot|cbv beta; tauto|].
  cbv beta. intros c. destruct c; try nod; try bad.
  eapply tri_bind'; [apply stable_and; [apply stable_and; apply stable_arg|apply stable_and; stab]|apply (tri_alloc U (OHistSnap l0) I)|cbv beta; crush|].
  intros k. apply tri_ret. cbn. tauto.
Qed.

(** ** EWMAs *)
Lemma ewma_live op e : live_ewma e -> exists e' r, cseq (ewma_body op) e = Some (e', r) /\ live_ewma e' /\ w_alpha e' = w_alpha e.
Proof.
  intros L. destruct op.
  - rewrite update_seq. eexists _, _. split; [reflexivity|]. destruct e; cbn in *; auto.
  - rewrite (tick_seq e L). eexists _, _. split; [reflexivity|]. split; reflexivity.
  - rewrite rate_seq. eexists _, _. split; [reflexivity|]. auto.
  - rewrite snapshot_seq. eexists _, _. split; [reflexivity|]. auto.
Qed.
Lemma t_ewma_do l op : tri (fun w => tagat (heap w) l TEwma) (ewma_do l op) (fun _ _ => True).
Proof.
  intros o w W (x & E & T). destruct x; cbn in T; try discriminate.
  unfold ewma_do, bind, load. rewrite E. pose proof (wf_obj w W _ _ E) as K. cbn in K.
  destruct (ewma_live op e K) as (e' & r & C & L & A). rewrite C. unfold store, ret. cbn [fst snd].
  assert (X : chg U (heap w) l (OEwma e) (OEwma e')) by (cbn; auto).
  split; [|split; auto; eapply legalh_lset; eauto].
  eapply wf_store; eauto; cbn; auto; try discriminate.
  intros ->. rewrite (wf_zero w W) in E. discriminate.
Qed.
Lemma t_ewma_mut op v : tri (arg_ok CEwma v) (ewma_mut op v) (fun _ _ => True).
Proof.
  unfold arg_ok. destruct v; cbn [ewma_mut vok]; try bad; try nod; try (apply tri_ret; auto; fail).
  tb (t_ewma_do l op); [crush|]. apply tri_ret; auto.
Qed.
Lemma t_ewma_rate v : tri (arg_ok CEwma v) (ewma_rate v) (fun _ _ => True).
Proof.
  unfold arg_ok. destruct v; cbn [ewma_rate vok]; try bad; try (apply tri_ret; auto; fail).
  eapply tri_weak; [apply t_ewma_do|crush].
Qed.
Lemma t_ewma_snapshot v : tri (arg_ok CEwma v) (ewma_snapshot v) (fun r w => vok (heap w) r).
Proof.
  unfold arg_ok. destruct v; cbn [ewma_snapshot vok]; try bad; try (apply tri_ret; cbn; tauto).
  tb (t_ewma_do l WSnapshot); [crush|]. apply tri_ret; cbn; auto.
Qed.

(** ** meters *)
Definition mobj_ok (m : mobj) (w : world) : Prop :=
  (tagat (heap w) (mo_snap m) TMeterSnap /\ owned_ms (heap w) (mo_snap m)) /\
  arg_ok CEwma (mo_a1 m) w /\ arg_ok CEwma (mo_a5 m) w /\ arg_ok CEwma (mo_a15 m) w.
Lemma stable_mobj m : stable U (mobj_ok m).
Proof. repeat apply stable_and; try apply stable_arg; stab. Qed.
Lemma t_meter_get l : tri (fun w => tagat (heap w) l TMeter) (meter_get l) mobj_ok.
Proof.
  unfold meter_get. eapply tri_bind'; [stab|apply (tri_load U l TMeter)|cbv beta; auto|]. intros x. destruct x; try bad.
  apply tri_ret. cbn. unfold mobj_ok, arg_ok. cbn. tauto.
Qed.
Lemma t_msnap_get l : tri (fun w => tagat (heap w) l TMeterSnap) (msnap_get l) (fun _ _ => True).
Proof. unfold msnap_get. tb (t_load l TMeterSnap); auto. destruct a; try bad. apply tri_ret; auto. Qed.
Lemma t_update_snapshot m : tri (mobj_ok m) (update_snapshot m) (fun _ _ => True).
Proof.
  unfold update_snapshot.
  assert (S : stable U (mobj_ok m)) by apply stable_mobj.
  eapply tri_bind'; [exact S|apply t_ewma_rate|intros w H; apply H|]. intros r1.
  eapply tri_bind' with (P' := arg_ok CEwma (mo_a5 m)); [apply stable_and; [exact S|stab]|apply t_ewma_rate|intros w H; apply H|]. intros r5.
  eapply tri_bind' with (P' := arg_ok CEwma (mo_a15 m)); [apply stable_and; [apply stable_and; [exact S|stab]|stab]|apply t_ewma_rate|intros w H; apply H|]. intros r15.
  eapply tri_weak with (P' := mobj_ok m); [|tauto].
  eapply tri_bind'; [exact S|apply t_msnap_get|intros w H; apply H|]. intros s.
  eapply tri_weak with (P' := mobj_ok m); [|tauto].
  eapply tri_bind'; [exact S|apply tri_ask|intros w H; exact H|]. intros now. cbv zeta.
  eapply tri_weak; [apply tri_store_ms|]. intros w H. apply H.
Qed.
Lemma t_mobj_mut m op v : (forall w, mobj_ok m w -> arg_ok CEwma v w) -> tri (mobj_ok m) (ewma_mut op v) (fun _ w => mobj_ok m w).
Proof.
  intros H. eapply tri_post; [apply tri_frame; [apply stable_mobj|eapply tri_weak; [apply t_ewma_mut|exact H]]|].
  intros a w [A _]; exact A.
Qed.
Lemma tri_seq {A B} (P Q : world -> Prop) (m : M A) (k : M B) R : stable U P -> tri P m (fun _ w => Q w) -> tri (fun w => P w /\ Q w) k R -> tri P (m;; k) R.
Proof. intros S H1 H2. eapply tri_bind; eauto. Qed.
Lemma t_meter_tick_body m op : tri (mobj_ok m) (ewma_mut op (mo_a1 m);; ewma_mut op (mo_a5 m);; ewma_mut op (mo_a15 m);; update_snapshot m) (fun _ _ => True).
Proof.
  eapply tri_seq; [apply stable_mobj|apply t_mobj_mut; intros w H; apply H|].
  eapply tri_weak with (P' := mobj_ok m); [|tauto].
  eapply tri_seq; [apply stable_mobj|apply t_mobj_mut; intros w H; apply H|].
  eapply tri_weak with (P' := mobj_ok m); [|tauto].
  eapply tri_seq; [apply stable_mobj|apply t_mobj_mut; intros w H; apply H|].
  eapply tri_weak with (P' := mobj_ok m); [|tauto]. apply t_update_snapshot.
Qed.
Lemma t_meter_mark n v : tri (arg_ok CMeter v) (meter_mark n v) (fun _ _ => True).
Proof.
  unfold arg_ok. destruct v; cbn [meter_mark vok]; try bad; try nod; try (apply tri_ret; auto; fail).
  tb (t_meter_get l); [tauto|]. eapply tri_weak with (P' := mobj_ok a); [|tauto].
  destruct (mo_stopped a); [apply tri_ret; auto|].
  eapply tri_bind'; [apply stable_mobj|apply t_msnap_get|intros w H; apply H|]. intros s.
  eapply tri_weak with (P' := mobj_ok a); [|tauto].
  eapply tri_bind'; [apply stable_mobj|apply tri_store_ms|intros w H; apply H|]. intros ?.
  eapply tri_weak with (P' := mobj_ok a); [|tauto]. apply t_meter_tick_body.
Qed.
Lemma t_meter_tick l : tri (fun w => tagat (heap w) l TMeter) (meter_tick l) (fun _ _ => True).
Proof.
  unfold meter_tick. tb (t_meter_get l); [auto|]. eapply tri_weak with (P' := mobj_ok a); [|tauto]. apply t_meter_tick_body.
Qed.
Lemma t_tick_all ls : tri (fun w => Forall (fun l => tagat (heap w) l TMeter) ls) (tick_all ls) (fun _ _ => True).
Proof.
  assert (S : stable U (fun w => Forall (fun l => tagat (heap w) l TMeter) ls)).
  { intros w w' L F. eapply Forall_impl; [|exact F]. intros l. apply (stable_tag U l TMeter w w' L). }
  induction ls; cbn [tick_all]; [apply tri_ret; auto|].
  eapply tri_bind'; [exact S|apply t_meter_tick|intros w F; inversion F; auto|]. intros ?.
  eapply tri_weak; [apply IHls|].
  - intros w w' L F. eapply Forall_impl; [|exact F]. intros l. apply (stable_tag U l TMeter w w' L).
  - intros w [F _]. inversion F; auto.
Qed.
Lemma t_tick_meters : tri (fun _ => True) tick_meters (fun _ _ => True).
Proof.
  unfold tick_meters.
  eapply tri_bind' with (P' := fun _ => True) (Q := fun ls w => Forall (fun l => tagat (heap w) l TMeter) ls); [stab|apply tri_gets|cbv beta; auto|].
  - intros w W _. apply Forall_forall. intros l Hl. apply (wf_alive w W) in Hl. destruct Hl as (s & a & b & c & t & E).
    eexists; split; [exact E|reflexivity].
  - intros ls. eapply tri_weak; [|intros w H; exact (proj2 H)].
    eapply tri_bind'; [|apply tri_ask|intros w H; exact H|].
    + intros w w' L F. eapply Forall_impl; [|exact F]. intros l. apply (stable_tag U l TMeter w w' L).
    + intros order. eapply tri_weak; [apply t_tick_all|]. intros w [F _]. rewrite Forall_forall in *.
      intros l Hl. apply F. now apply in_visit in Hl.
Qed.
Lemma t_meter_view v : tri (arg_ok CMeter v) (meter_view v) (fun _ _ => True).
Proof.
  unfold arg_ok. destruct v; cbn [meter_view vok]; try bad; try (apply tri_ret; auto; fail).
  - tb (t_meter_get l); [tauto|]. eapply tri_weak; [apply t_msnap_get|]. intros w H. apply H.
  - eapply tri_weak; [apply t_msnap_get|]. intros w [_ H]. apply H.
Qed.
Lemma t_meter_count v : tri (arg_ok CMeter v) (meter_count v) (fun _ _ => True).
Proof. unfold meter_count. eapply tri_bind'; [apply stable_arg|apply t_meter_view|auto|]. intros. apply tri_ret; auto. Qed.
Lemma t_meter_rate k v : tri (arg_ok CMeter v) (meter_rate k v) (fun _ _ => True).
Proof. unfold meter_rate. eapply tri_bind'; [apply stable_arg|apply t_meter_view|auto|]. intros. apply tri_ret; auto. Qed.
Lemma t_meter_snapshot v : tri (arg_ok CMeter v) (meter_snapshot v)
  (fun r w => vok (heap w) r /\ match r with VMeterSnap _ | VNilMeter => True | _ => False end).
Proof.
  destruct v; cbn [meter_snapshot]; try (unfold arg_ok; bad); try (unfold arg_ok; apply tri_ret; cbn; tauto).
  eapply tri_bind'; [apply stable_arg|apply t_meter_view|auto|]. intros s.
  eapply tri_weak with (P' := fun _ => True); [|auto].
  eapply tri_bind'; [stab|apply tri_alloc_snap|cbn; auto|].
  intros k. apply tri_ret. cbn. tauto.
Qed.
Lemma t_meter_stop v : tri (arg_ok CMeter v) (meter_stop v) (fun _ _ => True).
Proof.
  unfold arg_ok. destruct v; cbn [meter_stop vok]; try bad; try (apply tri_ret; auto; fail).
  intros o w W [_ (x & E & T)]. destruct x; cbn in T; try discriminate.
  unfold meter_get, bind, load. rewrite E. cbn [ret mo_stopped].
  destruct stopped; [cbn; split; auto; split; auto; apply legalh_refl|].
  unfold store, set_alive. cbn [fst snd mo_snap mo_a1 mo_a5 mo_a15 mo_start set_heap heap alive ticking usenil].
  set (x := OMeter snap a1 a5 a15 start false) in *. set (x' := OMeter snap a1 a5 a15 start true) in *.
  assert (X : chg U (heap w) l x x') by (cbn; repeat split; auto).
  pose proof (nth_lt _ _ _ E) as Hl.
  split; [|split; auto; unfold legal; cbn [heap]; eapply legalh_lset; eauto].
  pose proof (tags_le_lset (heap w) l x x' E eq_refl eq_refl) as L.
  destruct W. constructor; cbn [heap alive ticking usenil].
  - intros k y Ek. destruct (Nat.eq_dec l k) as [<-|D].
    + rewrite lset_nth_eq in Ek by auto. inversion Ek; subst y. eapply ook_mono; [exact L|]. exact (wf_obj _ _ E).
    + rewrite lset_nth_neq in Ek by auto. eapply ook_mono; eauto.
  - apply L; auto.
  - rewrite lset_nth_neq; auto. intros ->. rewrite wf_zero in E. discriminate.
  - apply NoDup_filter; auto.
  - intros k. rewrite filter_In, wf_alive. unfold running. destruct (Nat.eqb_spec k l) as [->|D]; cbn [negb].
    + rewrite lset_nth_eq by auto. split; [intros [_ H]; discriminate|]. intros (s & a & b & c & t & H). discriminate.
    + rewrite lset_nth_neq by auto. tauto.
  - intros H. apply wf_ticking. intros Z. rewrite Z in H. apply H. reflexivity.
  - intros k s a b c t st Ek. destruct (Nat.eq_dec l k) as [<-|D].
    + rewrite lset_nth_eq in Ek by auto. inversion Ek; subst. exact (wf_shape _ _ _ _ _ _ _ E).
    + rewrite lset_nth_neq in Ek by auto. eauto.
Qed.

(** ** timers *)
Lemma t_timer_get v : tri (arg_ok CTimer v) (timer_get v) (fun r w => arg_ok CHist (fst r) w /\ arg_ok CMeter (snd r) w).
Proof.
  unfold arg_ok. destruct v; cbn [timer_get vok]; try bad; try (apply tri_ret; cbn; tauto).
  - tb (t_load l TTimer); [crush|]. destruct a; try bad. apply tri_ret. cbn. tauto.
  - tb (t_load l TTimerSnap); [crush|]. destruct a; try bad. apply tri_ret. cbn. tauto.
Qed.
Lemma stable_hm h m : stable U (fun w => arg_ok CHist h w /\ arg_ok CMeter m w).
Proof. apply stable_and; apply stable_arg. Qed.
Ltac tt := eapply tri_bind'; [apply stable_arg|apply t_timer_get|cbv beta; auto|cbv beta; intros [h m]; cbn [fst snd];
  eapply tri_weak with (P' := fun w => arg_ok CHist h w /\ arg_ok CMeter m w); [|tauto]].
Lemma t_timer_count v : tri (arg_ok CTimer v) (timer_count v) (fun _ _ => True).
Proof. unfold timer_count. tt. eapply tri_weak; [apply t_hist_count|tauto]. Qed.
Lemma t_timer_stat s v : tri (arg_ok CTimer v) (timer_stat s v) (fun _ _ => True).
Proof. unfold timer_stat. tt. eapply tri_weak; [apply t_hist_stat|tauto]. Qed.
Lemma t_timer_percentiles s v : tri (arg_ok CTimer v) (timer_percentiles s v) (fun _ _ => True).
Proof. unfold timer_percentiles. tt. eapply tri_weak; [apply t_hist_percentiles|tauto]. Qed.
Lemma t_timer_rate k v : tri (arg_ok CTimer v) (timer_rate k v) (fun _ _ => True).
Proof. unfold timer_rate. tt. eapply tri_weak; [apply t_meter_rate|tauto]. Qed.
Lemma t_timer_snapshot v : tri (arg_ok CTimer v) (timer_snapshot v)
  (fun r w => vok (heap w) r /\ match r with VTimerSnap _ | VNilTimer => True | _ => False end).
Proof.
  destruct v; cbn [timer_snapshot]; try (unfold arg_ok; bad); try (unfold arg_ok; apply tri_ret; cbn; tauto).
  tt. eapply tri_bind' with (P' := arg_ok CHist h); [apply stable_hm|apply t_hist_snapshot|cbv beta; tauto|].
  cbv beta. intros c. destruct c; try nod; try bad.
  eapply tri_weak with (P' := fun w => tagat (heap w) l0 THistSnap /\ arg_ok CMeter m w); [|cbn; tauto].
  eapply tri_bind' with (P' := arg_ok CMeter m); [apply stable_and; [stab|apply stable_arg]|apply t_meter_snapshot|cbv beta; tauto|].
  cbv beta. intros c. destruct c; try nod; try bad.
  eapply tri_weak with (P' := fun w => tagat (heap w) l0 THistSnap /\ snapat (heap w) l1); [|cbn; tauto].
  tb (tri_alloc U (OTimerSnap l0 l1) I); [cbn; auto|]. apply tri_ret. cbn. tauto.
Qed.
Lemma t_timer_stop v : tri (arg_ok CTimer v) (timer_stop v) (fun _ _ => True).
Proof.
  destruct v; cbn [timer_stop]; try (unfold arg_ok; bad); try (apply tri_ret; auto; fail).
  tt. eapply tri_weak; [apply t_meter_stop|tauto].
Qed.
Lemma t_timer_rec mexp d h m : tri (fun w => arg_ok CHist h w /\ arg_ok CMeter m w) (hist_update mexp d h;; meter_mark 1 m) (fun _ _ => True).
Proof.
  eapply tri_bind' with (P' := arg_ok CHist h); [apply stable_hm|apply t_hist_update|cbv beta; tauto|]. intros ?.
  eapply tri_weak; [apply t_meter_mark|tauto].
Qed.
Lemma t_timer_update mexp d v : tri (arg_ok CTimer v) (timer_update mexp d v) (fun _ _ => True).
Proof.
  destruct v; cbn [timer_update]; try (unfold arg_ok; bad); try nod; try (apply tri_ret; auto; fail).
  tt. apply t_timer_rec.
Qed.
Lemma t_timer_update_since mexp d v : tri (arg_ok CTimer v) (timer_update_since mexp d v) (fun _ _ => True).
Proof.
  destruct v; cbn [timer_update_since]; try (unfold arg_ok; bad); try nod; try (apply tri_ret; auto; fail).
  eapply tri_bind'; [apply stable_arg|apply tri_ask|intros w H; exact H|]. intros now.
  eapply tri_weak with (P' := arg_ok CTimer (VTimer l)); [|tauto].
  tt. apply t_timer_rec.
Qed.
Lemma t_timer_begin v : tri (arg_ok CTimer v) (timer_begin v) (fun r _ => yields r = []).
Proof.
  destruct v; cbn [timer_begin]; try (unfold arg_ok; bad); try nod; try (apply tri_ret; auto; fail).
  eapply tri_bind'; [apply stable_arg|apply tri_ask|intros w H; exact H|]. intros now. apply tri_ret; auto.
Qed.
Lemma t_timer_end mexp ts v : tri (arg_ok CTimer v) (timer_end mexp ts v) (fun _ _ => True).
Proof.
  unfold timer_end. eapply tri_bind'; [apply stable_arg|apply tri_ask|intros w H; exact H|]. intros now.
  eapply tri_weak; [apply t_timer_update|tauto].
Qed.
End U.
