From Coq Require Import ZArith List Lia Permutation.
From Verif.Model Require Import GoInt GoFloat Conc CounterGauge.
From Verif.Spec Require Import Linearizability Traces Objects.
From Verif.Proofs Require Import IntFacts FloatFacts LinProofs.
Import ListNotations.
Open Scope Z_scope.

Lemma counter_lin sched :
  linearizable counter_apply counter_init (history (snd (cexec counter_body counter_init sched))).
Proof.
  apply (one_action_linearizable counter_body counter_apply (fun v => v) (fun _ => True) counter_init I).
  intro op. destruct op as [i|i| | |]; cbn [counter_body]; unfold atomic_add, atomic_store, atomic_load;
    do 3 eexists; (split; [reflexivity|]); intros s _; (split; [exact I|]); eexists; (split; [reflexivity|]); cbn; try reflexivity.
  f_equal. rewrite wrap64_add_r. f_equal.
Qed.

Lemma gauge_lin sched :
  linearizable gauge_apply gauge_init (history (snd (cexec gauge_body gauge_init sched))).
Proof.
  apply (one_action_linearizable gauge_body gauge_apply (fun v => v) (fun _ => True) gauge_init I).
  intro op. destruct op as [i| |]; cbn [gauge_body]; unfold atomic_add, atomic_store, atomic_load;
    do 3 eexists; (split; [reflexivity|]); intros s _; (split; [exact I|]); eexists; (split; [reflexivity|]); reflexivity.
Qed.

Lemma gaugef_lin sched :
  linearizable gaugef_apply f_zero (history (snd (cexec gaugef_body gaugef_init sched))).
Proof.
  replace f_zero with (float64frombits gaugef_init) by reflexivity.
  apply (one_action_linearizable gaugef_body gaugef_apply float64frombits (fun _ => True) gaugef_init I).
  intro op. destruct op as [v| |]; cbn [gaugef_body]; unfold atomic_add, atomic_store, atomic_load;
    do 3 eexists; (split; [reflexivity|]); intros s _; (split; [exact I|]); eexists; (split; [reflexivity|]); cbn; try reflexivity.
  now rewrite frombits_bits.
Qed.

Lemma net_snoc l op : net (l ++ [op]) =
  match op with CInc i => net l + i | CDec i => net l - i | CClear => 0 | _ => net l end.
Proof. unfold net. now rewrite fold_left_app. Qed.

Definition cinv (c : config Z counter_op counter_op zret) (tr : list (event counter_op counter_op zret)) : Prop :=
  sh c = wrap64 (net (labels tr)) /\
  forall t op e u l k, th c t = Busy op (Atom e u l k) -> Atom e u l k = counter_body op.

Lemma counter_inv sched : cinv (fst (cexec counter_body counter_init sched)) (snd (cexec counter_body counter_init sched)).
Proof.
  revert sched. apply (cexec_ind' counter_body counter_init cinv); unfold cinv.
  - split; [reflexivity|]. discriminate.
  - intros c tr t op [Hs Hb] Ei. cbn [sh th]. rewrite labels_app. cbn [labels flat_map]. rewrite app_nil_r. split; [exact Hs|].
    intros v op' e u l k. destruct (Nat.eq_dec v t) as [->|N]; [rewrite tset_same|rewrite tset_other by exact N; apply Hb].
    intro E. injection E as E1 E2. subst. now rewrite E2.
  - intros c tr t op r [Hs Hb] Ei. cbn [sh th]. rewrite labels_app. cbn [labels flat_map]. rewrite app_nil_r. split; [exact Hs|].
    intros v op' e u l k. destruct (Nat.eq_dec v t) as [->|N]; [rewrite tset_same; discriminate|rewrite tset_other by exact N; apply Hb].
  - intros c tr t op e u l k [Hs Hb] Ei En. cbn [sh th]. rewrite labels_app, labels_steps.
    pose proof (Hb _ _ _ _ _ _ Ei) as Eb.
    assert (H : l (sh c) = [op] /\ u (sh c) = match op with CInc i => wrap64 (sh c + i) | CDec i => wrap64 (sh c - i) | CClear => 0 | _ => sh c end
                /\ exists r, k (sh c) = Ret r).
    { destruct op; cbn [counter_body] in Eb; unfold atomic_add, atomic_store, atomic_load in Eb;
        injection Eb as -> -> -> ->; (split; [reflexivity|]); (split; [try reflexivity|eexists; reflexivity]).
      rewrite wrap64_add_r. f_equal. }
    destruct H as (-> & -> & r & ->). split.
    + rewrite net_snoc, Hs. destruct op; try reflexivity; [now rewrite wrap64_add_l|now rewrite wrap64_sub_l].
    + intros v op' e' u' l' k'. destruct (Nat.eq_dec v t) as [->|N]; [rewrite tset_same; discriminate|rewrite tset_other by exact N; apply Hb].
Qed.

Lemma counter_value sched :
  sh (fst (cexec counter_body counter_init sched)) = wrap64 (net (labels (snd (cexec counter_body counter_init sched)))).
Proof. apply counter_inv. Qed.

Lemma counter_read sched t :
  th (fst (cexec counter_body counter_init sched)) t = Idle ->
  snd (cexec counter_body counter_init (sched ++ [Call t CCount; Run t; Run t])) =
  snd (cexec counter_body counter_init sched) ++
    [EInv t CCount; EStep t CCount; ERes t (RInt (wrap64 (net (labels (snd (cexec counter_body counter_init sched))))))].
Proof.
  intro Hi. pose proof (counter_value sched) as Hv.
  change [Call t CCount; Run t; Run t] with ([Call t CCount] ++ [Run t] ++ [Run t]).
  rewrite !app_assoc, !cexec_snoc. destruct (cexec counter_body counter_init sched) as [c tr]. cbn [fst snd] in *.
  cbn [cstep]. rewrite Hi. cbn [counter_body]. cbn [th sh]. rewrite tset_same. unfold atomic_load. cbn [always].
  cbn [th sh]. rewrite tset_same. cbn [snd map app]. rewrite <- Hv, <- !app_assoc. reflexivity.
Qed.

Lemma counter_one op : exists u k, counter_body op = Atom always u (fun _ => [op]) k /\ forall s, exists r, k s = Ret r.
Proof.
  destruct op; cbn [counter_body]; unfold atomic_add, atomic_store, atomic_load; do 2 eexists; (split; [reflexivity|]);
    intro s; eexists; reflexivity.
Qed.

Lemma counter_quiet sched : quiet (fst (cexec counter_body counter_init sched)) ->
  Permutation (calls (snd (cexec counter_body counter_init sched))) (labels (snd (cexec counter_body counter_init sched))).
Proof. apply quiet_calls. exact counter_one. Qed.

Definition amount (op : counter_op) : Z := match op with CInc i => i | CDec i => - i | _ => 0 end.
Definition amounts (l : list counter_op) : Z := fold_right (fun op a => amount op + a) 0 l.
Lemma amounts_perm l l' : Permutation l l' -> amounts l = amounts l'.
Proof. induction 1; unfold amounts in *; simpl; lia. Qed.
Lemma amounts_app l l' : amounts (l ++ l') = amounts l + amounts l'.
Proof. unfold amounts. induction l; simpl; lia. Qed.
Lemma net_no_clear l : existsb is_cclear l = false -> net l = amounts l.
Proof.
  induction l as [|op l IH] using rev_ind; [reflexivity|]. rewrite existsb_app. intro H.
  apply Bool.orb_false_iff in H. destruct H as [H1 H2]. rewrite net_snoc, amounts_app, IH by exact H1.
  unfold amounts. destruct op; simpl in *; try discriminate; lia.
Qed.
Lemma existsb_perm {A} (f : A -> bool) l l' : Permutation l l' -> existsb f l = existsb f l'.
Proof.
  induction 1; simpl; trivial; try congruence.
  destruct (f x), (f y); reflexivity.
Qed.

Lemma counter_no_clear sched : let '(c, tr) := cexec counter_body counter_init sched in
  quiet c -> existsb is_cclear (calls tr) = false -> sh c = wrap64 (net (calls tr)).
Proof.
  pose proof (counter_value sched) as Hv. pose proof (counter_quiet sched) as Hq.
  destruct (cexec counter_body counter_init sched) as [c tr]. cbn [fst snd] in *.
  intros Q Hc. specialize (Hq Q). rewrite Hv. f_equal.
  rewrite (net_no_clear (calls tr)) by exact Hc.
  rewrite net_no_clear by (rewrite <- (existsb_perm _ _ _ Hq); exact Hc).
  symmetry. now apply amounts_perm.
Qed.

Lemma gaugef_update_read sched t v :
  th (fst (cexec gaugef_body gaugef_init sched)) t = Idle ->
  exists tr, snd (cexec gaugef_body gaugef_init
      (sched ++ [Call t (GFUpdate v); Run t; Run t; Call t GFValue; Run t; Run t; Call t GFSnapshot; Run t; Run t])) =
    tr ++ [EInv t GFValue; EStep t GFValue; ERes t (FRVal v); EInv t GFSnapshot; EStep t GFSnapshot; ERes t (FRSnap v)].
Proof.
  intro Hi.
  unfold cexec in *. rewrite crun_app. destruct (crun gaugef_body (cstart gaugef_init) [] sched) as [c tr].
  cbn [fst snd] in Hi. exists (tr ++ [EInv t (GFUpdate v); EStep t (GFUpdate v); ERes t FRNone]).
  cbn [crun cstep]. rewrite Hi.
  repeat (cbn [crun cstep th sh gaugef_body always map snd fst]; rewrite ?tset_same; unfold atomic_store, atomic_load).
  rewrite frombits_bits. rewrite <- !app_assoc. reflexivity.
Qed.
