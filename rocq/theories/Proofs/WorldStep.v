(** Invariants of the states programs reach, and arrays nothing writes to any more. *)
From Coq Require Import ZArith List String Bool Lia Permutation Arith.
From Verif.Model Require Import GoInt GoFloat GoBase Stats Uniform ExpDecay Conc CounterGauge Ewma Meter World.
From Verif.Proofs Require Import SortFacts StatsInt EwmaSeq WorldBase WorldOps WorldCalls.
Import ListNotations.
Local Open Scope nat_scope.
Local Open Scope list_scope.

Section Exp.
Variable mexp : f64 -> f64.
Notation step := (step mexp).
Notation run := (run mexp).
Notation call := (call mexp).

Definition inv (st : state) : Prop := wf (fst st) /\ Forall (vok (heap (fst st))) (snd st).

Definition user (e : env) (c : op) (a : nat) : Prop :=
  match c with OWriteSlice _ _ _ | ONewSampleSnapshot _ _ => In (VSlice a) e | _ => False end.
(** slices a call gives to the program *)
Definition gives (st : state) (c : op) (v : val) : Prop :=
  match v with
  | VSlice a => In v (snd st) \/ a = zero_base \/
      (List.length (heap (fst st)) <= a /\ match c with OValues _ | OMakeSlice _ => True | _ => False end)
  | _ => True
  end.
Lemma step_inv st c o : inv st ->
  inv (fst (step st (c, o))) /\ legal (user (snd st) c) (fst st) (fst (fst (step st (c, o)))) /\
  (exists ex, snd (fst (step st (c, o))) = snd st ++ ex /\ Forall (gives st c) ex) /\
  snd (step st (c, o)) <> Some (Panic msg_dangling).
Proof.
  intros [W E]. unfold World.step. cbn [fst snd]. destruct (World.call mexp (snd st) c) as [m|] eqn:C.
  2: { cbn. split; [split; auto|]. split; [apply legalh_refl|]. split; [exists []; rewrite app_nil_r; auto|discriminate]. }
  destruct (call_tri (user (snd st) c) mexp (gives st c) (List.length (heap (fst st)))) with (e := snd st) (c := c) (m := m) (o := o) (w := fst st)
    as (W' & L & R); auto.
  - intros v H. destruct v; cbn in *; auto; contradiction.
  - cbn. auto.
  - destruct c; cbn; auto.
  - intros v H. destruct v; cbn; auto.
  - destruct c; auto; intros a Ha; cbn; auto.
  - split; auto.
  - destruct (m o (fst st)) as [w' [r|msg]]; cbn [fst snd] in *.
    + split; [split; auto|].
      * apply Forall_app. split.
        -- eapply Forall_impl; [|exact E]. intros v. apply (legalh_vok (user (snd st) c)); auto.
        -- eapply Forall_impl; [|exact R]. intros v [V _]; exact V.
      * split; auto. split; [|discriminate]. exists (yields r). split; auto. eapply Forall_impl; [|exact R]. intros v [_ V]; exact V.
    + split; [split; auto|].
      * eapply Forall_impl; [|exact E]. intros v. apply (legalh_vok (user (snd st) c)); auto.
      * split; auto. split; [exists []; rewrite app_nil_r; auto|]. congruence.
Qed.
Lemma inv_init : inv state_init.
Proof.
  split.
  - constructor; cbn.
    + intros [|[|l]] o H; cbn in H; inversion H; subst; cbn; auto; [split; constructor|]. destruct l; discriminate.
    + exists (OReg []). auto.
    + reflexivity.
    + constructor.
    + intros l. split; [tauto|]. intros (s & a & b & c & t & H). destruct l as [|[|[|]]]; discriminate.
    + congruence.
    + intros l s a b c t st H. destruct l as [|[|[|]]]; discriminate.
  - cbn. repeat constructor. exists (OReg []). auto.
Qed.
Lemma run_cons st co p : run st (co :: p) = run (fst (step st co)) p.
Proof. reflexivity. Qed.
Lemma run_app st p q : run st (p ++ q) = run (run st p) q.
Proof. unfold World.run. apply fold_left_app. Qed.
Lemma inv_run p : forall st, inv st -> inv (run st p).
Proof.
  induction p as [|[c o] p IH]; intros st I; [exact I|]. rewrite run_cons. apply IH. apply step_inv; auto.
Qed.
Lemma reach_inv p : inv (run state_init p).
Proof. apply inv_run, inv_init. Qed.
(** values stay where they are *)
Lemma step_env (st : state) c o x v : nth_error (snd st) x = Some v -> nth_error (snd (fst (step st (c, o)))) x = Some v.
Proof.
  intros H. unfold World.step. cbn [fst snd]. destruct (World.call mexp (snd st) c) as [m|]; auto.
  destruct (m o (fst st)) as [w' [r|msg]]; cbn [fst snd]; auto. now apply nth_app_l.
Qed.
Lemma run_env p : forall (st : state) x v, nth_error (snd st) x = Some v -> nth_error (snd (run st p)) x = Some v.
Proof.
  induction p as [|[c o] p IH]; intros st x v H; [exact H|]. rewrite run_cons. apply IH. apply step_env; auto.
Qed.

(** ** arrays nothing writes to, except to sort them *)
Definition quiet (st : state) (a : nat) : Prop :=
  a < List.length (heap (fst st)) /\ a <> zero_base /\ ~ owned_arr (heap (fst st)) a /\ ~ In (VSlice a) (snd st).
Definition kept (h h' : list obj) (a : nat) : Prop :=
  forall xs, nth_error h a = Some (OArr xs) -> exists ys, nth_error h' a = Some (OArr ys) /\ Permutation xs ys.
Lemma quiet_step st c o a : inv st -> quiet st a ->
  quiet (fst (step st (c, o))) a /\ kept (heap (fst st)) (heap (fst (fst (step st (c, o))))) a.
Proof.
  intros I (Q1 & Q2 & Q3 & Q4). destruct (step_inv st c o I) as (I' & L & (ex & E & F) & _).
  set (st' := fst (step st (c, o))) in *. pose proof L as (Ln & C & N). unfold legal in L. split.
  - split; [lia|]. split; auto. split.
    + intros O. apply Q3. eapply owned_arr_back; eauto.
    + rewrite E. rewrite in_app_iff. intros [H|H]; [auto|]. rewrite Forall_forall in F. specialize (F _ H). cbn in F.
      destruct F as [F|[F|[F _]]]; auto. lia.
  - intros xs Hx. destruct (C _ _ Hx) as (o' & Ho & X). destruct o'; cbn in X; try discriminate.
    destruct X as [X|[X|[X _]]]; [eauto|contradiction|]. exfalso. apply Q4. destruct c; cbn in X; tauto.
Qed.
Lemma kept_trans h h' h'' a : kept h h' a -> kept h' h'' a -> kept h h'' a.
Proof. intros A B xs H. destruct (A _ H) as (ys & H1 & P1). destruct (B _ H1) as (zs & H2 & P2). exists zs. split; auto. eapply perm_trans; eauto. Qed.
Lemma kept_refl h a : kept h h a.
Proof. intros xs H. exists xs. auto. Qed.

(** ** sample snapshots whose arrays are quiet *)
Definition quiet_snap (st : state) (l : nat) : Prop :=
  forall c a, nth_error (heap (fst st)) l = Some (OSampleSnap c a) -> quiet st a.
Definition snaps_quiet (st : state) : Prop := forall l, quiet_snap st l.
Lemma snaps_quiet_init : snaps_quiet state_init.
Proof. intros l c a H. destruct l as [|[|[|]]]; discriminate. Qed.

(** calls that give out slices or write to them make no snapshots *)
Definition slice_op (c : op) : bool := match c with OValues _ | OMakeSlice _ | OWriteSlice _ _ _ => true | _ => false end.
Lemma slice_op_no_snap st c o l n a : inv st -> slice_op c = true ->
  nth_error (heap (fst (fst (step st (c, o))))) l = Some (OSampleSnap n a) -> nth_error (heap (fst st)) l = Some (OSampleSnap n a).
Proof.
  intros I S. destruct (step_inv st c o I) as (_ & L & _). unfold legal in L.
  assert (G : List.length (heap (fst (fst (step st (c, o))))) = List.length (heap (fst st)) \/
    exists xs, heap (fst (fst (step st (c, o)))) = heap (fst st) ++ [OArr xs]).
  { unfold World.step. cbn [fst snd]. destruct c; try discriminate; cbn [World.call]; unfold obind.
    - right. exists xs. reflexivity.
    - left. destruct (arg _ _ _) as [v|]; [|reflexivity]. destruct v; try reflexivity. unfold unit_rv, slice_write, arr_get, bind, load.
      destruct (nth_error _ _) as [ob|]; [|reflexivity]. destruct ob; try reflexivity. cbn [ret]. unfold lift.
      destruct (sset xs i n0); cbn; auto using lset_length.
    - destruct (nth_error _ _) as [v|]; [|left; reflexivity]. unfold only. destruct (class_eqb _ _); [|left; reflexivity].
      assert (K : exists w r, sample_values v o (fst st) = (w, r) /\ (List.length (heap w) = List.length (heap (fst st)) \/ exists xs, heap w = heap (fst st) ++ [OArr xs])).
      { assert (K : forall l r, sample_contents v o (fst st) = (l, r) -> l = fst st).
        { intros w r. destruct v; cbn [sample_contents]; unfold uni_get, exp_get, ssnap_get, arr_get, bind, load, ret, throw;
            repeat (match goal with |- context [match nth_error ?h ?k with _ => _ end] => destruct (nth_error h k) as [[]|] end); intros H; now inversion H. }
        destruct v; cbn [sample_values]; try (eexists _, _; split; [reflexivity|left; reflexivity]);
          (unfold bind at 1; match goal with |- context [sample_contents ?v ?o ?w] => destruct (sample_contents v o w) as [w' [xs|msg]] eqn:Z end;
           rewrite (K _ _ eq_refl); (eexists _, _; split; [reflexivity|cbn; eauto])). }
      destruct K as (w & r & K & D). unfold v_rv, bind. rewrite K. destruct r; cbn [fst snd ret]; auto. }
  intros H. destruct (lt_dec l (List.length (heap (fst st)))) as [B|B].
  - destruct L as (_ & C & _). destruct (nth_error (heap (fst st)) l) as [ob|] eqn:E; [|apply nth_error_None in E; lia].
    destruct (C _ _ E) as (ob' & E' & X). rewrite H in E'. inversion E'; subst ob'. destruct ob; cbn in X; try discriminate. congruence.
  - exfalso. destruct G as [G|[xs G]].
    + apply nth_lt in H. lia.
    + rewrite G, nth_error_app2 in H by lia. destruct (l - _) as [|[|]]; discriminate.
Qed.
Lemma new_snap_quiet st c o l : inv st -> match c with ONewSampleSnapshot _ _ => False | _ => True end ->
  List.length (heap (fst st)) <= l -> quiet_snap (fst (step st (c, o))) l.
Proof.
  intros I N Hl n a H. destruct (slice_op c) eqn:S.
  { pose proof (slice_op_no_snap st c o l n a I S H) as K. apply nth_lt in K. lia. }
  destruct (step_inv st c o I) as (I' & L & (ex & E & F) & _). set (st' := fst (step st (c, o))) in *.
  destruct L as (_ & _ & L). specialize (L _ _ Hl H). cbn in L.
  assert (NU : ~ user (snd st) c a) by (destruct c; cbn; auto; discriminate).
  destruct L as [[L1 L2]|L]; [|contradiction].
  split; [lia|]. split; [|split; auto].
  - intros ->. pose proof (nth_lt _ _ _ (wf_zero _ (proj1 I))). lia.
  - rewrite E, in_app_iff. intros [K|K].
    + destruct I as [_ V]. rewrite Forall_forall in V. destruct (V _ K) as (x & K' & _). apply nth_lt in K'. lia.
    + rewrite Forall_forall in F. specialize (F _ K). cbn in F. destruct F as [F|[F|[_ F]]].
      * destruct I as [_ V]. rewrite Forall_forall in V. destruct (V _ F) as (x & K' & _). apply nth_lt in K'. lia.
      * pose proof (nth_lt _ _ _ (wf_zero _ (proj1 I))). lia.
      * destruct c; try discriminate; contradiction.
Qed.
Lemma old_snap_quiet st c o l : inv st -> l < List.length (heap (fst st)) -> quiet_snap st l -> quiet_snap (fst (step st (c, o))) l.
Proof.
  intros I Hl Q n a H. destruct (step_inv st c o I) as (I' & L & _). destruct L as (_ & C & _).
  destruct (nth_error (heap (fst st)) l) as [ob|] eqn:E; [|apply nth_error_None in E; lia].
  destruct (C _ _ E) as (ob' & E' & X). rewrite H in E'. inversion E'; subst ob'. destruct ob; cbn in X; try discriminate.
  inversion X; subst. apply quiet_step; auto. eapply Q; eauto.
Qed.
Lemma snaps_quiet_step st c o : inv st -> match c with ONewSampleSnapshot _ _ => False | _ => True end ->
  snaps_quiet st -> snaps_quiet (fst (step st (c, o))).
Proof.
  intros I N Q l. destruct (lt_dec l (List.length (heap (fst st)))) as [L|L].
  - apply old_snap_quiet; auto.
  - apply new_snap_quiet; auto. lia.
Qed.
Definition no_wrap (p : list (op * orc)) : Prop := Forall (fun co => match fst co with ONewSampleSnapshot _ _ => False | _ => True end) p.
Lemma snaps_quiet_run p : no_wrap p -> forall st, inv st -> snaps_quiet st -> snaps_quiet (run st p).
Proof.
  induction 1 as [|[c o] p N F IH]; intros st I Q; [exact Q|]. rewrite run_cons. apply IH.
  - apply step_inv; auto.
  - apply snaps_quiet_step; auto.
Qed.

(** ** snapshots that do not change *)
Definition frozen (st : state) (v : val) : Prop :=
  match v with
  | VSampleSnap l => quiet_snap st l
  | VHistSnap l => forall s, nth_error (heap (fst st)) l = Some (OHistSnap s) -> quiet_snap st s
  | VTimerSnap l => forall hl ml s, nth_error (heap (fst st)) l = Some (OTimerSnap hl ml) ->
      nth_error (heap (fst st)) hl = Some (OHistSnap s) -> quiet_snap st s
  | _ => True
  end.
Lemma snaps_quiet_frozen st v : snaps_quiet st -> frozen st v.
Proof. intros Q. destruct v; cbn; auto. Qed.

(** the contents of a snapshot in two heaps *)
Definition same_ssnap (h h' : list obj) (l : nat) : Prop :=
  exists c a xs ys, nth_error h l = Some (OSampleSnap c a) /\ nth_error h' l = Some (OSampleSnap c a) /\
    nth_error h a = Some (OArr xs) /\ nth_error h' a = Some (OArr ys) /\ Permutation xs ys.
Definition same_hsnap (h h' : list obj) (l : nat) : Prop :=
  exists s, nth_error h l = Some (OHistSnap s) /\ nth_error h' l = Some (OHistSnap s) /\ same_ssnap h h' s.
Definition same_msnap (h h' : list obj) (l : nat) : Prop :=
  exists c a b d m, nth_error h l = Some (OMeterSnap c a b d m) /\ nth_error h' l = Some (OMeterSnap c a b d m).
Definition same_snap (h h' : list obj) (v : val) : Prop :=
  match v with
  | VSampleSnap l => same_ssnap h h' l
  | VHistSnap l => same_hsnap h h' l
  | VMeterSnap l => same_msnap h h' l
  | VTimerSnap l => exists hl ml, nth_error h l = Some (OTimerSnap hl ml) /\ nth_error h' l = Some (OTimerSnap hl ml) /\
      same_hsnap h h' hl /\ same_msnap h h' ml
  | _ => True
  end.
Lemma same_ssnap_trans h h' h'' l : same_ssnap h h' l -> same_ssnap h' h'' l -> same_ssnap h h'' l.
Proof.
  intros (c & a & xs & ys & A1 & A2 & A3 & A4 & A5) (c' & a' & xs' & ys' & B1 & B2 & B3 & B4 & B5).
  rewrite A2 in B1. inversion B1; subst. rewrite A4 in B3. inversion B3; subst. exists c', a', xs, ys'. repeat split; auto. eapply perm_trans; eauto.
Qed.
Lemma same_hsnap_trans h h' h'' l : same_hsnap h h' l -> same_hsnap h' h'' l -> same_hsnap h h'' l.
Proof.
  intros (s & A1 & A2 & A3) (s' & B1 & B2 & B3). rewrite A2 in B1. inversion B1; subst. exists s'. repeat split; auto. eapply same_ssnap_trans; eauto.
Qed.
Lemma same_msnap_trans h h' h'' l : same_msnap h h' l -> same_msnap h' h'' l -> same_msnap h h'' l.
Proof.
  intros (c & a & b & d & m & A1 & A2) (c' & a' & b' & d' & m' & B1 & B2). rewrite A2 in B1. inversion B1; subst. repeat eexists; eauto.
Qed.
Lemma same_snap_trans h h' h'' v : same_snap h h' v -> same_snap h' h'' v -> same_snap h h'' v.
Proof.
  destruct v; cbn; auto; eauto using same_ssnap_trans, same_hsnap_trans, same_msnap_trans.
  intros (hl & ml & A1 & A2 & A3 & A4) (hl' & ml' & B1 & B2 & B3 & B4). rewrite A2 in B1. inversion B1; subst.
  exists hl', ml'. repeat split; eauto using same_hsnap_trans, same_msnap_trans.
Qed.

Lemma same_ssnap_step st c o l : inv st -> tagat (heap (fst st)) l TSampleSnap -> quiet_snap st l ->
  same_ssnap (heap (fst st)) (heap (fst (fst (step st (c, o))))) l.
Proof.
  intros I (x & E & T) Q. destruct x; cbn in T; try discriminate. pose proof (wf_obj _ (proj1 I) _ _ E) as K. cbn in K.
  destruct K as (y & Ea & Ta). destruct y; cbn in Ta; try discriminate.
  destruct (quiet_step st c o arr I (Q _ _ E)) as (_ & K). destruct (K _ Ea) as (ys & Ey & P).
  destruct (step_inv st c o I) as (_ & (_ & C & _) & _). destruct (C _ _ E) as (o' & E' & X). cbn in X. subst o'.
  exists count, arr, xs, ys. auto.
Qed.
Lemma same_msnap_step st c o l : inv st -> snapat (heap (fst st)) l -> same_msnap (heap (fst st)) (heap (fst (fst (step st (c, o))))) l.
Proof.
  intros I ((x & E & T) & N). destruct x; cbn in T; try discriminate.
  destruct (step_inv st c o I) as (_ & (_ & C & _) & _). destruct (C _ _ E) as (o' & E' & X).
  destruct o'; cbn in X; try discriminate. destruct X as [X|X]; [|contradiction]. inversion X; subst. repeat eexists; eauto.
Qed.
Lemma same_hsnap_step st c o l : inv st -> tagat (heap (fst st)) l THistSnap ->
  (forall s, nth_error (heap (fst st)) l = Some (OHistSnap s) -> quiet_snap st s) ->
  same_hsnap (heap (fst st)) (heap (fst (fst (step st (c, o))))) l.
Proof.
  intros I (x & E & T) Q. destruct x; cbn in T; try discriminate. pose proof (wf_obj _ (proj1 I) _ _ E) as K. cbn in K.
  destruct (step_inv st c o I) as (_ & (_ & C & _) & _). destruct (C _ _ E) as (o' & E' & X). cbn in X. subst o'.
  exists s. repeat split; auto. apply same_ssnap_step; auto.
Qed.
Lemma quiet_snap_step st c o l : inv st -> tagat (heap (fst st)) l TSampleSnap -> quiet_snap st l -> quiet_snap (fst (step st (c, o))) l.
Proof. intros I (x & E & _) Q. apply old_snap_quiet; auto. eapply nth_lt; eauto. Qed.
Lemma frozen_step st c o v : inv st -> vok (heap (fst st)) v -> frozen st v ->
  frozen (fst (step st (c, o))) v /\ same_snap (heap (fst st)) (heap (fst (fst (step st (c, o))))) v.
Proof.
  intros I V F. destruct v; cbn in V, F |- *; auto.
  - split; [apply quiet_snap_step; auto|apply same_ssnap_step; auto].
  - pose proof (same_hsnap_step st c o l I V F) as S. split; auto.
    destruct S as (s & A1 & A2 & (c0 & a & xs & ys & S1 & _)). rewrite A2. intros s' X. inversion X; subst s'.
    apply quiet_snap_step; auto. exists (OSampleSnap c0 a). auto.
  - split; auto. apply same_msnap_step; auto.
  - destruct V as (x & E & T). destruct x; cbn in T; try discriminate. pose proof (wf_obj _ (proj1 I) _ _ E) as K. cbn in K. destruct K as [K1 K2].
    pose proof (same_hsnap_step st c o h I K1 (fun s => F _ _ _ E)) as S.
    destruct (step_inv st c o I) as (_ & (_ & C & _) & _). destruct (C _ _ E) as (o' & E' & X). cbn in X. subst o'.
    split.
    + intros hl ml s X. rewrite E' in X. inversion X; subst. destruct S as (s0 & A1 & A2 & (c0 & a & xs & ys & S1 & _)). rewrite A2. intros Y; inversion Y; subst s0.
      apply quiet_snap_step; auto. exists (OSampleSnap c0 a). auto. eapply F; eauto.
    + exists h, m. repeat split; auto. apply same_msnap_step; auto.
Qed.
Lemma same_snap_refl st v : inv st -> vok (heap (fst st)) v -> same_snap (heap (fst st)) (heap (fst st)) v.
Proof.
  intros I. assert (S : forall l, tagat (heap (fst st)) l TSampleSnap -> same_ssnap (heap (fst st)) (heap (fst st)) l).
  { intros l (x & E & T). destruct x; cbn in T; try discriminate. pose proof (wf_obj _ (proj1 I) _ _ E) as K. cbn in K.
    destruct K as (y & Ea & Ta). destruct y; cbn in Ta; try discriminate. exists count, arr, xs, xs. auto. }
  assert (Hh : forall l, tagat (heap (fst st)) l THistSnap -> same_hsnap (heap (fst st)) (heap (fst st)) l).
  { intros l (x & E & T). destruct x; cbn in T; try discriminate. pose proof (wf_obj _ (proj1 I) _ _ E) as K. cbn in K. exists s. auto. }
  assert (Hm : forall l, snapat (heap (fst st)) l -> same_msnap (heap (fst st)) (heap (fst st)) l).
  { intros l ((x & E & T) & _). destruct x; cbn in T; try discriminate. repeat eexists; eauto. }
  destruct v; cbn; auto. intros (x & E & T). destruct x; cbn in T; try discriminate. pose proof (wf_obj _ (proj1 I) _ _ E) as [K1 K2]. exists h, m. auto.
Qed.
Lemma frozen_run p : forall st v, inv st -> vok (heap (fst st)) v -> frozen st v -> same_snap (heap (fst st)) (heap (fst (run st p))) v.
Proof.
  induction p as [|[c o] p IH]; intros st v I V F; [apply same_snap_refl; auto|]. rewrite run_cons.
  destruct (frozen_step st c o v I V F) as [F' S]. destruct (step_inv st c o I) as (I' & L & _).
  eapply same_snap_trans; [exact S|]. apply IH; auto. eapply legalh_vok; eauto.
Qed.
End Exp.
