(** Properties C04 and C05: snapshots and stubs.

    A program is a list of calls with the oracle each one sees ([run], World.v);
    [step st (c, o)] is one call: the new state and its result, [None] if the
    call is not well typed.  Values are referred to by the position at which
    the program obtained them, so a snapshot taken in state [st] is at position
    [length (snd st)].  [mexp] is math.Exp. *)
From Coq Require Import ZArith List String Bool Lia Arith Permutation.
From Verif.Model Require Import GoInt GoFloat GoBase Stats World.
From Verif.Spec Require Import ApiSpec.
From Verif.Proofs Require Import FloatFacts WorldBase WorldStep WorldReads WorldSnap NilProofs.
Import ListNotations.
Local Open Scope nat_scope.
Local Open Scope list_scope.

Definition reach (mexp : f64 -> f64) (p : list (op * orc)) : state := run mexp state_init p.

Lemma snapshot_facts mexp st x o st1 s : inv st -> step mexp st (OSnapshot x, o) = (st1, Some (Ok (RVal s))) ->
  exists v d, nth_error (snd st) x = Some v /\ vdata o (heap (fst st)) v = Some d /\ vdata o (heap (fst st1)) s = Some d /\
    nth_error (snd st1) (List.length (snd st)) = Some s /\ is_snap s = true /\ inv st1 /\ vok (heap (fst st1)) s /\
    (over_reservoir (heap (fst st)) v \/ snaps_quiet st -> frozen st1 s).
Proof.
  intros I H. pose proof H as H0. unfold World.step in H0. cbn [fst snd World.call] in H0.
  destruct (nth_error (snd st) x) as [v|] eqn:E; [|discriminate]. cbn [obind] in H0.
  assert (V : vok (heap (fst st)) v) by (destruct I as [_ F]; rewrite Forall_forall in F; apply F; eapply nth_error_In; eauto).
  assert (R : readable v = true) by (unfold readable; unfold m_snapshot in H0; destruct (cls v); auto; discriminate).
  destruct (vdata_ok o (fst st) v (proj1 I) V R) as (d & D).
  destruct (snapshot_ok mexp st x v o st1 s d I E D H) as (A & B & C & F).
  pose proof (step_inv mexp st (OSnapshot x) o I) as (I1 & _). rewrite H in I1. cbn [fst] in I1.
  assert (N : nth_error (snd st1) (List.length (snd st)) = Some s) by (rewrite A; cbn; apply nth_end).
  exists v, d. repeat match goal with |- _ /\ _ => split end; auto; try apply I1. destruct I1 as [_ F1]. rewrite Forall_forall in F1. apply F1. eapply nth_error_In; eauto.
Qed.

(** ** C04 *)
(** a snapshot answers every read the way its metric did when it was taken *)
Theorem C04_snapshot_agrees : forall mexp p x o st1 s rd, let st := reach mexp p in
  step mexp st (OSnapshot x, o) = (st1, Some (Ok (RVal s))) -> reads rd = Some x ->
  snd (step mexp st1 (at_index (List.length (snd st)) rd, o)) = snd (step mexp st (rd, o)).
Proof.
  intros mexp p x o st1 s rd st H R. destruct (snapshot_facts mexp st x o st1 s (reach_inv mexp p) H) as (v & d & E & D & D1 & N & _).
  rewrite (read_ok mexp st rd o x v d R E D).
  rewrite (read_ok mexp st1 _ o (List.length (snd st)) s d) by (try eassumption; destruct rd; try discriminate R; reflexivity).
  destruct rd; try discriminate R; reflexivity.
Qed.

Lemma at_reads k x rd : reads rd = Some x -> reads (at_index k rd) = Some k.
Proof. destruct rd; try discriminate; reflexivity. Qed.
Lemma at_order k rd : order_free (at_index k rd) = order_free rd.
Proof. destruct rd; reflexivity. Qed.
Lemma immutable mexp st x o st1 s : inv st -> step mexp st (OSnapshot x, o) = (st1, Some (Ok (RVal s))) ->
  (forall v, nth_error (snd st) x = Some v -> over_reservoir (heap (fst st)) v \/ snaps_quiet st) ->
  forall p2 o1 o2, let st2 := run mexp st1 p2 in exists d1 d2,
    nth_error (snd st1) (List.length (snd st)) = Some s /\ nth_error (snd st2) (List.length (snd st)) = Some s /\
    vdata o1 (heap (fst st1)) s = Some d1 /\ vdata o2 (heap (fst st2)) s = Some d2 /\ deq d1 d2.
Proof.
  intros I H Q p2 o1 o2 st2. destruct (snapshot_facts mexp st x o st1 s I H) as (v & d & E & D & D1 & N & S & I1 & V & F).
  specialize (F (Q _ E)). pose proof (frozen_run mexp p2 st1 s I1 V F) as K.
  destruct (same_snap_data o1 o2 _ _ s S K) as (d1 & d2 & A & B & P). exists d1, d2. repeat split; auto. apply run_env; auto.
Qed.

(** and keeps answering so, whatever happens next, as long as the program has
    not used NewSampleSnapshot, which makes a "snapshot" out of a slice that the
    caller keeps (Variance and StdDev, whose rounding errors depend on the order
    of the values: next theorem) *)
Theorem C04_snapshot_immutable : forall mexp p x o st1 s p2 rd o1 o2, let st := reach mexp p in
  no_NewSampleSnapshot p ->
  step mexp st (OSnapshot x, o) = (st1, Some (Ok (RVal s))) -> reads rd = Some x -> order_free rd = true ->
  let read st' o' := snd (step mexp st' (at_index (List.length (snd st)) rd, o')) in
  read (run mexp st1 p2) o2 = read st1 o1.
Proof.
  intros mexp p x o st1 s p2 rd o1 o2 st NW H R O read.
  assert (Q : snaps_quiet st) by exact (snaps_quiet_run mexp p NW state_init inv_init snaps_quiet_init).
  destruct (immutable mexp st x o st1 s (reach_inv mexp p) H (fun v _ => or_intror Q) p2 o1 o2) as (d1 & d2 & N1 & N2 & D1 & D2 & P).
  unfold read. rewrite (read_ok mexp st1 _ o1 _ s d1 (at_reads _ _ _ R) N1 D1).
  rewrite (read_ok mexp _ _ o2 _ s d2 (at_reads _ _ _ R) N2 D2). symmetry. apply read_deq; auto. now rewrite at_order.
Qed.

(** the same for any program, if the metric is not itself a snapshot, nor a
    histogram or timer around a SampleSnapshot or stub *)
Theorem C04_reservoir_snapshot_immutable : forall mexp p x v o st1 s p2 rd o1 o2, let st := reach mexp p in
  nth_error (snd st) x = Some v -> over_reservoir (heap (fst st)) v ->
  step mexp st (OSnapshot x, o) = (st1, Some (Ok (RVal s))) -> reads rd = Some x -> order_free rd = true ->
  let read st' o' := snd (step mexp st' (at_index (List.length (snd st)) rd, o')) in
  read (run mexp st1 p2) o2 = read st1 o1.
Proof.
  intros mexp p x v o st1 s p2 rd o1 o2 st E Ov H R O read.
  assert (Q : forall v', nth_error (snd st) x = Some v' -> over_reservoir (heap (fst st)) v' \/ snaps_quiet st) by (intros v' E'; rewrite E in E'; inversion E'; subst; auto).
  destruct (immutable mexp st x o st1 s (reach_inv mexp p) H Q p2 o1 o2) as (d1 & d2 & N1 & N2 & D1 & D2 & P).
  unfold read. rewrite (read_ok mexp st1 _ o1 _ s d1 (at_reads _ _ _ R) N1 D1).
  rewrite (read_ok mexp _ _ o2 _ s d2 (at_reads _ _ _ R) N2 D2). symmetry. apply read_deq; auto. now rewrite at_order.
Qed.

(** the statistics of a snapshot of a sample, histogram or timer, Variance and
    StdDev included, are always those of the same multiset of values *)
Theorem C04_statistics : forall mexp p x o st1 s p2 o1 o2, let st := reach mexp p in
  no_NewSampleSnapshot p ->
  step mexp st (OSnapshot x, o) = (st1, Some (Ok (RVal s))) -> In (cls s) [CSample; CHist; CTimer] ->
  exists xs ys, Permutation xs ys /\ forall k,
    snd (step mexp st1 (OStat (List.length (snd st)) k, o1)) = Some (Ok (stat_of k xs)) /\
    snd (step mexp (run mexp st1 p2) (OStat (List.length (snd st)) k, o2)) = Some (Ok (stat_of k ys)).
Proof.
  intros mexp p x o st1 s p2 o1 o2 st NW H C.
  assert (Q : snaps_quiet st) by exact (snaps_quiet_run mexp p NW state_init inv_init snaps_quiet_init).
  destruct (immutable mexp st x o st1 s (reach_inv mexp p) H (fun v _ => or_intror Q) p2 o1 o2) as (d1 & d2 & N1 & N2 & D1 & D2 & P).
  assert (G : forall k, snd (step mexp st1 (OStat (List.length (snd st)) k, o1)) = read_data (OStat 0 k) d1 /\
    snd (step mexp (run mexp st1 p2) (OStat (List.length (snd st)) k, o2)) = read_data (OStat 0 k) d2).
  { intros k. split; [rewrite (read_ok mexp st1 (OStat _ k) o1 _ s d1 eq_refl N1 D1)|rewrite (read_ok mexp _ (OStat _ k) o2 _ s d2 eq_refl N2 D2)]; reflexivity. }
  assert (X : exists xs ys, dist d1 = Some xs /\ dist d2 = Some ys /\ Permutation xs ys).
  { destruct s; cbn [cls In] in C; try (exfalso; intuition discriminate); unfold vdata in D1;
      first [destruct (sdata _ _) as [[]|] in D1 | destruct (hdata _ _) as [[]|] in D1 | destruct (tdata _ _) as [[[]]|] in D1]; inversion D1; subst d1;
      destruct d2; cbn in P; try discriminate P; try contradiction; eexists _, _; (split; [reflexivity|]); (split; [reflexivity|]); tauto. }
  destruct X as (xs & ys & X1 & X2 & PX). exists xs, ys. split; auto. intros k. destruct (G k) as [G1 G2]. rewrite G1, G2.
  cbn [read_data]. rewrite X1, X2. auto.
Qed.

(** Values of a sample snapshot: the values of the sample when it was taken, in some order *)
Theorem C04_values : forall mexp p x v o st1 s p2 o1, let st := reach mexp p in
  no_NewSampleSnapshot p -> nth_error (snd st) x = Some v -> cls v = CSample ->
  step mexp st (OSnapshot x, o) = (st1, Some (Ok (RVal s))) ->
  exists xs ys, Permutation xs ys /\ values_of mexp st x o = Some (Ok (RZs xs)) /\
    values_of mexp (run mexp st1 p2) (List.length (snd st)) o1 = Some (Ok (RZs ys)).
Proof.
  intros mexp p x v o st1 s p2 o1 st NW E C H.
  assert (Q : snaps_quiet st) by exact (snaps_quiet_run mexp p NW state_init inv_init snaps_quiet_init).
  destruct (immutable mexp st x o st1 s (reach_inv mexp p) H (fun v _ => or_intror Q) p2 o o1) as (d1 & d2 & N1 & N2 & D1 & D2 & P).
  destruct (snapshot_facts mexp st x o st1 s (reach_inv mexp p) H) as (v' & d & E' & D & D' & _ & _ & I1 & V1 & _).
  rewrite E in E'. inversion E'; subst v'. rewrite D1 in D'. inversion D'; subst d1.
  assert (V : vok (heap (fst st)) v) by (destruct (reach_inv mexp p) as [_ F]; rewrite Forall_forall in F; apply F; eapply nth_error_In; eauto).
  destruct (sdata_ok (fst st) v (proj1 (reach_inv mexp p)) C V) as (n & xs & S).
  assert (dx : d = DSample n xs) by (destruct v; try discriminate C; unfold vdata in D; rewrite S in D; now inversion D). subst d.
  destruct d2; cbn in P; try discriminate P. destruct P as [<- P]. exists xs, xs0. split; auto. split.
  - exact (sample_values_data mexp st x v o n xs (reach_inv mexp p) E S).
  - refine (sample_values_data mexp (run mexp st1 p2) _ s o1 n xs0 (inv_run mexp p2 st1 I1) N2 _).
    unfold vdata in D2. destruct s; try discriminate D2;
      repeat match type of D2 with
      | option_map _ ?t = _ => destruct t as [[]|]; inversion D2; subst; auto
      | match nth_error ?h ?l with _ => _ end = _ => destruct (nth_error h l) as [[]|]; discriminate
      end.
Qed.

(** taking a snapshot affects no reading of anything *)
Theorem C04_snapshot_harmless : forall mexp p x o rd o1, let st := reach mexp p in
  reads rd <> None -> snd (step mexp st (rd, o1)) <> None ->
  snd (step mexp (fst (step mexp st (OSnapshot x, o))) (rd, o1)) = snd (step mexp st (rd, o1)).
Proof.
  intros mexp p x o rd o1 st R Y. destruct (reads rd) as [y|] eqn:Ry; [|contradiction].
  pose proof (reach_inv mexp p) as I. fold st in I.
  destruct (nth_error (snd st) y) as [v|] eqn:E.
  2: { exfalso. apply Y. unfold World.step. destruct rd; try discriminate Ry; inversion Ry; subst; cbn [fst snd World.call]; now rewrite E. }
  destruct (readable v) eqn:Rv; [|exfalso; apply Y; eapply read_none; eauto].
  assert (V : vok (heap (fst st)) v) by (destruct I as [_ F]; rewrite Forall_forall in F; apply F; eapply nth_error_In; eauto).
  destruct (vdata_ok o1 (fst st) v (proj1 I) V Rv) as (d & D).
  rewrite (read_ok mexp st rd o1 y v d Ry E D).
  destruct (nth_error (snd st) x) as [u|] eqn:Eu.
  - destruct (readable u) eqn:Ru.
    + destruct (snapshot_extends mexp st x u o Eu Ru I) as (ex & X). eapply read_ok; eauto using step_env. rewrite X. cbn. now apply vdata_app.
    + eapply read_ok; eauto using step_env. unfold World.step. cbn [fst snd World.call]. rewrite Eu. cbn [obind]. unfold m_snapshot.
      unfold readable in Ru. destruct (cls u); try discriminate; auto.
  - eapply read_ok; eauto using step_env. unfold World.step. cbn [fst snd World.call]. rewrite Eu. cbn. auto.
Qed.

(** in any state, calling a mutator on a snapshot panics and changes nothing *)
Theorem C04_mutators_panic : forall mexp (st : state) k v c o, nth_error (snd st) k = Some v -> is_snapshot v = true ->
  mutates c = Some k -> call mexp (snd st) c <> None -> step mexp st (c, o) = (st, Some (Panic msg_snapshot)).
Proof.
  intros mexp [w e] k v c o E S Mu C. cbn [fst snd] in *. unfold World.step. cbn [fst snd].
  destruct c; cbn in Mu; try discriminate; inversion Mu; subst; cbn [World.call] in C |- *; rewrite E in C |- *; cbn [obind] in C |- *;
    destruct v; cbn in S; try discriminate; try (exfalso; apply C; reflexivity); reflexivity.
Qed.

(** Stop on a snapshot does nothing; a snapshot's Snapshot is itself *)
Theorem C04_stop_and_snapshot : forall mexp (st : state) k v o, nth_error (snd st) k = Some v -> is_snapshot v = true ->
  (In (cls v) [CMeter; CTimer] -> step mexp st (OStop k, o) = ((fst st, snd st ++ []), Some (Ok RUnit))) /\
  step mexp st (OSnapshot k, o) = ((fst st, snd st ++ [v]), Some (Ok (RVal v))).
Proof.
  intros mexp [w e] k v o E S. cbn [fst snd] in *. unfold World.step. cbn [fst snd World.call]. rewrite E. cbn [obind].
  split; [intros C|]; destruct v; cbn in S; try discriminate; try reflexivity; cbn in C; exfalso; intuition discriminate.
Qed.

(** Variance can change in its last bits: Percentile sorts the snapshot's slice *)
Definition orc0 : orc := MkOrc 0 0 f_zero (fun _ => 0%Z) (fun _ => f_zero) (fun _ _ => []) [].
Definition fbits (r : option (res rv)) : Z := match r with Some (Ok (RF x)) => float64bits x | _ => (-1)%Z end.
Definition five : list (op * orc) :=
  [(ONew (NUniform 10), orc0); (OUpdate 1 137, orc0); (OUpdate 1 582, orc0); (OUpdate 1 867, orc0); (OUpdate 1 821, orc0); (OUpdate 1 782, orc0)].
Theorem C04_variance_immutable_refuted : exists p x o p2 s, forall mexp, let st := reach mexp p in
  no_NewSampleSnapshot p /\ snd (step mexp st (OSnapshot x, o)) = Some (Ok (RVal s)) /\
  let st1 := fst (step mexp st (OSnapshot x, o)) in
  let read st' := snd (step mexp st' (OStat (List.length (snd st)) SVariance, o)) in
  read st1 <> read (run mexp st1 p2).
Proof.
  exists five, 1, orc0, [(OPercentile 2 f_half, orc0)], (VSampleSnap 5). intros mexp. cbv zeta. split; [|split].
  - repeat constructor.
  - vm_compute. reflexivity.
  - intros H. apply (f_equal fbits) in H. vm_compute in H. discriminate H.
Qed.

(** NewSampleSnapshot keeps the caller's slice: what a snapshot of it shows can change *)
Theorem C04_NewSampleSnapshot_immutable_refuted : exists p x o p2 s, forall mexp, let st := reach mexp p in
  step mexp st (OSnapshot x, o) = ((fst st, snd st ++ [s]), Some (Ok (RVal s))) /\
  let st1 := fst (step mexp st (OSnapshot x, o)) in
  let read st' := snd (step mexp st' (OStat (List.length (snd st)) SMax, o)) in
  read st1 = Some (Ok (RZ 5)) /\ read (run mexp st1 p2) = Some (Ok (RZ 77)).
Proof.
  exists [(OMakeSlice [3; 5]%Z, orc0); (ONewSampleSnapshot 2 1, orc0)], 2, orc0, [(OWriteSlice 1 0 77, orc0)], (VSampleSnap 3).
  intros mexp. vm_compute. auto.
Qed.

(** the hypotheses hold, e.g., for a meter, a uniform sample and a histogram and timer around it *)
Definition c04_prog : list (op * orc) :=
  [(ONew (NUniform 3), orc0); (OUpdate 1 7, orc0); (OUpdate 1 4, orc0); (ONew (NHist 1), orc0); (ONew (NGauge), orc0); (OUpdate 3 42, orc0)].
Example C04_example : forall mexp, let st := reach mexp c04_prog in
  no_NewSampleSnapshot c04_prog /\
  (exists s, snd (step mexp st (OSnapshot 1, orc0)) = Some (Ok (RVal s)) /\ is_snapshot s = true) /\
  (exists s, snd (step mexp st (OSnapshot 2, orc0)) = Some (Ok (RVal s)) /\ is_snapshot s = true) /\
  snd (step mexp st (OSnapshot 3, orc0)) = Some (Ok (RVal (VGaugeSnap 42))) /\
  snd (step mexp st (OStat 2 SMax, orc0)) = Some (Ok (RZ 7)) /\
  let st1 := fst (step mexp st (OSnapshot 2, orc0)) in
  let st2 := run mexp st1 [(OUpdate 1 99, orc0); (OClear 2, orc0)] in
  snd (step mexp st2 (OStat 2 SMax, orc0)) = Some (Ok (RZ 0)) /\ snd (step mexp st2 (OStat 4 SMax, orc0)) = Some (Ok (RZ 7)) /\
  over_reservoir (heap (fst st)) (VHist 4).
Proof.
  intros mexp. cbv zeta. split; [repeat constructor|]. split; [eexists; vm_compute; auto|]. split; [eexists; vm_compute; auto|].
  split; [reflexivity|]. split; [reflexivity|]. split; [vm_compute; reflexivity|]. split; [vm_compute; reflexivity|].
  exists (VUniform 3). vm_compute. auto.
Qed.

(** ** C05 *)
(** while UseNilMetrics is set, every constructor returns the stub of its kind and changes nothing *)
Theorem C05_constructors : forall mexp (st : state) k o, usenil (fst st) = true -> ctor_of (snd st) k <> None ->
  is_stub (stub_for k) = true /\ step mexp st (ONew k, o) = ((fst st, snd st ++ [stub_for k]), Some (Ok (RVal (stub_for k)))).
Proof. intros. split; [apply stub_is_stub|apply stub_new; auto]. Qed.

(** every method of a stub returns, returns a zero value and changes nothing (the world, i.e.
    all objects, the ticked meters and the ticker, is the same after it) *)
Theorem C05_methods : forall mexp p x v c o, let st := reach mexp p in
  nth_error (snd st) x = Some v -> is_stub v = true -> method (cls v) c = Some x ->
  exists r, step mexp st (c, o) = ((fst st, snd st ++ yields r), Some (Ok r)) /\ zero_result c (heap (fst st)) r.
Proof. intros mexp p x v c o st E S Mt. exact (stub_method mexp st c o x v (reach_inv mexp p) E S Mt). Qed.

(** so no sequence of constructors and method calls on stubs panics or changes anything *)
Theorem C05_sequences : forall mexp p q, let st := reach mexp p in
  usenil (fst st) = true -> only_stubs mexp st q ->
  fst (run mexp st q) = fst st /\ Forall (fun r => exists x, r = Some (Ok x)) (results mexp st q).
Proof. intros mexp p q st U S. exact (only_stubs_run mexp q st (reach_inv mexp p) U S). Qed.

(** no call whatever starts the ticker or adds a ticked meter while UseNilMetrics is set *)
Theorem C05_no_ticking : forall mexp p c o, let st := reach mexp p in usenil (fst st) = true -> (forall b, c <> OSetNil b) ->
  let w' := fst (fst (step mexp st (c, o))) in
  usenil w' = true /\ ticking w' = ticking (fst st) /\ incl (alive w') (alive (fst st)).
Proof. intros mexp p c o st U N. exact (no_ticking mexp st c o U N). Qed.

(** the stub timer's Time(f) returns without giving control to f *)
Theorem C05_time_does_not_call : forall mexp (st : state) x o, nth_error (snd st) x = Some VNilTimer ->
  snd (step mexp st (OTimeBegin x, o)) = Some (Ok RUnit) /\
  forall l, nth_error (snd st) x <> Some (VTimer l).
Proof.
  intros mexp [w e] x o E. cbn [snd] in E. split; [|cbn; intros l H; rewrite E in H; discriminate].
  unfold World.step. cbn [fst snd World.call]. rewrite E. reflexivity.
Qed.

(** setting the flag is enough to satisfy the hypotheses; with the flag unset a
    constructor makes a real meter and starts the ticker *)
Example C05_example : forall mexp,
  let st := reach mexp [(OSetNil true, orc0)] in
  usenil (fst st) = true /\ ctor_of (snd st) NMeter <> None /\
  only_stubs mexp st [(ONew NMeter, orc0); (OMark 1 5, orc0); (ONew NTimer, orc0); (OUpdate 2 9, orc0); (OSnapshot 2, orc0); (OCount 3, orc0)] /\
  ticking (fst (fst (step mexp state_init (ONew NMeter, orc0)))) = true.
Proof.
  intros mexp. cbv zeta. split; [reflexivity|]. split; [discriminate|]. split.
  - assert (K : forall (st : state) k, ctor_of (snd st) k <> None -> exists k', ONew k = ONew k' /\ ctor_of (snd st) k' <> None) by eauto.
    cbn [only_stubs]. split; [left; apply K; discriminate|]. split; [right; exists 1, VNilMeter; repeat split|].
    split; [left; apply K; discriminate|]. split; [right; exists 2, VNilTimer; repeat split|]. split; [right; exists 2, VNilTimer; repeat split|].
    split; [right; exists 3, VNilTimer; repeat split|exact Logic.I].
  - reflexivity.
Qed.
