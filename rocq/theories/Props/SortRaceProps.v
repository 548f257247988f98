(** C55: one sample snapshot asked for percentiles by several goroutines. *)
From Coq Require Import ZArith List Lia Permutation Sorted.
From Verif.Model Require Import GoInt GoFloat GoBase Conc Stats Ewma SortRace.
From Verif.Proofs Require Import SortFacts SortRaceProofs.
Import ListNotations.
Open Scope Z_scope.

(** Called by one goroutine at a time, the body does what the sequential function does. *)
Theorem C55_alone : forall xs p,
  cseq (percentile_body (length xs) p) xs = Some (SamplePercentile xs p)
  /\ Permutation xs (fst (SamplePercentile xs p))
  /\ StronglySorted Z.le (fst (SamplePercentile xs p)).
Proof.
  intros xs p. split; [apply body_alone|]. unfold SamplePercentile, SamplePercentiles. destruct xs as [|x xs]; [split; constructor|]. cbn [fst]. split; [apply sortz_perm|apply sortz_sorted].
Qed.

(** Whatever the snapshot's values are, unless they happen to be sorted already, two goroutines can
    lose one of them: both calls return, and one value [y] has been replaced by another copy of a
    larger one, [x]. *)
Theorem C55_race : forall xs p q, ~ StronglySorted Z.le xs ->
  exists sched c r0 r1,
    cexec (percentile_body (length xs)) xs sched = (c, [EInv 0%nat p; EInv 1%nat q; ERes 0%nat r0; ERes 1%nat r1])
    /\ (forall t, th c t = Idle)
    /\ exists x y rest, y < x /\ Permutation xs (x :: y :: rest) /\ Permutation (sh c) (x :: x :: rest).
Proof. exact race. Qed.

(** The values are at risk exactly when they are not sorted: on a sorted snapshot no schedule of any
    number of goroutines changes anything. *)
Theorem C55_unsafe_iff : forall xs,
  (exists sched, let c := fst (cexec (percentile_body (length xs)) xs sched) in (forall t, th c t = Idle) /\ ~ Permutation xs (sh c))
  <-> ~ StronglySorted Z.le xs.
Proof.
  intros xs. split.
  - intros (sched & H) Ss. destruct H as (_ & H). apply H. unfold cexec. destruct (quiet_run xs sched Ss (cstart xs) []) as (E & _).
    + split; [reflexivity|]. intros t. exact Logic.I.
    + rewrite E. reflexivity.
  - intros N. destruct (race xs f_zero f_zero N) as (sched & c & r0 & r1 & H & I & x & y & rest & D & P1 & P2). exists sched. rewrite H. cbn [fst]. split; [exact I|]. intros P. rewrite P1, P2 in P. apply Permutation_cons_inv in P.
    assert (Hc : forall l m : list Z, Permutation l m -> count_occ Z.eq_dec l y = count_occ Z.eq_dec m y) by (intros l m Q; now apply (Permutation_count_occ Z.eq_dec)).
    apply Hc in P. cbn [count_occ] in P. destruct (Z.eq_dec y y); [|congruence]. destruct (Z.eq_dec x y); lia.
Qed.

(** The two values 2, 1 and the schedule that leaves 2, 2; the medians the two callers get are 2, 2. *)
Definition race_21 : list (choice f64) :=
  let half := fdiv (f_of_int 1) (f_of_int 2) in
  [Call 0 half; Call 1 half; Run 0; Run 0; Run 1; Run 1; Run 0; Run 0; Run 0; Run 1; Run 1; Run 0; Run 1; Run 1;
   Run 0; Run 0; Run 0; Run 1; Run 1; Run 1]%nat.
Example C55_example :
  let run := cexec (percentile_body 2) [2; 1] race_21 in
  sh (fst run) = [2; 2]
  /\ match th (fst run) 0%nat, th (fst run) 1%nat with Idle, Idle => true | _, _ => false end = true
  /\ existsb (fun e => match e with ERes 1%nat (Ok v) => feq v (f_of_int 2) | _ => false end) (snd run) = true
  /\ ~ StronglySorted Z.le [2; 1].
Proof.
  intros run. split; [vm_compute; reflexivity|]. split; [vm_compute; reflexivity|]. split; [vm_compute; reflexivity|].
  intros H. apply StronglySorted_inv in H. destruct H as (_ & F). inversion F. lia.
Qed.
