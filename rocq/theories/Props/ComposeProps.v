(** Property C68: goroutines that use many metrics at once.

    [process mexp st sched] is the execution of goroutines that call methods of the counters,
    gauges, float64 gauges, samples and histograms a process holds in the state [st] of World.v,
    action by action (Process.v); [sched] says which goroutine acts next. *)
From Coq Require Import ZArith List String Lia.
From Verif.Model Require Import GoInt GoFloat GoBase Conc CounterGauge Stats Compose World Process.
From Verif.Spec Require Import Linearizability Traces ComposeSpec ProcessSpec.
From Verif.Proofs Require Import WorldBase WorldStep ComposeProofs WorldArrays ProcessProofs.
From Verif.Props Require Import SnapshotProps ReportProps.
Import ListNotations.
Open Scope Z_scope.

(** If each of any number of objects is linearizable by itself then they are together, as the
    object in which a call changes the object it is made on and no other. *)
Theorem C68_objects : forall (O : nat -> object) (Q : nat -> Type) (apply : forall i, Q i -> o_op (O i) -> Q i * o_ret (O i)) (q0 : forall i, Q i),
  (forall i sched, linearizable (apply i) (q0 i) (history (snd (cexec (o_body (O i)) (o_start (O i)) sched)))) ->
  forall sched, linearizable (apply_at O Q apply) q0 (history (snd (objects_exec O sched))).
Proof. intros O Q apply q0 H sched. now apply objects_linearizable. Qed.

(** However goroutines that use the metrics of a process interleave, in any state the process
    can be in, the calls answer as if each happened at one instant between its invocation and
    its response, in the process of World.v, in which a call is one step. *)
Theorem C68_world : forall mexp p sched, let st := reach mexp p in
  (forall t co, In (Call t co) sched -> served mexp st (fst co)) ->
  linearizable (world_apply mexp) st (seen_history (history (snd (process mexp st sched)))).
Proof.
  intros mexp p sched st. assert (I : inv st) by exact (reach_inv mexp p). assert (A : apart (fst st)) by exact (reach_apart mexp p). clearbody st.
  intros Sv. exact (process_linearizable mexp st sched I A Sv).
Qed.

(** ** Example: a counter, a UniformSample and two histograms over it.  Goroutine 0 increments
    the counter while goroutine 1 updates the sample through the first histogram; goroutine 2
    asks the second histogram, waits for the sample's mutex and sees the update. *)
Definition o0 : orc := orc_at 0.
Definition shared_sample : list (op * orc) := map (fun c => (c, o0)) [ONew NCounter; ONew (NUniform 2); ONew (NHist 2); ONew (NHist 2)].
Definition rounds (ts : list nat) : list (choice (op * orc)) := map (@Run _) ts.
Definition overlapping : list (choice (op * orc)) :=
  [Call 0%nat (OInc 1 5, o0); Call 1%nat (OUpdate 3 7, o0); Run 1%nat; Call 2%nat (OCount 4, o0); Run 2%nat; Run 0%nat; Run 1%nat; Run 0%nat]
  ++ rounds [1; 1; 1; 1; 1; 1; 1; 1; 1; 2; 2; 2; 2; 2; 2]%nat
  ++ [Call 0%nat (OCount 1, o0)] ++ rounds [0; 0; 0]%nat ++ [Call 2%nat (OValues 2, o0)] ++ rounds [2; 2; 2; 2; 2]%nat.
Lemma served_here mexp st c : match target st c with Some _ => True | None => False end -> match call mexp (snd st) c with Some _ => True | None => False end -> served mexp st c.
Proof. unfold served. destruct (target st c), (call mexp (snd st) c); intros H H'; try contradiction; split; discriminate. Qed.
Example overlapping_served : forall t co, In (Call t co) overlapping -> served one_exp (reach one_exp shared_sample) (fst co).
Proof.
  intros t co H. unfold overlapping, rounds in H. cbn [map app In] in H.
  repeat (destruct H as [H|H]; [try discriminate H; injection H as <- <-; apply served_here; exact I|]). destruct H.
Qed.
Definition shown (h : list (hevent (op * orc) seen)) : list (nat * (op + seen)) := map (fun e => match e with HInv t o => (t, inl (fst o)) | HRes t r => (t, inr r) end) h.
Example overlapping_history : shown (seen_history (history (snd (process one_exp (reach one_exp shared_sample) overlapping)))) =
  [(0%nat, inl (OInc 1 5)); (1%nat, inl (OUpdate 3 7)); (2%nat, inl (OCount 4)); (0%nat, inr SeenUnit); (1%nat, inr SeenUnit); (2%nat, inr (SeenInt 1));
   (0%nat, inl (OCount 1)); (0%nat, inr (SeenInt 5)); (2%nat, inl (OValues 2)); (2%nat, inr (SeenSlice [7]))].
Proof. vm_compute. reflexivity. Qed.
Example overlapping_linearizable : linearizable (world_apply one_exp) (reach one_exp shared_sample) (seen_history (history (snd (process one_exp (reach one_exp shared_sample) overlapping)))).
Proof. exact (C68_world one_exp shared_sample overlapping overlapping_served). Qed.
