(** Properties C14-C16: UniformSample (sample.go:397-535). *)
From Coq Require Import ZArith List Permutation Factorial Lia.
From Verif.Model Require Import GoInt GoFloat GoBase Stats Uniform.
From Verif.Spec Require Import OrderStats Reservoir Uniformity.
From Verif.Proofs Require Import IntFacts SortFacts ListFacts UniformProofs UniformityProofs.
Import ListNotations.
Open Scope Z_scope.

(** [uop_event] classifies a call as recording, resetting or neither;
    [few h]: at no point of the history are 2^63 values recorded. *)

(** ** C14 *)
Theorem C14_new : forall n, 0 <= n -> NewUniformSample n = Ok (ustart n).
Proof. exact NewUniform_ok. Qed.

Theorem C14_count_and_size : forall n h, 0 <= n -> few (map uop_event h) ->
  let s := uni_run (ustart n) h in let r := recorded (map uop_event h) in
  uni_Count s = slen r /\ uni_Size s = Z.min (slen r) n /\ slen (uni_Values s) = uni_Size s.
Proof. exact uni_count_size. Qed.
Print Assumptions C14_count_and_size.

Theorem C14_update_never_panics : forall n h v d, 0 <= n -> few (map uop_event (h ++ [(UUpdate v, d)])) ->
  snd (uni_update (uni_run (ustart n) h) v d) = Ok tt.
Proof. exact uni_update_no_panic. Qed.
Print Assumptions C14_update_never_panics.

(** every history of fewer than 2^63 calls qualifies *)
Theorem C14_short_histories : forall h : list revent, slen h < 2 ^ 63 -> few h.
Proof. exact few_short. Qed.

(* reservoir of 2, five updates with a clear and a percentile read in between *)
Definition ex_history : list (uop * Z) :=
  [(UUpdate 9, 0); (UClear, 0); (UUpdate 5, 0); (UUpdate 4, 0); (UPercentiles [f_of_scaled 1 (-1)], 0);
   (UUpdate 3, 1); (URead, 0); (UUpdate 2, 3)].
Example C14_example : few (map uop_event ex_history) /\
  u_values (uni_run (ustart 2) ex_history) = [4; 3] /\ u_count (uni_run (ustart 2) ex_history) = 4 /\
  recorded (map uop_event ex_history) = [5; 4; 3; 2].
Proof. split; [apply few_short; reflexivity|]. vm_compute. repeat split. Qed.

(** ** C15 *)
Theorem C15_only_recorded_values : forall n h, 0 <= n -> few (map uop_event h) ->
  submultiset (uni_Values (uni_run (ustart n) h)) (recorded (map uop_event h)).
Proof. exact uni_values_sub. Qed.
Print Assumptions C15_only_recorded_values.

Theorem C15_all_while_not_full : forall n h, 0 <= n -> few (map uop_event h) ->
  slen (recorded (map uop_event h)) <= n ->
  Permutation (uni_Values (uni_run (ustart n) h)) (recorded (map uop_event h)).
Proof. exact uni_values_all. Qed.
Print Assumptions C15_all_while_not_full.

Example C15_example : few (map uop_event ex_history) /\ slen (recorded (map uop_event ex_history)) <= 4.
Proof. split; [apply few_short; reflexivity|]. vm_compute. discriminate. Qed.

(** ** C16.  [reservoir_of N ops ds]: contents of a reservoir of size N after the
    calls [ops], the i-th update using the draw [ds_i].  All n! sequences of
    draws are equally likely; each N-subset of the n recorded (distinguishable)
    values results from exactly N! (n-N)! of them. *)
Theorem C16_every_subset_equally_likely : forall N ops,
  existsb is_clear ops = false -> slen ops < 2 ^ 63 ->
  let vs := updates_of ops in let n := length vs in
  NoDup vs -> (N <= n)%nat ->
  forall S, NoDup S -> incl S vs -> length S = N ->
  countb (fun ds => permb (reservoir_of N ops ds) S) (draw_seqs n) = (fact N * fact (n - N))%nat /\
  length (draw_seqs n) = fact n.
Proof.
  exact (fun N ops Hc Hs Hnd HN S HS Hin Hl =>
    conj (eq_trans (eq_sym (hits_countb N ops (fun s => permb s S)))
                   (algorithm_R_subsets N ops Hc Hs Hnd HN S HS Hin Hl))
         (draw_seqs_count _)).
Qed.
Print Assumptions C16_every_subset_equally_likely.

(** each observation is retained with probability N/n *)
Theorem C16_marginal_probability : forall N ops,
  existsb is_clear ops = false -> slen ops < 2 ^ 63 ->
  let vs := updates_of ops in let n := length vs in
  NoDup vs -> (N <= n)%nat -> forall v, In v vs ->
  (countb (fun ds => memz v (reservoir_of N ops ds)) (draw_seqs n) * n = N * length (draw_seqs n))%nat.
Proof.
  exact (fun N ops Hc Hs Hnd HN v Hv =>
    eq_trans (f_equal (fun x => (x * _)%nat) (eq_sym (hits_countb N ops (memz v))))
   (eq_trans (algorithm_R_marginal N ops Hc Hs Hnd HN v Hv) (f_equal (Nat.mul N) (eq_sym (draw_seqs_count _))))).
Qed.
Print Assumptions C16_marginal_probability.

Theorem C16_permb_is_permutation : forall a b, permb a b = true <-> Permutation a b.
Proof. exact permb_true. Qed.

(** the choice never depends on the values (repeated values are as good as
    distinguishable ones) *)
Theorem C16_value_oblivious : forall N f vs ds,
  reservoir_of N (map UUpdate (map f vs)) ds = map f (reservoir_of N (map UUpdate vs) ds).
Proof. exact reservoir_value_oblivious. Qed.
Print Assumptions C16_value_oblivious.

Definition ex_ops : list uop :=
  [UUpdate 30; UUpdate 10; UPercentiles [f_of_scaled 1 (-1)]; UUpdate 20; URead; UUpdate 40].
Example C16_example : existsb is_clear ex_ops = false /\ slen ex_ops < 2 ^ 63 /\ NoDup (updates_of ex_ops) /\
  (2 <= length (updates_of ex_ops))%nat /\
  countb (fun ds => permb (reservoir_of 2 ex_ops ds) [40; 10]) (draw_seqs 4) = 4%nat.
Proof.
  split; [reflexivity|]. split; [reflexivity|]. split; [|split; [simpl; lia|vm_compute; reflexivity]].
  simpl. repeat constructor; simpl; intuition discriminate.
Qed.
