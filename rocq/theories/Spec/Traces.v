(** Reading executions of the interleaving machine. *)
From Coq Require Import List Arith.
From Verif.Model Require Import Conc.
From Verif.Spec Require Import Linearizability.
Import ListNotations.

(** the history of calls and returns *)
Definition history {L Op R} (tr : list (event L Op R)) : list (hevent Op R) :=
  flat_map (fun e => match e with EInv t op => [HInv t op] | EStep _ _ => [] | ERes t r => [HRes t r] end) tr.

(** the calls made, in order *)
Definition calls {L Op R} (tr : list (event L Op R)) : list Op :=
  flat_map (fun e => match e with EInv _ op => [op] | _ => [] end) tr.

(** the observed actions, in order *)
Definition labels {L Op R} (tr : list (event L Op R)) : list L :=
  flat_map (fun e => match e with EStep _ l => [l] | _ => [] end) tr.

(** restricted to one goroutine *)
Definition calls_of {L Op R} (t : nat) (tr : list (event L Op R)) : list Op :=
  flat_map (fun e => match e with EInv u op => if Nat.eqb u t then [op] else [] | _ => [] end) tr.
Definition labels_of {L Op R} (t : nat) (tr : list (event L Op R)) : list L :=
  flat_map (fun e => match e with EStep u l => if Nat.eqb u t then [l] else [] | _ => [] end) tr.

(** no call is in progress *)
Definition quiet {S L Op R} (c : config S L Op R) : Prop := forall t, th c t = Idle.

(** one goroutine's completed calls with what was observed of each and its
    result, oldest first, and the call in progress *)
Record call_rec (L Op R : Type) := MkCall { c_op : Op; c_labels : list L; c_ret : R }.
Arguments MkCall {L Op R}.
Arguments c_op {L Op R}.
Arguments c_labels {L Op R}.
Arguments c_ret {L Op R}.
Definition log_step {L Op R} (t : nat) (acc : list (call_rec L Op R) * option (Op * list L)) (e : event L Op R) :=
  match e with
  | EInv u op => if Nat.eqb u t then (fst acc, Some (op, [])) else acc
  | EStep u l => if Nat.eqb u t then (fst acc, match snd acc with Some (op, ls) => Some (op, ls ++ [l]) | None => None end) else acc
  | ERes u r => if Nat.eqb u t then
      match snd acc with Some (op, ls) => (fst acc ++ [MkCall op ls r], None) | None => acc end else acc
  end.
Definition call_log {L Op R} (t : nat) (tr : list (event L Op R)) := fold_left (log_step t) tr ([], None).
Definition done_calls {L Op R} (t : nat) (tr : list (event L Op R)) : list (call_rec L Op R) := fst (call_log t tr).
Definition open_call {L Op R} (t : nat) (tr : list (event L Op R)) : option (Op * list L) := snd (call_log t tr).
(** a call of op has returned *)
Definition returned {L Op R} (op : Op) (tr : list (event L Op R)) : Prop :=
  exists t c, In c (done_calls t tr) /\ c_op c = op.
