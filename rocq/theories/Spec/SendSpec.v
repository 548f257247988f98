(** Vocabulary for the delivery of reports. *)
From Coq Require Import List String Bool.
From Verif.Model Require Import Send.
Import ListNotations.

Definition prefix_of (s t : string) : Prop := exists r, t = (s ++ r)%string.
(** no call of Write fails *)
Definition works (f : fate) : Prop := Forall (fun x => x = None) f.
(** the bytes that a connection accepted, and the calls of its Write with whether they failed *)
Definition received (r : sent) : string := c_accepted (s_conn r).
Definition calls (r : sent) : list (string * bool) := c_calls (s_conn r).
(** nothing is written after a failed call *)
Definition stops_at_failure (l : list (string * bool)) : Prop := forall i s, nth_error l i = Some (s, true) -> S i = List.length l.
