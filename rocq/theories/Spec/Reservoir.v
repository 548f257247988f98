(** Vocabulary for reservoir properties, independent of the implementation. *)
From Coq Require Import ZArith List Permutation.
From Verif.Model Require Import GoInt GoBase.
Import ListNotations.
Open Scope Z_scope.

(** every element of [l], with multiplicity, is an element of [m] *)
Definition submultiset {A} (l m : list A) : Prop := exists rest, Permutation (l ++ rest) m.

(** a call, as far as the recorded values are concerned *)
Inductive revent := RecordV (v : Z) | ResetAll | NoEffect.

(** the values recorded since the last reset, oldest first *)
Definition recorded (h : list revent) : list Z :=
  fold_left (fun acc e => match e with
                          | RecordV v => acc ++ [v]
                          | ResetAll => []
                          | NoEffect => acc
                          end) h [].

(** number of recorded values never exceeds 2^63-1 along the history *)
Definition few (h : list revent) : Prop :=
  forall h1 h2, h = h1 ++ h2 -> slen (recorded h1) < 2 ^ 63.
