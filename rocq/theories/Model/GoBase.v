(** Go run-time basics: panicking results, slice indexing, sorting. *)
From Coq Require Import ZArith List String.
From Verif.Model Require Import GoInt.
Import ListNotations.
Open Scope Z_scope.

(** Result of a Go call: normal return or panic (with its message class). *)
Inductive res (A : Type) : Type :=
| Ok (a : A)
| Panic (msg : string).
Arguments Ok {A} _.
Arguments Panic {A} _.

Definition res_bind {A B} (r : res A) (f : A -> res B) : res B :=
  match r with Ok a => f a | Panic m => Panic m end.

Definition is_ok {A} (r : res A) : bool :=
  match r with Ok _ => true | Panic _ => false end.

Definition msg_index : string := "index out of range".
Definition msg_slice : string := "slice bounds out of range".
Definition msg_div0 : string := "integer divide by zero".
Definition msg_nil : string := "nil pointer dereference".
Definition msg_type : string := "interface conversion".

(** len(s) for a slice. *)
Definition slen {A} (l : list A) : Z := Z.of_nat (List.length l).

(** s[i]: panics when i < 0 or i >= len(s). *)
Definition sget {A} (l : list A) (i : Z) : res A :=
  if ((i <? 0) || (slen l <=? i))%bool then Panic msg_index
  else match nth_error l (Z.to_nat i) with
       | Some a => Ok a
       | None => Panic msg_index
       end.

(** list update at a nat index (no effect out of range: callers check). *)
Fixpoint lset {A} (l : list A) (i : nat) (a : A) : list A :=
  match l, i with
  | [], _ => []
  | _ :: t, O => a :: t
  | h :: t, S i' => h :: lset t i' a
  end.

(** s[i] = a: panics when out of range. *)
Definition sset {A} (l : list A) (i : Z) (a : A) : res (list A) :=
  if (i <? 0) then Panic msg_index
  else if (i <? slen l) then Ok (lset l (Z.to_nat i) a)
  else Panic msg_index.

(** sort.Sort on an int64Slice (sample.go:612-616): Go's sort produces some
    sorted permutation of the slice; on integers that permutation is unique
    (Proofs/SortFacts.v), so insertion sort stands for whatever algorithm the
    Go release uses. *)
Fixpoint insertz (x : Z) (l : list Z) : list Z :=
  match l with
  | [] => [x]
  | y :: t => if x <=? y then x :: l else y :: insertz x t
  end.
Definition sortz (l : list Z) : list Z := fold_right insertz [] l.
