(** Declarative order statistics, independent of any sorting. *)
From Coq Require Import ZArith List.
Import ListNotations.
Open Scope Z_scope.

Definition count_lt (l : list Z) (x : Z) : nat := length (filter (fun y => y <? x) l).
Definition count_le (l : list Z) (x : Z) : nat := length (filter (fun y => y <=? x) l).

(** [x] is the [k]-th smallest element of [l] (1 <= k <= length l): it occurs in
    [l], fewer than [k] elements are smaller, at least [k] are not larger. *)
Definition order_stat (l : list Z) (k : nat) (x : Z) : Prop :=
  In x l /\ (count_lt l x < k <= count_le l x)%nat.

(** mathematical sum *)
Definition zsum (l : list Z) : Z := fold_right Z.add 0 l.
