(** The probability space of Algorithm R: the draw made for the c-th recorded
    value is uniform on {0,...,c-1}, independently; so all sequences below are
    equally likely and probabilities are counts divided by n!. *)
From Coq Require Import ZArith List Permutation.
From Verif.Model Require Import GoInt GoBase Stats Uniform.
From Verif.Spec Require Import Reservoir.
Import ListNotations.

(** recording calls of the interface *)
Definition uop_event (od : uop * Z) : revent :=
  match fst od with UUpdate v => RecordV v | UClear => ResetAll | _ => NoEffect end.

(** a fresh sample *)
Definition ustart (n : Z) : uniform := MkUniform 0 n [].

Fixpoint draw_seqs (n : nat) : list (list Z) :=
  match n with
  | O => [[]]
  | S m => flat_map (fun ds => map (fun d => ds ++ [Z.of_nat d]) (seq 0 (S m))) (draw_seqs m)
  end.

(** number of elements satisfying a decidable predicate *)
Definition countb {A} (f : A -> bool) (l : list A) : nat := length (filter f l).

(** give the i-th update the i-th draw *)
Fixpoint assign (ops : list uop) (ds : list Z) : list (uop * Z) :=
  match ops with
  | [] => []
  | UUpdate v :: ops' => match ds with
                         | d :: ds' => (UUpdate v, d) :: assign ops' ds'
                         | [] => (UUpdate v, 0%Z) :: assign ops' []
                         end
  | o :: ops' => (o, 0%Z) :: assign ops' ds
  end.

(** the recorded values *)
Definition updates_of (ops : list uop) : list Z :=
  flat_map (fun o => match o with UUpdate v => [v] | _ => [] end) ops.

Definition is_clear (o : uop) : bool := match o with UClear => true | _ => false end.

(** equality as multisets, decided by sorting *)
Definition permb (a b : list Z) : bool := if list_eq_dec Z.eq_dec (sortz a) (sortz b) then true else false.

Definition memz (x : Z) (l : list Z) : bool := existsb (Z.eqb x) l.

(** contents of a reservoir of size N after [ops] *)
Definition reservoir_of (N : nat) (ops : list uop) (ds : list Z) : list Z :=
  uni_Values (uni_run (ustart (Z.of_nat N)) (assign ops ds)).
