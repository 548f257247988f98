(** Many sequential objects as one. *)
From Coq Require Import List Arith.
From Verif.Model Require Import Conc Compose.
From Verif.Spec Require Import Linearizability.
Import ListNotations.

Section Objects.
Variable O : nat -> object.
(** for each object its sequential counterpart *)
Variable Q : nat -> Type.
Variable apply : forall i, Q i -> o_op (O i) -> Q i * o_ret (O i).
(** a call changes the object it is made on, and no other *)
Definition apply_at (q : forall i, Q i) (op : any_op O) : (forall i, Q i) * any_ret O :=
  let (i, a) := op in let (x, r) := apply i (q i) a in (put q i x, existT _ i r).
End Objects.

(** what happens to the object [i] in a history *)
Section Only.
Variable O : nat -> object.
Variable i : nat.
Definition only_op (op : any_op O) : list (o_op (O i)) := match Nat.eq_dec (projT1 op) i with left e => [eq_rect _ (fun j => o_op (O j)) (projT2 op) i e] | right _ => [] end.
Definition only_ret (r : any_ret O) : list (o_ret (O i)) := match Nat.eq_dec (projT1 r) i with left e => [eq_rect _ (fun j => o_ret (O j)) (projT2 r) i e] | right _ => [] end.
Definition only (h : list (hevent (any_op O) (any_ret O))) : list (hevent (o_op (O i)) (o_ret (O i))) :=
  flat_map (fun e => match e with HInv t op => map (HInv t) (only_op op) | HRes t r => map (HRes t) (only_ret r) end) h.
End Only.
