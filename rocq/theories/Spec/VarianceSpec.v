(** Mean and variance of a list of integers, as real numbers. *)
From Coq Require Import ZArith Reals List.
From Verif.Model Require Import GoBase.
From Verif.Spec Require Import OrderStats.
Open Scope R_scope.

Definition rsum (l : list R) : R := fold_right Rplus 0 l.
Definition mean_of (l : list Z) : R := IZR (zsum l) / IZR (slen l).
(** the population variance *)
Definition variance_of (l : list Z) : R := rsum (map (fun v => (IZR v - mean_of l) * (IZR v - mean_of l)) l) / IZR (slen l).
