(** Integer statistics: extrema, sum. *)
From Coq Require Import ZArith List Lia Permutation.
From Verif.Model Require Import GoInt GoBase GoFloat Stats.
From Verif.Spec Require Import OrderStats.
From Verif.Proofs Require Import IntFacts SortFacts.
Import ListNotations.
Open Scope Z_scope.

Lemma max_fold l : forall a,
  let r := fold_left (fun max v => if max <? v then v else max) l a in
  (r = a \/ In r l) /\ a <= r /\ (forall x, In x l -> x <= r).
Proof.
  induction l as [|b l IH]; intro a; cbn [fold_left].
  - simpl. repeat split; auto; [lia|contradiction].
  - specialize (IH (if a <? b then b else a)). cbv zeta in *.
    destruct IH as (H1 & H2 & H3). destruct (Z.ltb_spec a b); repeat split.
    + right. destruct H1 as [->|H1]; [now left|now right].
    + lia.
    + intros x [<-|Hx]; [lia|now apply H3].
    + destruct H1 as [->|H1]; [now left|right; now right].
    + lia.
    + intros x [<-|Hx]; [lia|now apply H3].
Qed.

Lemma min_fold l : forall a,
  let r := fold_left (fun min v => if v <? min then v else min) l a in
  (r = a \/ In r l) /\ r <= a /\ (forall x, In x l -> r <= x).
Proof.
  induction l as [|b l IH]; intro a; cbn [fold_left].
  - simpl. repeat split; auto; [lia|contradiction].
  - specialize (IH (if b <? a then b else a)). cbv zeta in *.
    destruct IH as (H1 & H2 & H3). destruct (Z.ltb_spec b a); repeat split.
    + right. destruct H1 as [->|H1]; [now left|now right].
    + lia.
    + intros x [<-|Hx]; [lia|now apply H3].
    + destruct H1 as [->|H1]; [now left|right; now right].
    + lia.
    + intros x [<-|Hx]; [lia|now apply H3].
Qed.

Lemma SampleMax_spec l : l <> [] -> Forall is_int64 l ->
  In (SampleMax l) l /\ forall x, In x l -> x <= SampleMax l.
Proof.
  intros Hne Hl. destruct l as [|a l]; [congruence|]. cbv beta iota delta [SampleMax].
  destruct (max_fold (a :: l) min_int64) as (H1 & H2 & H3). cbv zeta in *.
  set (r := fold_left _ _ _) in *. split; [|exact H3].
  destruct H1 as [E|H1]; [|exact H1].
  left. specialize (H3 a (or_introl eq_refl)). apply Forall_inv in Hl.
  destruct Hl as [Hl _]. lia.
Qed.

Lemma SampleMin_spec l : l <> [] -> Forall is_int64 l ->
  In (SampleMin l) l /\ forall x, In x l -> SampleMin l <= x.
Proof.
  intros Hne Hl. destruct l as [|a l]; [congruence|]. cbv beta iota delta [SampleMin].
  destruct (min_fold (a :: l) max_int64) as (H1 & H2 & H3). cbv zeta in *.
  set (r := fold_left _ _ _) in *. split; [|exact H3].
  destruct H1 as [E|H1]; [|exact H1].
  left. specialize (H3 a (or_introl eq_refl)). apply Forall_inv in Hl.
  destruct Hl as [_ Hl]. lia.
Qed.

Lemma sum_fold l : forall a, fold_left (fun s v => wrap64 (s + v)) l (wrap64 a) = wrap64 (a + zsum l).
Proof.
  induction l as [|b l IH]; intro a; cbn [fold_left zsum fold_right].
  - f_equal; lia.
  - rewrite wrap64_add_l, IH. f_equal. unfold zsum. lia.
Qed.

Lemma SampleSum_spec l : SampleSum l = wrap64 (zsum l).
Proof. exact (sum_fold l 0). Qed.

Lemma SampleSum_int64 l : is_int64 (SampleSum l).
Proof. rewrite SampleSum_spec. apply wrap64_range. Qed.

Lemma SampleSum_perm l l' : Permutation l l' -> SampleSum l = SampleSum l'.
Proof. intro P. rewrite !SampleSum_spec. now rewrite (zsum_perm _ _ P). Qed.

Lemma perm_nil_iff {A} (l l' : list A) : Permutation l l' -> (l = [] <-> l' = []).
Proof.
  intro P; split; intro E; subst; [apply Permutation_nil; exact P|].
  symmetry in P. apply Permutation_nil; exact P.
Qed.

Lemma if_max a b : (if a <? b then b else a) = Z.max a b.
Proof. destruct (Z.ltb_spec a b); lia. Qed.
Lemma if_min a b : (if b <? a then b else a) = Z.min a b.
Proof. destruct (Z.ltb_spec b a); lia. Qed.

(* order independence holds even for lists outside the int64 range *)
Lemma max_fold_perm l l' : Permutation l l' -> forall a,
  fold_left (fun max v => if max <? v then v else max) l a =
  fold_left (fun max v => if max <? v then v else max) l' a.
Proof.
  induction 1; intro a; cbn [fold_left]; auto.
  - f_equal. rewrite !if_max. lia.
  - now rewrite IHPermutation1.
Qed.

Lemma min_fold_perm l l' : Permutation l l' -> forall a,
  fold_left (fun min v => if v <? min then v else min) l a =
  fold_left (fun min v => if v <? min then v else min) l' a.
Proof.
  induction 1; intro a; cbn [fold_left]; auto.
  - f_equal. rewrite !if_min. lia.
  - now rewrite IHPermutation1.
Qed.

Lemma SampleMax_perm l l' : Permutation l l' -> SampleMax l = SampleMax l'.
Proof.
  intro P. destruct l as [|a l], l' as [|b l'].
  - reflexivity.
  - now apply Permutation_nil in P.
  - symmetry in P; now apply Permutation_nil in P.
  - unfold SampleMax. now apply max_fold_perm.
Qed.
Lemma SampleMin_perm l l' : Permutation l l' -> SampleMin l = SampleMin l'.
Proof.
  intro P. destruct l as [|a l], l' as [|b l'].
  - reflexivity.
  - now apply Permutation_nil in P.
  - symmetry in P; now apply Permutation_nil in P.
  - unfold SampleMin. now apply min_fold_perm.
Qed.

Lemma SampleMean_perm l l' : Permutation l l' -> SampleMean l = SampleMean l'.
Proof.
  intro P. destruct l as [|a l], l' as [|b l'].
  - reflexivity.
  - now apply Permutation_nil in P.
  - symmetry in P; now apply Permutation_nil in P.
  - unfold SampleMean. now rewrite (SampleSum_perm _ _ P), (slen_perm _ _ P).
Qed.

Lemma SamplePercentiles_perm l l' ps : Permutation l l' ->
  SamplePercentiles l ps = SamplePercentiles l' ps.
Proof.
  intro P. destruct l as [|a l], l' as [|b l'].
  - reflexivity.
  - now apply Permutation_nil in P.
  - symmetry in P; now apply Permutation_nil in P.
  - unfold SamplePercentiles. now rewrite (sortz_unique _ _ P).
Qed.

Lemma SamplePercentiles_after l ps : fst (SamplePercentiles l ps) = sortz l.
Proof. destruct l; reflexivity. Qed.
