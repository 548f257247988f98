From Coq Require Import ZArith List Lia Permutation.
From Verif.Model Require Import GoInt GoBase.
From Verif.Spec Require Import Reservoir.
From Verif.Proofs Require Import IntFacts SortFacts.
Import ListNotations.

Lemma length_lset {A} (l : list A) i a : length (lset l i a) = length l.
Proof. revert i; induction l as [|b l IH]; intros [|i]; simpl; auto. Qed.

Lemma nth_error_lset {A} (l : list A) i j a :
  nth_error (lset l i a) j = if Nat.eqb i j then (if Nat.ltb j (length l) then Some a else None) else nth_error l j.
Proof.
  revert i j. induction l as [|b l IH]; intros [|i] [|j]; cbn [lset nth_error length Nat.eqb]; try reflexivity.
  - now destruct (Nat.eqb i j).
  - rewrite IH. change (Nat.ltb (S j) (S (length l))) with (Nat.ltb j (length l)). reflexivity.
Qed.

Lemma nth_error_lset_eq {A} (l : list A) i a : (i < length l)%nat -> nth_error (lset l i a) i = Some a.
Proof. intro H. rewrite nth_error_lset, Nat.eqb_refl. destruct (Nat.ltb_spec i (length l)); [reflexivity|lia]. Qed.
Lemma nth_error_lset_ne {A} (l : list A) i j a : i <> j -> nth_error (lset l i a) j = nth_error l j.
Proof. intro H. rewrite nth_error_lset. destruct (Nat.eqb_spec i j); [congruence|reflexivity]. Qed.

Lemma lset_split {A} (l : list A) i a x : nth_error l i = Some x ->
  exists l1 l2, l = l1 ++ x :: l2 /\ lset l i a = l1 ++ a :: l2 /\ length l1 = i.
Proof.
  revert i. induction l as [|b l IH]; intros [|i]; cbn [nth_error lset]; try discriminate.
  - intro E; injection E as ->. exists [], l. auto.
  - intro E. destruct (IH _ E) as (l1 & l2 & -> & -> & <-). exists (b :: l1), l2. auto.
Qed.

Lemma lset_perm {A} (l : list A) i a x : nth_error l i = Some x ->
  exists rest, Permutation l (x :: rest) /\ Permutation (lset l i a) (a :: rest).
Proof.
  intro E. destruct (lset_split l i a x E) as (l1 & l2 & -> & -> & _).
  exists (l1 ++ l2). split; symmetry; apply Permutation_middle.
Qed.

Lemma nth_error_in_range {A} (l : list A) i : (i < length l)%nat -> exists a, nth_error l i = Some a.
Proof. intro H. destruct (nth_error l i) as [a|] eqn:E; [eauto|]. apply nth_error_None in E. lia. Qed.

Lemma sset_ok {A} (l : list A) i a : (0 <= i < slen l)%Z -> sset l i a = Ok (lset l (Z.to_nat i) a).
Proof.
  intros [H0 H1]. unfold sset. destruct (Z.ltb_spec i 0); [lia|]. destruct (Z.ltb_spec i (slen l)); [reflexivity|lia].
Qed.

Lemma submultiset_refl {A} (l : list A) : submultiset l l.
Proof. exists []. now rewrite app_nil_r. Qed.
Lemma submultiset_nil {A} (l : list A) : submultiset [] l.
Proof. exists l. reflexivity. Qed.
Lemma submultiset_perm_l {A} (l l' m : list A) : Permutation l l' -> submultiset l m -> submultiset l' m.
Proof. intros P [r H]. exists r. now rewrite <- P. Qed.
Lemma submultiset_perm_r {A} (l m m' : list A) : Permutation m m' -> submultiset l m -> submultiset l m'.
Proof. intros P [r H]. exists r. now rewrite <- P. Qed.
Lemma submultiset_trans {A} (l m n : list A) : submultiset l m -> submultiset m n -> submultiset l n.
Proof. intros [r H] [r' H']. exists (r ++ r'). now rewrite app_assoc, H. Qed.
Lemma submultiset_length {A} (l m : list A) : submultiset l m -> (length l <= length m)%nat.
Proof. intros [r H]. apply Permutation_length in H. rewrite app_length in H. lia. Qed.
Lemma submultiset_snoc {A} (l m : list A) a : submultiset l m -> submultiset l (m ++ [a]).
Proof. intros [r H]. exists (r ++ [a]). now rewrite app_assoc, H. Qed.
Lemma submultiset_snoc2 {A} (l m : list A) a : submultiset l m -> submultiset (l ++ [a]) (m ++ [a]).
Proof.
  intros [r H]. exists r. rewrite <- app_assoc. simpl. rewrite <- Permutation_middle.
  rewrite <- (Permutation_cons_append m a). now constructor.
Qed.
Lemma submultiset_cons2 {A} (l m : list A) a : submultiset l m -> submultiset (a :: l) (m ++ [a]).
Proof.
  intros [r H]. exists r. simpl. rewrite <- (Permutation_cons_append m a). now constructor.
Qed.
Lemma submultiset_tail {A} (l m : list A) a : submultiset (a :: l) m -> submultiset l m.
Proof. intros [r H]. exists (a :: r). rewrite <- Permutation_middle. exact H. Qed.
Lemma submultiset_in {A} (l m : list A) a : submultiset l m -> In a l -> In a m.
Proof. intros [r H] Hi. eapply Permutation_in; [exact H|]. apply in_or_app. now left. Qed.
Lemma submultiset_full {A} (l m : list A) : submultiset l m -> length l = length m -> Permutation l m.
Proof.
  intros [r H] E. pose proof (Permutation_length H) as L. rewrite app_length in L.
  assert (r = []) as -> by (destruct r; [reflexivity|simpl in L; lia]). now rewrite app_nil_r in H.
Qed.
