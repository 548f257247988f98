From Coq Require Import ZArith List Lia Permutation Sorted.
From Verif.Model Require Import GoInt GoBase.
From Verif.Spec Require Import OrderStats.
Import ListNotations.
Open Scope Z_scope.

Lemma insertz_perm x l : Permutation (x :: l) (insertz x l).
Proof.
  induction l as [|y t IH]; simpl; [constructor; constructor|].
  destruct (x <=? y); [reflexivity|].
  rewrite perm_swap. now constructor.
Qed.

Lemma sortz_perm l : Permutation l (sortz l).
Proof.
  induction l as [|x t IH]; simpl; [constructor|].
  rewrite <- insertz_perm. now constructor.
Qed.

Lemma insertz_sorted x l : StronglySorted Z.le l -> StronglySorted Z.le (insertz x l).
Proof.
  induction 1 as [|y t Ht IH Hy]; simpl; [repeat constructor|].
  destruct (Z.leb_spec x y) as [Hle|Hgt].
  - constructor; [constructor; assumption|]. constructor; [assumption|].
    eapply Forall_impl; [|exact Hy]. simpl; lia.
  - constructor; [assumption|].
    apply (Permutation_Forall (insertz_perm x t)). constructor; [lia|assumption].
Qed.

Lemma sortz_sorted l : StronglySorted Z.le (sortz l).
Proof. induction l as [|x t IH]; simpl; [constructor|]. now apply insertz_sorted. Qed.

(** The sorted permutation of a list of integers is unique: any correct sorting
    algorithm computes [sortz]. *)
Lemma sorted_perm_unique l1 l2 :
  StronglySorted Z.le l1 -> StronglySorted Z.le l2 -> Permutation l1 l2 -> l1 = l2.
Proof.
  revert l2. induction l1 as [|a l1 IH]; intros l2 S1 S2 P.
  - apply Permutation_nil in P. now subst.
  - destruct l2 as [|b l2]; [symmetry in P; apply Permutation_nil in P; discriminate|].
    apply StronglySorted_inv in S1. destruct S1 as [S1 F1].
    apply StronglySorted_inv in S2. destruct S2 as [S2 F2].
    assert (a = b).
    { assert (Ia : In a (b :: l2)) by (eapply Permutation_in; [exact P|now left]).
      assert (Ib : In b (a :: l1)) by (eapply Permutation_in; [symmetry; exact P|now left]).
      rewrite Forall_forall in F1, F2.
      destruct Ia as [->|Ia]; [reflexivity|].
      destruct Ib as [->|Ib]; [reflexivity|].
      specialize (F1 _ Ib). specialize (F2 _ Ia). lia. }
    subst b. f_equal. apply IH; trivial. now apply Permutation_cons_inv in P.
Qed.

Lemma sortz_unique l l' : Permutation l l' -> sortz l = sortz l'.
Proof.
  intro P. apply sorted_perm_unique; try apply sortz_sorted.
  rewrite <- (sortz_perm l), <- (sortz_perm l'). exact P.
Qed.

Lemma sortz_correct_any (sort : list Z -> list Z) l :
  Permutation l (sort l) -> StronglySorted Z.le (sort l) -> sort l = sortz l.
Proof.
  intros P S. apply sorted_perm_unique; trivial; [apply sortz_sorted|].
  rewrite <- P. apply sortz_perm.
Qed.

Lemma sortz_sorted_id l : StronglySorted Z.le l -> sortz l = l.
Proof.
  intro S. symmetry. apply sorted_perm_unique; trivial; [apply sortz_sorted|apply sortz_perm].
Qed.

Lemma sortz_idem l : sortz (sortz l) = sortz l.
Proof. apply sortz_sorted_id, sortz_sorted. Qed.

Lemma length_sortz l : length (sortz l) = length l.
Proof. symmetry. apply Permutation_length, sortz_perm. Qed.

Lemma slen_sortz l : slen (sortz l) = slen l.
Proof. unfold slen. now rewrite length_sortz. Qed.

Lemma filter_perm {A} (f : A -> bool) l l' : Permutation l l' -> Permutation (filter f l) (filter f l').
Proof.
  induction 1 as [|x l l' P IH|x y l|l l' l'' P1 IH1 P2 IH2]; simpl.
  - constructor.
  - destruct (f x); [now constructor|assumption].
  - destruct (f x), (f y); try reflexivity. constructor.
  - now rewrite IH1.
Qed.

Lemma count_lt_perm l l' x : Permutation l l' -> count_lt l x = count_lt l' x.
Proof. intro P. apply Permutation_length, filter_perm, P. Qed.
Lemma count_le_perm l l' x : Permutation l l' -> count_le l x = count_le l' x.
Proof. intro P. apply Permutation_length, filter_perm, P. Qed.

Lemma filter_true {A} (f : A -> bool) l : (forall x, In x l -> f x = true) -> filter f l = l.
Proof.
  induction l as [|a l IH]; intro H; simpl; [reflexivity|].
  rewrite H by now left. f_equal. apply IH. intros; apply H; now right.
Qed.
Lemma filter_false {A} (f : A -> bool) l : (forall x, In x l -> f x = false) -> filter f l = [].
Proof.
  induction l as [|a l IH]; intro H; simpl; [reflexivity|].
  rewrite H by now left. apply IH. intros; apply H; now right.
Qed.

Lemma sorted_nth_count l i x : StronglySorted Z.le l -> nth_error l i = Some x ->
  (count_lt l x < S i <= count_le l x)%nat.
Proof.
  intros S. revert i x. induction S as [|a l Sl IH Ha]; intros i x Hn; [destruct i; discriminate|].
  unfold count_lt, count_le in *. simpl.
  rewrite Forall_forall in Ha.
  destruct i as [|i]; simpl in Hn.
  - injection Hn as ->. rewrite Z.ltb_irrefl, Z.leb_refl. simpl.
    rewrite filter_false; [simpl; lia|].
    intros y Hy. specialize (Ha y Hy). lia.
  - specialize (IH _ _ Hn). assert (a <= x) by (apply Ha; eapply nth_error_In; eassumption).
    destruct (Z.ltb_spec a x), (Z.leb_spec a x); simpl; lia.
Qed.

Lemma sortz_order_stat l i x : nth_error (sortz l) i = Some x -> order_stat l (S i) x.
Proof.
  intro H. split.
  - apply nth_error_In in H. eapply Permutation_in; [symmetry; apply sortz_perm|exact H].
  - rewrite (count_lt_perm _ _ x (sortz_perm l)), (count_le_perm _ _ x (sortz_perm l)).
    apply sorted_nth_count; [apply sortz_sorted|exact H].
Qed.

(** order statistics are unique *)
Lemma order_stat_unique l k x y : order_stat l k x -> order_stat l k y -> x = y.
Proof.
  assert (W : forall a b, order_stat l k a -> order_stat l k b -> a < b -> False).
  { intros a b [_ [_ Ha]] [_ [Hb _]] Hab.
    assert (count_le l a <= count_lt l b)%nat; [|lia].
    clear - Hab. unfold count_le, count_lt. induction l as [|c l IH]; simpl; [lia|].
    destruct (Z.leb_spec c a), (Z.ltb_spec c b); simpl; lia. }
  intros Hx Hy. destruct (Z.lt_trichotomy x y) as [H|[H|H]]; trivial; exfalso; eauto.
Qed.

Lemma sget_nth {A} (l : list A) i a : sget l i = Ok a <-> (0 <= i /\ nth_error l (Z.to_nat i) = Some a).
Proof.
  unfold sget. destruct (Z.ltb_spec i 0) as [H|H]; cbn [orb].
  - split; [discriminate|lia].
  - destruct (Z.leb_spec (slen l) i) as [H2|H2].
    + split; [discriminate|]. intros [_ E]. exfalso.
      assert (Hlt : (Z.to_nat i < length l)%nat) by (apply nth_error_Some; congruence).
      unfold slen in H2. lia.
    + destruct (nth_error l (Z.to_nat i)) as [b|]; split.
      * intro E; injection E as ->; split; [lia|reflexivity].
      * intros [_ E]; injection E as ->; reflexivity.
      * discriminate.
      * intros [_ E]; discriminate.
Qed.

Lemma sget_out {A} (l : list A) i : slen l <= i -> sget l i = Panic msg_index.
Proof. intro H. unfold sget. destruct (Z.leb_spec (slen l) i); [|lia]. now rewrite Bool.orb_true_r. Qed.

Lemma sget_in_range {A} (l : list A) i : 0 <= i < slen l -> exists a, sget l i = Ok a.
Proof.
  intros [H0 H1]. unfold slen in H1.
  destruct (nth_error l (Z.to_nat i)) as [a|] eqn:E.
  - exists a. apply sget_nth. auto.
  - apply nth_error_None in E. lia.
Qed.

Lemma sorted_nth_le l i j x y : StronglySorted Z.le l -> (i <= j)%nat ->
  nth_error l i = Some x -> nth_error l j = Some y -> x <= y.
Proof.
  intros S. revert i j x y. induction S as [|a l Sl IH Ha]; intros i j x y Hij Hi Hj; [destruct i; discriminate|].
  rewrite Forall_forall in Ha. destruct i as [|i], j as [|j]; simpl in *.
  - assert (x = y) by congruence. lia.
  - injection Hi as <-. apply Ha. eapply nth_error_In; eassumption.
  - lia.
  - eapply (IH i j); try eassumption. lia.
Qed.
