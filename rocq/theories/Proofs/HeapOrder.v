(** Sift-up and sift-down on functions from indices to reals. *)
From Coq Require Import Arith ZArith Reals Lra Lia ZifyNat.
Open Scope nat_scope.
Ltac Zify.zify_post_hook ::= Z.div_mod_to_equations.

Definition parent (c : nat) : nat := (c - 1) / 2.

(** min-heap order on indices below n *)
Definition hord (f : nat -> R) (n : nat) : Prop := forall c, 0 < c < n -> (f (parent c) <= f c)%R.

Definition swapf (f : nat -> R) (i j : nat) : nat -> R :=
  fun x => if x =? i then f j else if x =? j then f i else f x.

Lemma swapf_l f i j : swapf f i j i = f j.
Proof. unfold swapf. now rewrite Nat.eqb_refl. Qed.
Lemma swapf_r f i j : swapf f i j j = f i.
Proof. unfold swapf. rewrite Nat.eqb_refl. destruct (Nat.eqb_spec j i); [now subst|reflexivity]. Qed.
Lemma swapf_o f i j x : x <> i -> x <> j -> swapf f i j x = f x.
Proof. intros. unfold swapf. destruct (Nat.eqb_spec x i), (Nat.eqb_spec x j); congruence. Qed.

Definition up_inv (f : nat -> R) (j n : nat) : Prop :=
  (forall c, 0 < c < n -> c <> j -> (f (parent c) <= f c)%R) /\
  (0 < j -> forall c, 0 < c < n -> parent c = j -> (f (parent j) <= f c)%R).

Lemma up_inv_stop0 f n : up_inv f 0 n -> hord f n.
Proof. intros [H _] c Hc. apply H; lia. Qed.

Lemma up_inv_stop f j n : up_inv f j n -> (f (parent j) <= f j)%R -> hord f n.
Proof. intros [H _] Hj c Hc. destruct (Nat.eq_dec c j) as [->|N]; auto. Qed.

Lemma up_inv_step f j n : 0 < j < n -> up_inv f j n -> (f j < f (parent j))%R ->
  up_inv (swapf f (parent j) j) (parent j) n.
Proof.
  intros Hj [H1 H2] Hlt. set (i := parent j) in *. assert (Hij : i < j) by (unfold i, parent; lia).
  split.
  - intros c Hc Hci. destruct (Nat.eq_dec c j) as [->|Ncj].
    + fold i. rewrite swapf_l, swapf_r. lra.
    + rewrite (swapf_o f i j c) by assumption.
      destruct (Nat.eq_dec (parent c) i) as [Ep|Np].
      * rewrite Ep, swapf_l. pose proof (H1 c Hc Ncj) as Q. rewrite Ep in Q. lra.
      * destruct (Nat.eq_dec (parent c) j) as [Ep|Np'].
        -- rewrite Ep, swapf_r. apply H2; [lia|exact Hc|exact Ep].
        -- rewrite swapf_o by assumption. now apply H1.
  - intros Hi c Hc Ep.
    assert (Hg : parent i < i) by (unfold parent; lia).
    rewrite (swapf_o f i j (parent i)) by lia.
    pose proof (H1 i ltac:(lia) ltac:(lia)) as Hgi.
    destruct (Nat.eq_dec c j) as [->|Ncj].
    + rewrite swapf_r. exact Hgi.
    + assert (c <> i) by (intro; subst c; unfold parent in Ep; lia).
      rewrite swapf_o by assumption. pose proof (H1 c Hc Ncj) as Q. rewrite Ep in Q. lra.
Qed.

Definition down_inv (f : nat -> R) (i n : nat) : Prop :=
  (forall c, 0 < c < n -> parent c <> i -> (f (parent c) <= f c)%R) /\
  (0 < i -> forall c, 0 < c < n -> parent c = i -> (f (parent i) <= f c)%R).

Lemma down_inv_stop_leaf f i n : n <= 2 * i + 1 -> down_inv f i n -> hord f n.
Proof. intros Hn [H _] c Hc. apply H; [exact Hc|]. unfold parent. lia. Qed.

(** [j] is a child of [i] whose value is minimal among the children *)
Definition min_child (f : nat -> R) (i j n : nat) : Prop :=
  j < n /\ 0 < j /\ parent j = i /\ forall c, 0 < c < n -> parent c = i -> (f j <= f c)%R.

Lemma down_inv_stop f i j n : min_child f i j n -> down_inv f i n -> (f i <= f j)%R -> hord f n.
Proof.
  intros (Hj & _ & Ep & Hm) [H _] Hle c Hc. destruct (Nat.eq_dec (parent c) i) as [E|N]; [|auto].
  rewrite E. specialize (Hm c Hc E). lra.
Qed.

Lemma down_inv_step f i j n : min_child f i j n -> down_inv f i n -> (f j < f i)%R ->
  down_inv (swapf f i j) j n.
Proof.
  intros (Hj & Hj0 & Ep & Hm) [H1 H2] Hlt. assert (Hij : i < j) by (unfold parent in Ep; lia).
  split.
  - intros c Hc Npj. destruct (Nat.eq_dec c i) as [->|Nci].
    + rewrite swapf_l. rewrite swapf_o by (unfold parent; lia). apply H2; [lia| |]; trivial. lia.
    + destruct (Nat.eq_dec c j) as [->|Ncj].
      * rewrite Ep, swapf_l, swapf_r. lra.
      * rewrite (swapf_o f i j c) by assumption.
        destruct (Nat.eq_dec (parent c) i) as [E|N].
        -- rewrite E, swapf_l. now apply Hm.
        -- rewrite swapf_o by assumption. now apply H1.
  - intros _ c Hc Epc. rewrite Ep, swapf_l.
    rewrite swapf_o by (unfold parent in *; lia).
    pose proof (H1 c Hc) as Q. rewrite Epc in Q. apply Q. lia.
Qed.

(** the root is minimal *)
Lemma hord_root f n : hord f n -> forall c, c < n -> (f 0%nat <= f c)%R.
Proof.
  intros H c. induction c as [c IH] using lt_wf_ind; intro Hc.
  destruct (Nat.eq_dec c 0) as [->|N]; [lra|].
  assert (parent c < c) by (unfold parent; lia).
  specialize (IH (parent c) ltac:(assumption) ltac:(lia)). specialize (H c ltac:(lia)). lra.
Qed.

Lemma hord_ext f g n : (forall i, i < n -> f i = g i) -> hord f n -> hord g n.
Proof. intros E H c Hc. rewrite <- !E by (unfold parent; lia). now apply H. Qed.
Lemma up_inv_ext f g j n : j < n -> (forall i, i < n -> f i = g i) -> up_inv f j n -> up_inv g j n.
Proof.
  intros Hj E [H1 H2]. split.
  - intros c Hc Hn. rewrite <- !E by (unfold parent; lia). auto.
  - intros Hj0 c Hc Ep. rewrite <- !E by (unfold parent; lia). auto.
Qed.
Lemma down_inv_ext f g i n : (i < n) -> (forall i, i < n -> f i = g i) -> down_inv f i n -> down_inv g i n.
Proof.
  intros Hi E [H1 H2]. split.
  - intros c Hc Hn. rewrite <- !E by (unfold parent; lia). auto.
  - intros Hj0 c Hc Ep. rewrite <- !E by (unfold parent; lia). auto.
Qed.
