From Coq Require Import ZArith List Lia Permutation.
From Verif.Model Require Import GoInt GoBase.
From Verif.Spec Require Import OrderStats.
Import ListNotations.
Open Scope Z_scope.

Lemma wrap64_range z : is_int64 (wrap64 z).
Proof.
  unfold is_int64, wrap64, min_int64, max_int64.
  pose proof (Z.mod_pos_bound (z + 2 ^ 63) (2 ^ 64) eq_refl). lia.
Qed.

Lemma wrap64_id z : is_int64 z -> wrap64 z = z.
Proof.
  unfold is_int64, wrap64, min_int64, max_int64. intro H.
  rewrite Z.mod_small by lia. lia.
Qed.

Lemma wrap64_mod z : exists k, wrap64 z = z + k * 2 ^ 64.
Proof.
  exists (- ((z + 2 ^ 63) / 2 ^ 64)). unfold wrap64.
  pose proof (Z.div_mod (z + 2 ^ 63) (2 ^ 64)). lia.
Qed.

Lemma wrap64_add_mult z k : wrap64 (z + k * 2 ^ 64) = wrap64 z.
Proof.
  unfold wrap64. replace (z + k * 2 ^ 64 + 2 ^ 63) with (z + 2 ^ 63 + k * 2 ^ 64) by lia.
  now rewrite Z.mod_add by lia.
Qed.

(** two integers have the same int64 value iff they are congruent mod 2^64 *)
Lemma wrap64_eq a b : wrap64 a = wrap64 b <-> (a mod 2 ^ 64 = b mod 2 ^ 64).
Proof.
  split; intro H.
  - destruct (wrap64_mod a) as [k Ha], (wrap64_mod b) as [k' Hb].
    assert (E : a = b + (k' - k) * 2 ^ 64) by lia.
    rewrite E. now rewrite Z.mod_add by lia.
  - rewrite (Z.div_mod a (2 ^ 64)) by lia. rewrite (Z.div_mod b (2 ^ 64)) by lia.
    rewrite H.
    rewrite (Z.add_comm (2 ^ 64 * (a / 2 ^ 64))), (Z.add_comm (2 ^ 64 * (b / 2 ^ 64))).
    rewrite (Z.mul_comm (2 ^ 64) (a / 2 ^ 64)), (Z.mul_comm (2 ^ 64) (b / 2 ^ 64)).
    now rewrite !wrap64_add_mult.
Qed.

Lemma wrap64_add_l a b : wrap64 (wrap64 a + b) = wrap64 (a + b).
Proof.
  destruct (wrap64_mod a) as [k ->].
  replace (a + k * 2 ^ 64 + b) with (a + b + k * 2 ^ 64) by lia. apply wrap64_add_mult.
Qed.
Lemma wrap64_add_r a b : wrap64 (a + wrap64 b) = wrap64 (a + b).
Proof. rewrite Z.add_comm, wrap64_add_l. f_equal; lia. Qed.
Lemma wrap64_wrap64 a : wrap64 (wrap64 a) = wrap64 a.
Proof. apply wrap64_id, wrap64_range. Qed.
Lemma wrap64_opp a : wrap64 (- wrap64 a) = wrap64 (- a).
Proof.
  destruct (wrap64_mod a) as [k ->].
  replace (- (a + k * 2 ^ 64)) with (- a + (-k) * 2 ^ 64) by lia. apply wrap64_add_mult.
Qed.
Lemma wrap64_sub_l a b : wrap64 (wrap64 a - b) = wrap64 (a - b).
Proof. apply (wrap64_add_l a (- b)). Qed.
Lemma wrap64_sub_r a b : wrap64 (a - wrap64 b) = wrap64 (a - b).
Proof. destruct (wrap64_mod b) as [k ->].
  replace (a - (b + k * 2 ^ 64)) with (a - b + (-k) * 2 ^ 64) by lia. apply wrap64_add_mult.
Qed.
Lemma wrap64_wrapu64 a : wrap64 (wrapu64 a) = wrap64 a.
Proof. apply wrap64_eq. unfold wrapu64. apply Z.mod_mod. lia. Qed.

Lemma is_int64_dec z : {is_int64 z} + {~ is_int64 z}.
Proof.
  unfold is_int64. destruct (Z_le_dec min_int64 z); destruct (Z_le_dec z max_int64); [left|right|right|right]; lia.
Qed.

Lemma zsum_app l l' : zsum (l ++ l') = zsum l + zsum l'.
Proof. induction l as [|a l IH]; simpl; lia. Qed.

Lemma zsum_perm l l' : Permutation l l' -> zsum l = zsum l'.
Proof. induction 1; simpl in *; lia. Qed.

Lemma slen_cons {A} (a : A) l : slen (a :: l) = slen l + 1.
Proof. unfold slen. cbn [length]. lia. Qed.
Lemma slen_nonneg {A} (l : list A) : 0 <= slen l.
Proof. unfold slen. lia. Qed.
Lemma slen_pos {A} (l : list A) : l <> [] -> 1 <= slen l.
Proof. destruct l; [congruence|]. rewrite slen_cons. pose proof (slen_nonneg l). lia. Qed.
Lemma slen_perm {A} (l l' : list A) : Permutation l l' -> slen l = slen l'.
Proof. intro P. unfold slen. now rewrite (Permutation_length P). Qed.
