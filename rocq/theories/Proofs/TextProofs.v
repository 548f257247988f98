(** Printed numbers read back. *)
From Coq Require Import ZArith List String Ascii Bool Reals Lia Lra.
From Flocq Require Import Core IEEE754.BinarySingleNaN IEEE754.Binary IEEE754.Bits.
From Verif.Model Require Import GoInt GoFloat Fmt.
From Verif.Spec Require Import TextSpec.
Import ListNotations.
Open Scope string_scope.
Open Scope Z_scope.

(** ** strings *)
Lemma app_nil_r' s : s ++ "" = s.
Proof. induction s; cbn; congruence. Qed.
Lemma app_assoc' a b c : (a ++ b) ++ c = a ++ b ++ c.
Proof. induction a; cbn; congruence. Qed.
Lemma length_app a b : String.length (a ++ b) = (String.length a + String.length b)%nat.
Proof. induction a; cbn; auto. Qed.
Lemma free_app c a b : free c (a ++ b) = free c a && free c b.
Proof. induction a; cbn; auto. rewrite IHa, andb_assoc. reflexivity. Qed.
Lemma split_free c a : free c a = true -> split c a = [a].
Proof. induction a as [|x a IH]; cbn; auto. intros H. apply andb_prop in H. destruct H as [H1 H2]. apply negb_true_iff in H1. rewrite H1, IH; auto. Qed.
Lemma split_app c a b : free c a = true -> split c (a ++ String c b) = a :: split c b.
Proof.
  induction a as [|x a IH]; cbn.
  - intros _. rewrite Ascii.eqb_refl. reflexivity.
  - intros H. apply andb_prop in H. destruct H as [H1 H2]. apply negb_true_iff in H1. rewrite H1, IH; auto.
Qed.
Lemma clean_app a b : clean (a ++ b) = clean a && clean b.
Proof. unfold clean. rewrite !free_app. destruct (free space a), (free space b), (free line_feed a); reflexivity. Qed.
Lemma clean_free s : clean s = true -> free space s = true /\ free line_feed s = true.
Proof. unfold clean. apply andb_prop. Qed.

(** ** digits *)
Lemma digit_value_digit d : 0 <= d < 10 -> digit_value (ascii_of_nat (48 + Z.to_nat d)) = Some d.
Proof.
  intros H. assert (E : d = 0 \/ d = 1 \/ d = 2 \/ d = 3 \/ d = 4 \/ d = 5 \/ d = 6 \/ d = 7 \/ d = 8 \/ d = 9) by lia.
  repeat (destruct E as [->|E]; [reflexivity|]). subst. reflexivity.
Qed.
Lemma decimal_digit acc d : 0 <= d < 10 -> decimal acc (digit d) = Some (10 * acc + d).
Proof. intros H. unfold digit. cbn [decimal]. rewrite (digit_value_digit d H). reflexivity. Qed.
Lemma decimal_app s t : forall acc, decimal acc (s ++ t) = match decimal acc s with Some a => decimal a t | None => None end.
Proof. induction s as [|a s IH]; intros acc; cbn [append decimal]; auto. destruct (digit_value a); auto. Qed.
Lemma decimal_digits_fuel f : forall z, 0 <= z < 10 ^ Z.of_nat (S f) -> decimal 0 (digits_fuel f z) = Some z.
Proof.
  induction f as [|f IH]; intros z H; cbn [digits_fuel].
  - change (10 ^ Z.of_nat 1) with 10 in H. rewrite Z.mod_small by lia. rewrite decimal_digit by lia. f_equal; lia.
  - destruct (Z.ltb_spec z 10); [rewrite decimal_digit by lia; reflexivity|].
    rewrite decimal_app, IH.
    + rewrite decimal_digit by (apply Z.mod_pos_bound; lia). pose proof (Z.div_mod z 10). f_equal; lia.
    + rewrite (Nat2Z.inj_succ (S f)), Z.pow_succ_r in H by lia. split; [apply Z.div_pos; lia|]. apply Z.div_lt_upper_bound; lia.
Qed.
Lemma decimal_digits z : 0 <= z -> decimal 0 (digits z) = Some z.
Proof.
  intros H. apply decimal_digits_fuel. split; auto. destruct (Z.eq_dec z 0) as [->|N]; [cbn; lia|].
  pose proof (Z.log2_spec z ltac:(lia)) as [_ L]. rewrite Nat2Z.inj_succ, Z2Nat.id by apply Z.log2_nonneg.
  eapply Z.lt_le_trans; [exact L|]. apply Z.pow_le_mono_l. lia.
Qed.
Lemma digits_nonempty z : digits z <> "".
Proof. unfold digits. destruct (Z.to_nat _) as [|f]; cbn [digits_fuel]; [discriminate|]. destruct (z <? 10); [discriminate|]. destruct (digits_fuel f (z / 10)); discriminate. Qed.
Lemma parse_nat_digits z : 0 <= z -> parse_nat (digits z) = Some z.
Proof. intros H. unfold parse_nat. pose proof (digits_nonempty z). destruct (digits z) eqn:E; [congruence|]. rewrite <- E. apply decimal_digits. auto. Qed.
Lemma decimal_last k : forall z acc, 0 <= z -> decimal acc (last_digits k z) = Some (acc * 10 ^ Z.of_nat k + z mod 10 ^ Z.of_nat k).
Proof.
  induction k as [|k IH]; intros z acc H; cbn [last_digits].
  - cbn [decimal]. f_equal. change (10 ^ Z.of_nat 0) with 1. rewrite Z.mod_1_r. lia.
  - rewrite decimal_app, IH by (apply Z.div_pos; lia). rewrite decimal_digit by (apply Z.mod_pos_bound; lia). f_equal.
    rewrite Nat2Z.inj_succ, Z.pow_succ_r by lia. rewrite Z.rem_mul_r by (try apply Z.pow_nonzero; lia). lia.
Qed.
Lemma length_last k : forall z, String.length (last_digits k z) = k.
Proof. induction k; intros z; cbn [last_digits]; auto. rewrite length_app, IHk. cbn. lia. Qed.
Lemma decimal_free c s : digit_value c = None -> forall acc z, decimal acc s = Some z -> free c s = true.
Proof.
  intros C. induction s as [|a s IH]; cbn; auto. intros acc z H. destruct (digit_value a) eqn:E; [|discriminate].
  rewrite (IH _ _ H). destruct (Ascii.eqb_spec a c); [subst; congruence|reflexivity].
Qed.
Lemma decimal_first a s acc z : decimal acc (String a s) = Some z -> Ascii.eqb a "-"%char = false.
Proof. cbn [decimal]. destruct (digit_value a) eqn:E; [|discriminate]. intros _. destruct (Ascii.eqb_spec a "-"%char); [subst; discriminate|reflexivity]. Qed.

(** ** integers *)
Lemma parse_fmt_d z : parse_int (fmt_d z) = Some z.
Proof.
  unfold parse_int, fmt_d. destruct (Z.ltb_spec z 0).
  - cbn [append signed Ascii.eqb]. change (Ascii.eqb "-"%char "-"%char) with true. cbn [Bool.eqb]. rewrite parse_nat_digits by lia. cbn. f_equal. lia.
  - pose proof (parse_nat_digits z H) as P. pose proof (decimal_digits z H) as D. unfold signed. destruct (digits z) as [|a s]; auto. rewrite (decimal_first _ _ _ _ D). auto.
Qed.
Lemma clean_digits z : 0 <= z -> clean (digits z) = true.
Proof. intros H. unfold clean. rewrite (decimal_free space _ eq_refl _ _ (decimal_digits z H)), (decimal_free line_feed _ eq_refl _ _ (decimal_digits z H)). reflexivity. Qed.
Lemma clean_fmt_d z : clean (fmt_d z) = true.
Proof. unfold fmt_d. destruct (Z.ltb_spec z 0); [rewrite clean_app|]; rewrite clean_digits by lia; reflexivity. Qed.

(** ** fixed decimals *)
Lemma parse_place k n : 0 <= n -> parse_units k (place k n) = Some n.
Proof.
  intros H. unfold parse_units, place. destruct k as [|k]; [apply parse_nat_digits; auto|]. set (K := S k).
  assert (T : 0 < 10 ^ Z.of_nat K) by (apply Z.pow_pos_nonneg; lia).
  assert (Q : 0 <= n / 10 ^ Z.of_nat K) by (apply Z.div_pos; lia). pose proof (Z.mod_pos_bound n _ T) as R.
  change ("." ++ ?b) with (String "."%char b). rewrite split_app by apply (decimal_free "."%char _ eq_refl _ _ (decimal_digits _ Q)).
  pose proof (decimal_last K (n mod 10 ^ Z.of_nat K) 0 (proj1 R)) as L.
  rewrite split_free by apply (decimal_free "."%char _ eq_refl _ _ L). rewrite parse_nat_digits by auto. rewrite L, length_last, Nat.eqb_refl. f_equal.
  rewrite Z.mod_mod by lia. pose proof (Z.div_mod n (10 ^ Z.of_nat K)). lia.
Qed.
Lemma place_first k n : 0 <= n -> signed (parse_units k) (place k n) = parse_units k (place k n).
Proof.
  intros H. assert (F : exists a s, place k n = String a s /\ Ascii.eqb a "-"%char = false).
  { assert (G : forall z t, 0 <= z -> exists a s, digits z ++ t = String a s /\ Ascii.eqb a "-"%char = false).
    { intros z t Hz. pose proof (decimal_digits z Hz) as D. pose proof (digits_nonempty z). destruct (digits z) as [|a s]; [congruence|]. exists a, (s ++ t). split; [reflexivity|]. apply (decimal_first _ _ _ _ D). }
    unfold place. destruct k; [destruct (G n "" H) as (a & s & E & ?); rewrite app_nil_r' in E; eauto|]. apply G. apply Z.div_pos; auto. apply Z.pow_pos_nonneg; lia. }
  destruct F as (a & s & -> & E). unfold signed. rewrite E. reflexivity.
Qed.
Lemma clean_place k n : 0 <= n -> clean (place k n) = true.
Proof.
  intros H. unfold place. destruct k; [apply clean_digits; auto|]. set (K := S k). assert (T : 0 < 10 ^ Z.of_nat K) by (apply Z.pow_pos_nonneg; lia).
  rewrite !clean_app, clean_digits by (apply Z.div_pos; lia). pose proof (Z.mod_pos_bound n _ T) as R. pose proof (decimal_last K (n mod 10 ^ Z.of_nat K) 0 (proj1 R)) as L.
  unfold clean at 2. rewrite (decimal_free space _ eq_refl _ _ L), (decimal_free line_feed _ eq_refl _ _ L). reflexivity.
Qed.
Lemma parse_sign k s n : 0 <= n -> parse_fixed k (sign s ++ place k n) = Some (if s then - n else n).
Proof.
  intros H. unfold parse_fixed. destruct s.
  - cbn [sign append signed]. change (Ascii.eqb "-"%char "-"%char) with true. cbv iota. rewrite parse_place by auto. reflexivity.
  - cbn [sign append]. rewrite place_first, parse_place by auto. reflexivity.
Qed.

Lemma round_even_spec n d : 0 <= n -> 0 < d -> 0 <= round_even n d /\ (Rabs (IZR (round_even n d) - IZR n / IZR d) <= / 2)%R /\
  (Rabs (IZR (round_even n d) - IZR n / IZR d) = / 2 -> Z.even (round_even n d) = true)%R.
Proof.
  intros N D. pose proof (Z.mod_pos_bound n d D) as B. assert (Q : 0 <= n / d) by (apply Z.div_pos; lia).
  assert (Dp : (0 < IZR d)%R) by (apply IZR_lt; auto).
  assert (E : (IZR n / IZR d = IZR (n / d) + IZR (n mod d) / IZR d)%R).
  { rewrite (Z.div_mod n d) at 1 by lia. rewrite plus_IZR, mult_IZR. field. lra. }
  assert (F0 : (0 <= IZR (n mod d) / IZR d)%R) by (apply Rmult_le_pos; [apply IZR_le; lia|left; apply Rinv_0_lt_compat; auto]).
  assert (Lt : forall a, a < d -> (IZR a / IZR d < 1)%R) by (intros a Ha; apply (Rmult_lt_reg_r (IZR d)); auto; unfold Rdiv; rewrite Rmult_assoc, Rinv_l, Rmult_1_r, Rmult_1_l by lra; apply IZR_lt; auto).
  assert (Tw : (2 * (IZR (n mod d) / IZR d) = IZR (2 * (n mod d)) / IZR d)%R) by (rewrite mult_IZR; field; lra).
  assert (One : (IZR d / IZR d = 1)%R) by (field; lra).
  unfold round_even. rewrite E. destruct (Z.ltb_spec (2 * (n mod d)) d) as [L|L].
  - specialize (Lt _ L). rewrite <- Tw in Lt. repeat split; auto.
    + rewrite Rabs_left1; lra.
    + rewrite Rabs_left1 by lra. intros X. exfalso. lra.
  - specialize (Lt _ (proj2 B)). destruct (Z.ltb_spec d (2 * (n mod d))) as [L2|L2].
    + assert (G : (1 < IZR (2 * (n mod d)) / IZR d)%R).
      { rewrite <- One. unfold Rdiv. apply Rmult_lt_compat_r; [apply Rinv_0_lt_compat; auto|]. apply IZR_lt. auto. }
      rewrite <- Tw in G. rewrite plus_IZR. split; [lia|]. rewrite Rabs_pos_eq by lra. split; [lra|]. intros X. exfalso. lra.
    + assert (Hf : 2 * (n mod d) = d) by lia. assert (G : (IZR (n mod d) / IZR d = / 2)%R).
      { rewrite Hf, One in Tw. lra. }
      rewrite G. destruct (Z.even (n / d)) eqn:Ev; repeat split; auto; try lia.
      * rewrite Rabs_left1; lra.
      * rewrite plus_IZR, Rabs_pos_eq; lra.
      * intros _. rewrite Z.add_1_r, Z.even_succ, <- Z.negb_even, Ev. reflexivity.
Qed.
Lemma scaled_spec m e k : 0 <= m -> 0 <= scaled m e k /\ (Rabs (IZR (scaled m e k) - IZR m * bpow radix2 e * 10 ^ k) <= / 2)%R /\
  (Rabs (IZR (scaled m e k) - IZR m * bpow radix2 e * 10 ^ k) = / 2 -> Z.even (scaled m e k) = true)%R.
Proof.
  intros M. assert (T : (IZR (10 ^ Z.of_nat k) = 10 ^ k)%R) by (rewrite pow_IZR, Znat.Z2Nat.id || rewrite <- pow_IZR; reflexivity).
  assert (Tp : 0 < 10 ^ Z.of_nat k) by (apply Z.pow_pos_nonneg; lia). unfold scaled. destruct (Z.leb_spec 0 e).
  - assert (E : (IZR (m * 2 ^ e * 10 ^ Z.of_nat k) = IZR m * bpow radix2 e * 10 ^ k)%R).
    { rewrite !mult_IZR, T. f_equal. f_equal. rewrite <- (IZR_Zpower radix2) by auto. reflexivity. }
    rewrite E, Rminus_diag_eq, Rabs_R0 by reflexivity. repeat split; try lra. apply Z.mul_nonneg_nonneg; [|lia]. apply Z.mul_nonneg_nonneg; auto. apply Z.pow_nonneg. lia.
  - assert (Dp : 0 < 2 ^ (- e)) by (apply Z.pow_pos_nonneg; lia).
    assert (E : (IZR (m * 10 ^ Z.of_nat k) / IZR (2 ^ (- e)) = IZR m * bpow radix2 e * 10 ^ k)%R).
    { rewrite mult_IZR, T. replace (IZR (2 ^ - e)) with (bpow radix2 (- e)) by (rewrite <- (IZR_Zpower radix2) by lia; reflexivity).
      rewrite bpow_opp. pose proof (bpow_gt_0 radix2 e). field. lra. }
    rewrite <- E. apply round_even_spec; auto. apply Z.mul_nonneg_nonneg; lia.
Qed.
Lemma shows_fmt_f k x : shows_float k x (fmt_f k x).
Proof.
  unfold shows_float. destruct x as [s|s|s pl P|s m e P]; cbn [fmt_f].
  - change (fis_finite _) with true. cbv iota. exists 0. rewrite parse_sign by lia. split; [destruct s; reflexivity|]. change (f2r _) with 0%R. rewrite Rmult_0_l, Rminus_0_r, Rabs_R0. split; [lra|intros; reflexivity].
  - change (fis_finite _) with false. change (fis_nan _) with false. cbv iota. destruct s; reflexivity.
  - reflexivity.
  - change (fis_finite _) with true. cbv iota. destruct (scaled_spec (Zpos m) e k ltac:(lia)) as (A & B & C). rewrite parse_sign by auto.
    exists (if s then - scaled (Zpos m) e k else scaled (Zpos m) e k). split; [reflexivity|].
    change (f2r _) with (F2R (Float radix2 (cond_Zopp s (Zpos m)) e)). unfold F2R. cbn [Fnum Fexp]. destruct s; cbn [cond_Zopp].
    + rewrite !opp_IZR. replace (- IZR (scaled (Z.pos m) e k) - - IZR (Z.pos m) * bpow radix2 e * 10 ^ k)%R with (- (IZR (scaled (Z.pos m) e k) - IZR (Z.pos m) * bpow radix2 e * 10 ^ k))%R by ring.
      rewrite Rabs_Ropp, Z.even_opp. auto.
    + auto.
Qed.
Lemma clean_fmt_f k x : clean (fmt_f k x) = true.
Proof.
  destruct x as [s|s|s pl P|s m e P]; cbn [fmt_f]; try (destruct s; reflexivity).
  - rewrite clean_app, clean_place by lia. destruct s; reflexivity.
  - rewrite clean_app, clean_place by apply scaled_spec, Pos2Z.is_nonneg. destruct s; reflexivity.
Qed.

(** ** lines *)
Lemma split_nonempty c s : split c s <> [].
Proof. destruct s as [|x s]; cbn [split]; [discriminate|]. destruct (Ascii.eqb x c); [discriminate|]. destruct (split c s); discriminate. Qed.
Lemma lines_cons a s : free line_feed a = true -> lines_of (a ++ newline ++ s) = option_map (cons a) (lines_of s).
Proof.
  intros H. unfold lines_of, newline. change (String (ascii_of_nat 10) "" ++ s) with (String line_feed s). rewrite split_app by auto.
  cbn [rev]. destruct (rev (split line_feed s)) as [|[|c p] r] eqn:E; cbn [app option_map].
  - exfalso. apply (split_nonempty line_feed s). rewrite <- (rev_involutive (split line_feed s)), E. reflexivity.
  - rewrite rev_app_distr. reflexivity.
  - reflexivity.
Qed.
