(** Facts about [Model.GoFloat]: every operation rounds the exact real result
    once, as long as no overflow occurs. *)
From Coq Require Import ZArith Reals Lia Lra Psatz.
From Flocq Require Import Core Relative IEEE754.BinarySingleNaN IEEE754.Binary IEEE754.Bits.
From Verif.Model Require Import GoInt GoFloat.
Open Scope R_scope.

Notation fexp64 := (FLT_exp (-1074) 53).

Definition rnd (x : R) : R := round radix2 fexp64 ZnearestE x.
Definition fmt64 (x : R) : Prop := generic_format radix2 fexp64 x.

#[global] Instance prec53 : Prec_gt_0 53 := eq_refl.
#[global] Instance fexp64_valid : Valid_exp fexp64 := FLT_exp_valid (-1074) 53.
#[global] Instance fexp64_mono : Monotone_exp fexp64 := FLT_exp_monotone (-1074) 53.

Lemma rnd_le x y : x <= y -> rnd x <= rnd y.
Proof. apply round_le; typeclasses eauto. Qed.

Lemma rnd_fmt x : fmt64 (rnd x).
Proof. apply generic_format_round; typeclasses eauto. Qed.

Lemma rnd_id x : fmt64 x -> rnd x = x.
Proof. apply round_generic; typeclasses eauto. Qed.

Lemma rnd_0 : rnd 0 = 0.
Proof. apply round_0; typeclasses eauto. Qed.

Lemma fmt_0 : fmt64 0.
Proof. apply generic_format_0. Qed.

Lemma fmt_opp x : fmt64 x -> fmt64 (- x).
Proof. apply generic_format_opp. Qed.

Lemma rnd_opp x : rnd (- x) = - rnd x.
Proof. unfold rnd. rewrite round_NE_opp. reflexivity. Qed.

Lemma rnd_le_fmt x y : fmt64 y -> x <= y -> rnd x <= y.
Proof. intros Fy H. rewrite <- (rnd_id y Fy). now apply rnd_le. Qed.

Lemma rnd_ge_fmt x y : fmt64 y -> y <= x -> y <= rnd x.
Proof. intros Fy H. rewrite <- (rnd_id y Fy). now apply rnd_le. Qed.

Lemma fmt_f2r x : fmt64 (f2r x).
Proof. apply (Binary.generic_format_B2R 53 1024). Qed.

Lemma fmt_bpow e : (-1074 <= e)%Z -> fmt64 (bpow radix2 e).
Proof.
  intro H. apply generic_format_bpow. unfold FLT_exp. lia.
Qed.

(** integers up to 2^53 in magnitude are representable *)
Lemma fmt_IZR z : (Z.abs z <= 2 ^ 53)%Z -> fmt64 (IZR z).
Proof.
  intro H. destruct (Z.eq_dec (Z.abs z) (2 ^ 53)) as [E|N].
  - assert (Hb : fmt64 (IZR (2 ^ 53))).
    { change (IZR (2 ^ 53)) with (bpow radix2 53). apply fmt_bpow. lia. }
    destruct (Zabs_spec z) as [[_ Hz]|[_ Hz]].
    + replace z with (2 ^ 53)%Z by lia. exact Hb.
    + replace z with (- 2 ^ 53)%Z by lia. rewrite opp_IZR. now apply fmt_opp.
  - apply generic_format_FLT. exists (Float radix2 z 0).
    + unfold F2R; simpl. now rewrite Rmult_1_r.
    + simpl. change (Zpower radix2 53) with (2 ^ 53)%Z. simpl in *. lia.
    + simpl. lia.
Qed.

Lemma Rabs_rnd_le x e : (-1074 <= e)%Z -> Rabs x <= bpow radix2 e -> Rabs (rnd x) <= bpow radix2 e.
Proof.
  intros He H. apply abs_round_le_generic; try typeclasses eauto; [|exact H].
  now apply fmt_bpow.
Qed.

Lemma bpow_lt_1024 e : (e < 1024)%Z -> bpow radix2 e < bpow radix2 1024.
Proof. apply bpow_lt. Qed.

Section Ops.
Variables x y : f64.
Hypothesis Fx : fis_finite x = true.
Hypothesis Fy : fis_finite y = true.

Lemma fadd_correct e : (-1074 <= e < 1024)%Z -> Rabs (f2r x + f2r y) <= bpow radix2 e ->
  f2r (fadd x y) = rnd (f2r x + f2r y) /\ fis_finite (fadd x y) = true.
Proof.
  intros He H. unfold fadd, b64_plus.
  pose proof (Binary.Bplus_correct 53 1024 eq_refl eq_refl binop_nan_pl64 mode_NE x y Fx Fy) as C.
  rewrite Rlt_bool_true in C.
  - destruct C as (C1 & C2 & _). split; [exact C1 | exact C2].
  - apply Rle_lt_trans with (bpow radix2 e).
    + apply (Rabs_rnd_le _ e); [lia | exact H].
    + apply bpow_lt. lia.
Qed.

Lemma fsub_correct e : (-1074 <= e < 1024)%Z -> Rabs (f2r x - f2r y) <= bpow radix2 e ->
  f2r (fsub x y) = rnd (f2r x - f2r y) /\ fis_finite (fsub x y) = true.
Proof.
  intros He H. unfold fsub, b64_minus.
  pose proof (Binary.Bminus_correct 53 1024 eq_refl eq_refl binop_nan_pl64 mode_NE x y Fx Fy) as C.
  rewrite Rlt_bool_true in C.
  - destruct C as (C1 & C2 & _). split; [exact C1 | exact C2].
  - apply Rle_lt_trans with (bpow radix2 e).
    + apply (Rabs_rnd_le _ e); [lia | exact H].
    + apply bpow_lt. lia.
Qed.

Lemma fmul_correct e : (-1074 <= e < 1024)%Z -> Rabs (f2r x * f2r y) <= bpow radix2 e ->
  f2r (fmul x y) = rnd (f2r x * f2r y) /\ fis_finite (fmul x y) = true.
Proof.
  intros He H. unfold fmul, b64_mult.
  pose proof (Binary.Bmult_correct 53 1024 eq_refl eq_refl binop_nan_pl64 mode_NE x y) as C.
  rewrite Rlt_bool_true in C.
  - destruct C as (C1 & C2 & _). unfold fis_finite in Fx, Fy. rewrite Fx, Fy in C2.
    split; [exact C1 | exact C2].
  - apply Rle_lt_trans with (bpow radix2 e).
    + apply (Rabs_rnd_le _ e); [lia | exact H].
    + apply bpow_lt. lia.
Qed.

Lemma fdiv_correct e : (-1074 <= e < 1024)%Z -> f2r y <> 0 -> Rabs (f2r x / f2r y) <= bpow radix2 e ->
  f2r (fdiv x y) = rnd (f2r x / f2r y) /\ fis_finite (fdiv x y) = true.
Proof.
  intros He Hy H. unfold fdiv, b64_div.
  pose proof (Binary.Bdiv_correct 53 1024 eq_refl eq_refl binop_nan_pl64 mode_NE x y Hy) as C.
  rewrite Rlt_bool_true in C.
  - destruct C as (C1 & C2 & _). unfold fis_finite in Fx. rewrite Fx in C2.
    split; [exact C1 | exact C2].
  - apply Rle_lt_trans with (bpow radix2 e).
    + apply (Rabs_rnd_le _ e); [lia | exact H].
    + apply bpow_lt. lia.
Qed.

Lemma flt_correct : flt x y = Rlt_bool (f2r x) (f2r y).
Proof.
  unfold flt, b64_compare. rewrite (Binary.Bcompare_correct 53 1024 x y Fx Fy).
  fold (f2r x) (f2r y). destruct (Rcompare_spec (f2r x) (f2r y)) as [H|H|H].
  - now rewrite Rlt_bool_true.
  - rewrite H, Rlt_bool_false; [reflexivity|lra].
  - rewrite Rlt_bool_false; [reflexivity|lra].
Qed.

Lemma fle_correct : fle x y = Rle_bool (f2r x) (f2r y).
Proof.
  unfold fle, b64_compare. rewrite (Binary.Bcompare_correct 53 1024 x y Fx Fy).
  fold (f2r x) (f2r y). destruct (Rcompare_spec (f2r x) (f2r y)) as [H|H|H].
  - now rewrite Rle_bool_true by lra.
  - rewrite H, Rle_bool_true; [reflexivity|lra].
  - rewrite Rle_bool_false; [reflexivity|lra].
Qed.

End Ops.

Lemma fge_correct x y : fis_finite x = true -> fis_finite y = true ->
  fge x y = Rle_bool (f2r y) (f2r x).
Proof. intros Hx Hy. unfold fge. now apply fle_correct. Qed.

Lemma f_of_int_correct z : (Z.abs z <= 2 ^ 1000)%Z ->
  f2r (f_of_int z) = rnd (IZR z) /\ fis_finite (f_of_int z) = true.
Proof.
  intro H. unfold f_of_int.
  pose proof (Binary.binary_normalize_correct 53 1024 f64_prec_gt_0 f64_prec_lt_emax mode_NE z 0 false) as C.
  assert (E : F2R (Float radix2 z 0) = IZR z).
  { unfold F2R; simpl. ring. }
  rewrite E in C. rewrite Rlt_bool_true in C.
  - destruct C as (C1 & C2 & _). split; assumption.
  - apply Rle_lt_trans with (bpow radix2 1000).
    + apply (Rabs_rnd_le (IZR z) 1000); [lia|].
      rewrite <- abs_IZR. change (bpow radix2 1000) with (IZR (2 ^ 1000)). now apply IZR_le.
    + apply bpow_lt. lia.
Qed.

Lemma f_of_int_exact z : (Z.abs z <= 2 ^ 53)%Z -> f2r (f_of_int z) = IZR z.
Proof.
  intro H. destruct (f_of_int_correct z) as [E _].
  - apply Z.le_trans with (1 := H). now vm_compute.
  - rewrite E. apply rnd_id. now apply fmt_IZR.
Qed.

Lemma f_of_int_finite z : (Z.abs z <= 2 ^ 1000)%Z -> fis_finite (f_of_int z) = true.
Proof. intro H. apply f_of_int_correct, H. Qed.

Lemma f2r_zero : f2r f_zero = 0.
Proof. reflexivity. Qed.

Lemma ffloor_correct x : fis_finite x = true ->
  f2r (ffloor x) = IZR (Zfloor (f2r x)) /\ fis_finite (ffloor x) = true.
Proof.
  intro Hx. unfold ffloor.
  destruct (Binary.Bnearbyint_correct 53 1024 f64_prec_lt_emax unop_nan_pl64 mode_DN x) as (C1 & C2 & _).
  fold (f2r x) in C1. split.
  - unfold f2r at 1. rewrite C1. unfold round, F2R, scaled_mantissa, cexp, FIX_exp; simpl.
    rewrite !Rmult_1_r. reflexivity.
  - unfold fis_finite. rewrite C2. exact Hx.
Qed.

Lemma Btrunc_f2r x : IZR (Binary.Btrunc 53 1024 x) = IZR (Ztrunc (f2r x)).
Proof.
  rewrite (Binary.Btrunc_correct 53 1024 f64_prec_lt_emax x).
  fold (f2r x). unfold round, F2R, scaled_mantissa, cexp, FIX_exp; simpl.
  rewrite !Rmult_1_r. reflexivity.
Qed.

Lemma int_of_f_correct x : fis_finite x = true -> Rabs (f2r x) <= IZR (2 ^ 62) ->
  int_of_f x = Ztrunc (f2r x).
Proof.
  intros Hx Hb. unfold int_of_f. rewrite Hx.
  assert (E : Binary.Btrunc 53 1024 x = Ztrunc (f2r x)) by (apply eq_IZR, Btrunc_f2r).
  rewrite E.
  assert (B : (Z.abs (Ztrunc (f2r x)) <= 2 ^ 62)%Z).
  { apply le_IZR. rewrite abs_IZR. apply Rle_trans with (2 := Hb).
    unfold Ztrunc. destruct (Rlt_bool_spec (f2r x) 0) as [Hn|Hp].
    - rewrite !Rabs_left1; [|lra|].
      + pose proof (Zceil_ub (f2r x)). lra.
      + apply IZR_le. apply Zceil_glb. simpl. lra.
    - rewrite !Rabs_pos_eq; [|lra|].
      + apply Zfloor_lb.
      + apply IZR_le. apply Zfloor_lub. simpl. lra. }
  unfold min_int64, max_int64.
  destruct (Z.leb_spec (- 2 ^ 63) (Ztrunc (f2r x))); [|lia].
  destruct (Z.leb_spec (Ztrunc (f2r x)) (2 ^ 63 - 1)); [reflexivity|lia].
Qed.

(** float64bits / float64frombits are mutually inverse *)
Lemma frombits_bits x : float64frombits (float64bits x) = x.
Proof. exact (binary_float_of_bits_of_binary_float 52 11 eq_refl eq_refl eq_refl x). Qed.

Lemma bits_frombits b : (0 <= b < 2 ^ 64)%Z -> float64bits (float64frombits b) = b.
Proof. intro H. exact (bits_of_binary_float_of_bits 52 11 eq_refl eq_refl eq_refl b H). Qed.

Lemma bits_range x : (0 <= float64bits x < 2 ^ 64)%Z.
Proof. apply (bits_of_binary_float_range 52 11); reflexivity. Qed.

(** relative error of one rounding for magnitudes in the normal range *)
Lemma rnd_relative x : bpow radix2 (-1022) <= Rabs x -> Rabs (rnd x - x) <= bpow radix2 (-53) * Rabs x.
Proof.
  intro H. unfold rnd.
  replace (bpow radix2 (-53)) with (/2 * bpow radix2 (-53 + 1)).
  - apply (relative_error_N_FLT radix2 (-1074) 53 eq_refl (fun x => negb (Z.even x))).
    exact H.
  - change (-53)%Z with (-52 + -1)%Z at 2. rewrite bpow_plus. simpl bpow. lra.
Qed.

(** equality of two computed floats, decided on their bit patterns *)
Lemma f64_eq_bits x y : float64bits x = float64bits y -> x = y.
Proof. intro H. rewrite <- (frombits_bits x), <- (frombits_bits y). now rewrite H. Qed.
