(** Order embedding of the non-NaN float64 values into the reals: finite values
    denote themselves, infinities denote +-2^1024. *)
From Coq Require Import ZArith Reals Lia Lra Bool.
From Flocq Require Import Core Relative IEEE754.BinarySingleNaN IEEE754.Binary IEEE754.Bits.
From Verif.Model Require Import GoInt GoFloat.
From Verif.Proofs Require Import FloatFacts.
Open Scope R_scope.

Definition BIG : R := bpow radix2 1024.

Definition ext (x : f64) : R :=
  match x with
  | Binary.B754_infinity _ _ s => if s then - BIG else BIG
  | _ => f2r x
  end.

Lemma BIG_pos : 0 < BIG. Proof. apply bpow_gt_0. Qed.

Lemma f2r_lt_BIG x : Rabs (f2r x) < BIG.
Proof. apply (Binary.abs_B2R_lt_emax 53 1024). Qed.

Lemma ext_finite x : fis_finite x = true -> ext x = f2r x.
Proof. destruct x; try reflexivity; discriminate. Qed.

Lemma ext_bound x : - BIG <= ext x <= BIG.
Proof.
  pose proof BIG_pos. pose proof (f2r_lt_BIG x) as Hx. apply Rabs_lt_inv in Hx.
  destruct x as [s|s|s pl H1|s m e H1]; unfold ext; try lra. destruct s; lra.
Qed.

Lemma ext_small_finite x : fis_nan x = false -> - BIG < ext x < BIG -> fis_finite x = true.
Proof.
  destruct x as [s|s|s pl H1|s m e H1]; simpl; intros Hn Hb; try reflexivity; try discriminate.
  destruct s; lra.
Qed.

Lemma finite_not_nan x : fis_finite x = true -> fis_nan x = false.
Proof. destruct x; simpl; auto; discriminate. Qed.

Lemma finite_or_inf x : fis_nan x = false -> fis_finite x = true \/ exists s, x = f_inf s.
Proof. destruct x; simpl; intro; try discriminate; eauto. Qed.

Lemma compare_ext x y : fis_nan x = false -> fis_nan y = false ->
  b64_compare x y = Some (Rcompare (ext x) (ext y)).
Proof.
  intros Hx Hy.
  destruct (finite_or_inf x Hx) as [Fx|[sx ->]]; destruct (finite_or_inf y Hy) as [Fy|[sy ->]].
  - unfold b64_compare. rewrite (Binary.Bcompare_correct 53 1024 x y Fx Fy).
    now rewrite !ext_finite.
  - pose proof (f2r_lt_BIG x) as Bx. apply Rabs_lt_inv in Bx.
    rewrite (ext_finite x Fx). destruct sy; simpl ext.
    + rewrite Rcompare_Gt by lra. destruct x as [[|]|[|]|? ? ?|[|] ? ? ?]; try discriminate; reflexivity.
    + rewrite Rcompare_Lt by lra. destruct x as [[|]|[|]|? ? ?|[|] ? ? ?]; try discriminate; reflexivity.
  - pose proof (f2r_lt_BIG y) as By. apply Rabs_lt_inv in By.
    rewrite (ext_finite y Fy). destruct sx; simpl ext.
    + rewrite Rcompare_Lt by lra. destruct y as [[|]|[|]|? ? ?|[|] ? ? ?]; try discriminate; reflexivity.
    + rewrite Rcompare_Gt by lra. destruct y as [[|]|[|]|? ? ?|[|] ? ? ?]; try discriminate; reflexivity.
  - pose proof BIG_pos. destruct sx, sy; simpl ext; unfold b64_compare; simpl.
    + now rewrite Rcompare_Eq.
    + now rewrite Rcompare_Lt by lra.
    + now rewrite Rcompare_Gt by lra.
    + now rewrite Rcompare_Eq.
Qed.

Lemma flt_ext x y : fis_nan x = false -> fis_nan y = false -> flt x y = Rlt_bool (ext x) (ext y).
Proof.
  intros Hx Hy. unfold flt. rewrite compare_ext by assumption.
  destruct (Rcompare_spec (ext x) (ext y)) as [H|H|H].
  - now rewrite Rlt_bool_true.
  - now rewrite Rlt_bool_false by lra.
  - now rewrite Rlt_bool_false by lra.
Qed.

Lemma fle_ext x y : fis_nan x = false -> fis_nan y = false -> fle x y = Rle_bool (ext x) (ext y).
Proof.
  intros Hx Hy. unfold fle. rewrite compare_ext by assumption.
  destruct (Rcompare_spec (ext x) (ext y)) as [H|H|H].
  - now rewrite Rle_bool_true by lra.
  - now rewrite Rle_bool_true by lra.
  - now rewrite Rle_bool_false by lra.
Qed.

Lemma feq_ext x y : fis_nan x = false -> fis_nan y = false -> feq x y = Req_bool (ext x) (ext y).
Proof.
  intros Hx Hy. unfold feq. rewrite compare_ext by assumption.
  destruct (Rcompare_spec (ext x) (ext y)) as [H|H|H].
  - now rewrite Req_bool_false by lra.
  - now rewrite Req_bool_true by lra.
  - now rewrite Req_bool_false by lra.
Qed.

Lemma fle_ext_true x y : fle x y = true -> fis_nan x = false /\ fis_nan y = false /\ ext x <= ext y.
Proof.
  intro H. assert (Hx : fis_nan x = false) by (destruct x; try reflexivity; destruct y; discriminate).
  assert (Hy : fis_nan y = false) by (destruct y; try reflexivity; destruct x; discriminate).
  repeat split; auto. rewrite fle_ext in H by auto. destruct (Rle_bool_spec (ext x) (ext y)); [auto|discriminate].
Qed.

Lemma flt_ext_true x y : flt x y = true -> fis_nan x = false /\ fis_nan y = false /\ ext x < ext y.
Proof.
  intro H. assert (Hx : fis_nan x = false) by (destruct x; try reflexivity; destruct y; discriminate).
  assert (Hy : fis_nan y = false) by (destruct y; try reflexivity; destruct x; discriminate).
  repeat split; auto. rewrite flt_ext in H by auto. destruct (Rlt_bool_spec (ext x) (ext y)); [auto|discriminate].
Qed.

Definition clampB (r : R) : R := Rmax (- BIG) (Rmin BIG r).

Lemma clampB_mono r r' : r <= r' -> clampB r <= clampB r'.
Proof.
  intro H. unfold clampB. apply Rle_max_compat_l. apply Rle_min_compat_l. exact H.
Qed.
Lemma clampB_id r : - BIG <= r <= BIG -> clampB r = r.
Proof.
  intro H. unfold clampB. rewrite Rmin_right by lra. apply Rmax_right. lra.
Qed.
Lemma clampB_hi r : BIG <= r -> clampB r = BIG.
Proof.
  intro H. pose proof BIG_pos. unfold clampB. rewrite Rmin_left by lra. apply Rmax_right. lra.
Qed.
Lemma clampB_lo r : r <= - BIG -> clampB r = - BIG.
Proof.
  intro H. pose proof BIG_pos. unfold clampB. rewrite Rmin_right by lra. apply Rmax_left. lra.
Qed.

Lemma rnd_BIG : rnd BIG = BIG.
Proof. apply rnd_id. apply fmt_bpow. lia. Qed.

Lemma f2r_pos_sign c : 0 < f2r c -> Binary.Bsign 53 1024 c = false.
Proof.
  destruct c as [s|s|s pl H|s m e H]; destruct s; unfold f2r; simpl; intro P; try reflexivity; try lra.
  exfalso. pose proof (F2R_lt_0 radix2 (Float radix2 (Z.neg m) e) eq_refl). lra.
Qed.

Lemma B2FF_inf x s : Binary.B2FF 53 1024 x = Binary.F754_infinity s -> x = f_inf s.
Proof. destruct x; simpl; intro H; try discriminate. now injection H as ->. Qed.

(** multiplication of a finite float by a positive finite float *)
Lemma fmul_ext_fin p c : fis_finite p = true -> fis_finite c = true -> 0 < f2r c ->
  fis_nan (fmul p c) = false /\ ext (fmul p c) = clampB (rnd (ext p * f2r c)).
Proof.
  intros Fp Fc Hc. pose proof BIG_pos as HB.
  pose proof (f2r_pos_sign c ltac:(lra)) as Sc.
    rewrite (ext_finite p Fp).
    pose proof (Binary.Bmult_correct 53 1024 eq_refl eq_refl binop_nan_pl64 mode_NE p c) as C.
    destruct (Rlt_bool_spec (Rabs (rnd (f2r p * f2r c))) BIG) as [Hl|Hg].
    + unfold BIG in Hl.
      change (Rabs (rnd (f2r p * f2r c))) with
        (Rabs (round radix2 (SpecFloat.fexp 53 1024) (round_mode mode_NE) (Binary.B2R 53 1024 p * Binary.B2R 53 1024 c))) in Hl.
      rewrite Rlt_bool_true in C by exact Hl. destruct C as (C1 & C2 & _).
      assert (Fm : fis_finite (fmul p c) = true).
      { etransitivity; [exact C2|]. apply andb_true_intro. split; assumption. }
      clear C2.
      split; [now apply finite_not_nan|]. rewrite ext_finite by exact Fm.
      change (f2r (fmul p c) = rnd (f2r p * f2r c)) in C1. rewrite C1.
      symmetry. apply clampB_id. apply Rabs_lt_inv in Hl.
      change (- BIG < rnd (f2r p * f2r c) < BIG) in Hl. lra.
    + change (Rabs (rnd (f2r p * f2r c))) with
        (Rabs (round radix2 (SpecFloat.fexp 53 1024) (round_mode mode_NE) (Binary.B2R 53 1024 p * Binary.B2R 53 1024 c))) in Hg.
      rewrite Rlt_bool_false in C by exact Hg.
      rewrite Sc, xorb_false_r in C.
      change (Binary.binary_overflow 53 1024 mode_NE (Binary.Bsign 53 1024 p)) with
        (Binary.F754_infinity (Binary.Bsign 53 1024 p)) in C.
      apply B2FF_inf in C. change (fmul p c = f_inf (Binary.Bsign 53 1024 p)) in C.
      rewrite C. split; [reflexivity|]. simpl ext.
      change (BIG <= Rabs (rnd (f2r p * f2r c))) in Hg.
      destruct p as [sp|sp|? ? ?|sp m e H]; try discriminate.
      * exfalso. unfold f2r in Hg at 1. simpl in Hg. rewrite Rmult_0_l, rnd_0, Rabs_R0 in Hg. lra.
      * simpl Binary.Bsign. set (P := f2r (Binary.B754_finite 53 1024 sp m e H)) in *.
        destruct sp.
        -- assert (P < 0) by (apply (F2R_lt_0 radix2 (Float radix2 (Z.neg m) e)); reflexivity).
           rewrite clampB_lo; [reflexivity|].
           rewrite Rabs_left1 in Hg; [lra|]. rewrite <- rnd_0. apply rnd_le. nra.
        -- assert (0 < P) by (apply (F2R_gt_0 radix2 (Float radix2 (Z.pos m) e)); reflexivity).
           rewrite clampB_hi; [reflexivity|].
           rewrite Rabs_pos_eq in Hg; [lra|]. rewrite <- rnd_0. apply rnd_le. nra.
Qed.

(** multiplication of a non-NaN float by a finite float that is at least 1 *)
Lemma fmul_ext p c : fis_nan p = false -> fis_finite c = true -> 1 <= f2r c ->
  fis_nan (fmul p c) = false /\ ext (fmul p c) = clampB (rnd (ext p * f2r c)).
Proof.
  intros Hp Fc Hc. pose proof BIG_pos as HB.
  pose proof (f2r_pos_sign c ltac:(lra)) as Sc.
  destruct (finite_or_inf p Hp) as [Fp|[s ->]].
  - apply fmul_ext_fin; [exact Fp|exact Fc|lra].
  - destruct c as [sc|sc|? ? ?|sc m e H]; try discriminate.
    + unfold f2r in Hc; simpl in Hc. lra.
    + simpl in Sc. subst sc.
      assert (E : fmul (f_inf s) (Binary.B754_finite 53 1024 false m e H) = f_inf s) by (destruct s; reflexivity).
      rewrite E. split; [reflexivity|].
      set (Cc := f2r _) in *. destruct s; simpl ext.
      * rewrite clampB_lo; [reflexivity|]. replace (- BIG * Cc) with (- (BIG * Cc)) by ring.
        rewrite rnd_opp. apply Ropp_le_contravar. rewrite <- rnd_BIG at 1. apply rnd_le. nra.
      * rewrite clampB_hi; [reflexivity|]. rewrite <- rnd_BIG at 1. apply rnd_le. nra.
Qed.

Lemma fmul_inf_pos s c : fis_nan (fmul (f_inf s) c) = false -> fle f_zero c = true -> fmul (f_inf s) c = f_inf s.
Proof.
  intros N Hc. destruct c as [sc|sc|? ? ?|sc m e H].
  - destruct s, sc; discriminate.
  - destruct sc; [discriminate|]. destruct s; reflexivity.
  - discriminate.
  - destruct sc; [discriminate|]. destruct s; reflexivity.
Qed.

(** multiplication by one non-negative float, infinite ones included, is
    monotone as long as no product is NaN *)
Lemma fmul_mono c x y : fle f_zero c = true -> fle x y = true ->
  fis_nan (fmul x c) = false -> fis_nan (fmul y c) = false -> fle (fmul x c) (fmul y c) = true.
Proof.
  intros Hc Hxy Nx Ny. rewrite fle_ext by assumption. apply Rle_bool_true.
  destruct (fle_ext_true _ _ Hxy) as (Nx' & Ny' & Hle). pose proof BIG_pos as HB.
  destruct (finite_or_inf x Nx') as [Fx|[sx ->]].
  2:{ rewrite (fmul_inf_pos sx c) in * by assumption. destruct sx; simpl ext.
      - apply ext_bound.
      - simpl ext in Hle. destruct (finite_or_inf y Ny') as [Fy|[[|] ->]].
        + exfalso. rewrite (ext_finite y Fy) in Hle. pose proof (f2r_lt_BIG y) as Q. apply Rabs_lt_inv in Q. lra.
        + exfalso. simpl in Hle. lra.
        + rewrite fmul_inf_pos by assumption. simpl. lra. }
  destruct (finite_or_inf y Ny') as [Fy|[sy ->]].
  2:{ rewrite (fmul_inf_pos sy c) in * by assumption. destruct sy; simpl ext.
      - exfalso. simpl ext in Hle. rewrite (ext_finite x Fx) in Hle. pose proof (f2r_lt_BIG x) as Q. apply Rabs_lt_inv in Q. lra.
      - apply ext_bound. }
  destruct c as [sc|sc|? ? ?|sc m e H].
  - assert (Z : forall z, fis_finite z = true -> ext (fmul z (Binary.B754_zero 53 1024 sc)) = 0).
    { intros z Fz. destruct z; try discriminate; reflexivity. }
    rewrite !Z by assumption. lra.
  - destruct sc; [discriminate|].
    assert (Z : forall z, fis_finite z = true -> fis_nan (fmul z (Binary.B754_infinity 53 1024 false)) = false ->
       (0 < f2r z /\ ext (fmul z (Binary.B754_infinity 53 1024 false)) = BIG) \/
       (f2r z < 0 /\ ext (fmul z (Binary.B754_infinity 53 1024 false)) = - BIG)).
    { intros z Fz Nz. destruct z as [s|s|? ? ?|s m e H]; try discriminate.
      destruct s; [right|left]; (split; [|reflexivity]).
      - apply (F2R_lt_0 radix2 (Float radix2 (Z.neg m) e)); reflexivity.
      - apply (F2R_gt_0 radix2 (Float radix2 (Z.pos m) e)); reflexivity. }
    rewrite !ext_finite in Hle by assumption.
    destruct (Z x Fx Nx) as [[? ->]|[? ->]], (Z y Fy Ny) as [[? ->]|[? ->]]; lra.
  - discriminate.
  - destruct sc; [discriminate|]. set (c := Binary.B754_finite 53 1024 false m e H) in *.
    assert (Pc : 0 < f2r c) by (apply (F2R_gt_0 radix2 (Float radix2 (Z.pos m) e)); reflexivity).
    rewrite (proj2 (fmul_ext_fin x c Fx eq_refl Pc)), (proj2 (fmul_ext_fin y c Fy eq_refl Pc)).
    apply clampB_mono, rnd_le. apply Rmult_le_compat_r; lra.
Qed.
