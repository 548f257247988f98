(** How accurate variance and standard deviation are. *)
From Coq Require Import ZArith Reals List Lia Lra Bool Psatz.
From Flocq Require Import Core Relative IEEE754.BinarySingleNaN IEEE754.Binary IEEE754.Bits.
From Verif.Model Require Import GoInt GoFloat GoBase Stats.
From Verif.Spec Require Import OrderStats VarianceSpec.
From Verif.Proofs Require Import FloatFacts ExtFacts IntFacts StatsInt StatsFloat.
Import ListNotations.
Open Scope R_scope.

Notation u := (bpow radix2 (-53)).
Lemma u_small : 0 < u < / 4.
Proof. split; [apply bpow_gt_0|]. replace (/ 4) with (bpow radix2 (-2)) by (simpl; lra). apply bpow_lt. lia. Qed.

(** ** one rounding *)
Lemma rnd_rel x : x = 0 \/ bpow radix2 (-1022) <= Rabs x -> exists e, Rabs e <= u /\ rnd x = x * (1 + e).
Proof.
  intros [->|H].
  - exists 0. rewrite rnd_0, Rabs_R0. split; [apply bpow_ge_0|ring].
  - destruct (relative_error_N_FLT_ex radix2 (-1074) 53 eq_refl (fun x => negb (Z.even x)) x) as (e & B & E); [exact H|].
    exists e. split; [|exact E]. eapply Rle_trans; [exact B|]. right. change (- (53) + 1)%Z with (-53 + 1)%Z. rewrite bpow_plus. change (bpow radix2 1) with 2. lra.
Qed.
Lemma rel_between x y e : Rabs e <= u -> 0 <= x -> y = x * (1 + e) -> (1 - u) * x <= y <= (1 + u) * x.
Proof. intros B Hx ->. apply Rabs_le_inv in B. nra. Qed.
(** either zero or not tiny *)
Definition coarse (k : Z) (x : R) : Prop := x = 0 \/ bpow radix2 k <= Rabs x.
Lemma coarse_rel k x : (-1022 <= k)%Z -> coarse k x -> exists e, Rabs e <= u /\ rnd x = x * (1 + e).
Proof. intros Hk [H|H]; apply rnd_rel; [now left|]. right. eapply Rle_trans; [|exact H]. now apply bpow_le. Qed.
Lemma coarse_rnd k x : (-1074 <= k)%Z -> coarse k x -> coarse k (rnd x).
Proof.
  intros Hk [->|H]; [left; apply rnd_0|]. right. apply abs_round_ge_generic; try typeclasses eauto; [|exact H]. now apply fmt_bpow.
Qed.
Lemma coarse_sq k x : coarse k x -> coarse (2 * k) (x * x).
Proof.
  intros [->|H]; [left; ring|]. right. rewrite Rabs_mult. replace (2 * k)%Z with (k + k)%Z by lia. rewrite bpow_plus. pose proof (bpow_ge_0 radix2 k). nra.
Qed.
Lemma coarse_plus k x y : 0 <= x -> 0 <= y -> coarse k x -> coarse k y -> coarse k (x + y).
Proof.
  intros Hx Hy [->|Cx] Cy; [now rewrite Rplus_0_l|]. right. rewrite !Rabs_pos_eq in * by lra. lra.
Qed.

(** ** the mean is a multiple of 2^-105 *)
Lemma fmt_multiple x k : fmt64 x -> (-1074 <= k - 52)%Z -> bpow radix2 k <= Rabs x -> exists z, x = IZR z * bpow radix2 (k - 52).
Proof.
  intros F Hk H. assert (Nx : x <> 0) by (intros ->; rewrite Rabs_R0 in H; pose proof (bpow_gt_0 radix2 k); lra).
  exists (Ztrunc (scaled_mantissa radix2 fexp64 x) * 2 ^ (cexp radix2 fexp64 x - (k - 52)))%Z.
  assert (C : (k - 52 <= cexp radix2 fexp64 x)%Z).
  { unfold cexp, FLT_exp. assert (k < mag radix2 x)%Z by (apply mag_gt_bpow; exact H). lia. }
  assert (E : x = F2R (Float radix2 (Ztrunc (scaled_mantissa radix2 fexp64 x)) (cexp radix2 fexp64 x))) by exact F. rewrite E at 1. clear E. unfold F2R. cbn [Fnum Fexp]. change 2%Z with (radix_val radix2) at 1. rewrite mult_IZR, IZR_Zpower by lia. rewrite Rmult_assoc, <- bpow_plus. do 2 f_equal. lia.
Qed.
Lemma mean_multiple l : l <> [] -> (slen l <= 2 ^ 53)%Z -> exists z, f2r (SampleMean l) = IZR z * bpow radix2 (-105).
Proof.
  intros N Hl. destruct (mean_real l N Hl) as (E & _). destruct (len_f l N Hl) as (_ & _ & Hn).
  destruct (Z.eq_dec (SampleSum l) 0) as [Z0|Z0].
  - exists 0%Z. rewrite E, Z0, rnd_0. unfold Rdiv. rewrite !Rmult_0_l. apply rnd_0.
  - change (-105)%Z with (-53 - 52)%Z. apply fmt_multiple; [rewrite E; apply rnd_fmt|lia|]. rewrite E. apply abs_round_ge_generic; try typeclasses eauto; [apply fmt_bpow; lia|].
    assert (B1 : 1 <= Rabs (rnd (IZR (SampleSum l)))).
    { change 1 with (bpow radix2 0). apply abs_round_ge_generic; try typeclasses eauto; [apply fmt_bpow; lia|]. rewrite <- abs_IZR. change (bpow radix2 0) with (IZR 1). apply IZR_le. lia. }
    unfold Rdiv. rewrite Rabs_mult, (Rabs_pos_eq (/ _)) by (left; apply Rinv_0_lt_compat; lra).
    assert (B2 : u <= / IZR (slen l)). { change (-53)%Z with (- (53))%Z. rewrite bpow_opp. apply Rinv_le; [lra|]. change (bpow radix2 53) with (IZR (2 ^ 53)). now apply IZR_le. }
    pose proof (bpow_gt_0 radix2 (-53)). nra.
Qed.
Lemma diff_coarse v m z : m = IZR z * bpow radix2 (-105) -> coarse (-105) (IZR v - m).
Proof.
  intros ->. replace (IZR v - IZR z * bpow radix2 (-105)) with (IZR (v * 2 ^ 105 - z) * bpow radix2 (-105)).
  - destruct (Z.eq_dec (v * 2 ^ 105 - z) 0) as [->|N]; [left; ring|]. right. rewrite Rabs_mult, (Rabs_pos_eq (bpow _ _)) by apply bpow_ge_0. rewrite <- abs_IZR.
    assert (1 <= IZR (Z.abs (v * 2 ^ 105 - z))) by (apply IZR_le; lia). pose proof (bpow_ge_0 radix2 (-105)). nra.
  - rewrite minus_IZR, mult_IZR. change (IZR (2 ^ 105)) with (bpow radix2 105). rewrite Rmult_minus_distr_r, Rmult_assoc, <- bpow_plus. change (105 + -105)%Z with 0%Z. cbn [bpow]. ring.
Qed.

(** float64(v) of an int64 is an integer *)
Notation fl v := (f2r (f_of_int v)).
Lemma fl_integer v : is_int64 v -> exists w, fl v = IZR w.
Proof.
  intros Hi. destruct (Z_le_gt_dec (Z.abs v) (2 ^ 53)) as [L|G]; [exists v; now apply f_of_int_exact|].
  destruct (int64_f v Hi) as [E _]. assert (A : bpow radix2 53 <= Rabs (fl v)).
  { rewrite E. apply abs_round_ge_generic; try typeclasses eauto; [apply fmt_bpow; lia|]. rewrite <- abs_IZR. change (bpow radix2 53) with (IZR (2 ^ 53)). apply IZR_le. lia. }
  destruct (fmt_multiple (fl v) 53 (fmt_f2r _) ltac:(lia) A) as (z & Q). exists (z * 2)%Z. rewrite Q, mult_IZR. reflexivity.
Qed.
Lemma fl_close v : is_int64 v -> Rabs (fl v - IZR v) <= u * Rabs (IZR v).
Proof.
  intros Hi. destruct (int64_f v Hi) as [E _]. rewrite E. destruct (Z.eq_dec v 0) as [->|N]; [rewrite rnd_0, Rminus_0_r, Rabs_R0; lra|].
  apply rnd_relative. rewrite <- abs_IZR. apply Rle_trans with (IZR 1); [change (IZR 1) with (bpow radix2 0); apply bpow_le; lia|apply IZR_le; lia].
Qed.

(** ** the loop *)
Definition lo (k : nat) : R := (1 - u) ^ k.
Definition hi (k : nat) : R := (1 + u) ^ k.
Lemma lo_bounds k : 0 < lo k <= 1.
Proof. pose proof u_small. unfold lo. induction k; cbn [pow]; [lra|]. nra. Qed.
Lemma hi_bounds k : 1 <= hi k.
Proof. pose proof u_small. unfold hi. induction k; cbn [pow]; [lra|]. nra. Qed.
Lemma lo_S k : lo (S k) = (1 - u) * lo k. Proof. reflexivity. Qed.
Lemma hi_S k : hi (S k) = (1 + u) * hi k. Proof. reflexivity. Qed.
Lemma lo_le j k : (j <= k)%nat -> lo k <= lo j.
Proof. induction 1 as [|k _ IH]; [lra|]. rewrite lo_S. pose proof u_small. pose proof (lo_bounds k). nra. Qed.
Lemma hi_le j k : (j <= k)%nat -> hi j <= hi k.
Proof. induction 1 as [|k _ IH]; [lra|]. rewrite hi_S. pose proof u_small. pose proof (hi_bounds k). nra. Qed.

Lemma square_rel d x e1 e2 : Rabs e1 <= u -> Rabs e2 <= u -> d = x * (1 + e1) -> lo 3 * (x * x) <= d * d * (1 + e2) <= hi 3 * (x * x).
Proof.
  intros B1 B2 ->. apply Rabs_le_inv in B1, B2. pose proof u_small. unfold lo, hi. cbn [pow]. rewrite !Rmult_1_r.
  assert (Q : 0 <= x * x) by nra.
  replace (x * (1 + e1) * (x * (1 + e1)) * (1 + e2)) with (((1 + e1) * ((1 + e1) * (1 + e2))) * (x * x)) by ring.
  assert (A1 : (1 - u) * (1 - u) <= (1 + e1) * (1 + e2)) by (apply Rmult_le_compat; lra).
  assert (A2 : (1 + e1) * (1 + e2) <= (1 + u) * (1 + u)) by (apply Rmult_le_compat; lra).
  split; apply Rmult_le_compat_r; auto; apply Rmult_le_compat; nra.
Qed.
Lemma var_step_rel m z sum v k S : fis_finite m = true -> Rabs (f2r m) <= bpow radix2 63 -> f2r m = IZR z * bpow radix2 (-105) ->
  is_int64 v -> fis_finite sum = true -> (0 <= k)%Z -> (k + 1 <= 2 ^ 53)%Z -> 0 <= f2r sum <= IZR k * bpow radix2 128 ->
  coarse (-210) (f2r sum) -> 0 <= S -> lo (Z.to_nat k + 3) * S <= f2r sum <= hi (Z.to_nat k + 3) * S ->
  coarse (-210) (f2r (var_step m sum v)) /\ 
  let S' := S + (fl v - f2r m) * (fl v - f2r m) in lo (Z.to_nat (k + 1) + 3) * S' <= f2r (var_step m sum v) <= hi (Z.to_nat (k + 1) + 3) * S'.
Proof.
  intros Fm Bm Mz Hi Fs Hk Hk1 Bs Cs HS R. unfold var_step. cbv zeta.
  destruct (int64_f v Hi) as [_ Fv]. pose proof (int64_f_bound v Hi) as Bv.
  assert (B64 : Rabs (fl v - f2r m) <= bpow radix2 64).
  { unfold Rminus. eapply Rle_trans; [apply Rabs_triang|]. rewrite Rabs_Ropp.
    change (bpow radix2 64) with (IZR (2 * 2 ^ 63)). rewrite mult_IZR. change (IZR (2 ^ 63)) with (bpow radix2 63). lra. }
  destruct (fsub_correct (f_of_int v) m Fv Fm 64) as [Ed Fd]; [lia|exact B64|].
  destruct (fl_integer v Hi) as (w & Ew). pose proof (diff_coarse w (f2r m) z Mz) as Cd. rewrite <- Ew in Cd. clear w Ew. set (x := fl v - f2r m) in *.
  assert (Bd : Rabs (f2r (fsub (f_of_int v) m)) <= bpow radix2 64) by (rewrite Ed; apply Rabs_rnd_le; [lia|exact B64]).
  pose proof (coarse_rnd (-105) x ltac:(lia) Cd) as Cr. rewrite <- Ed in Cr. destruct (coarse_rel (-105) x ltac:(lia) Cd) as (e1 & Be1 & E1). rewrite <- Ed in E1.
  set (d := fsub (f_of_int v) m) in *. clearbody d.
  assert (B128 : Rabs (f2r d * f2r d) <= bpow radix2 128).
  { rewrite Rabs_mult. replace (bpow radix2 128) with (bpow radix2 64 * bpow radix2 64) by (rewrite <- bpow_plus; reflexivity). pose proof (Rabs_pos (f2r d)). nra. }
  destruct (fmul_correct d d Fd Fd 128) as [Eq Fq]; [lia|exact B128|].
  pose proof (coarse_sq _ _ Cr) as Cq. change (2 * -105)%Z with (-210)%Z in Cq. destruct (coarse_rel (-210) _ ltac:(lia) Cq) as (e2 & Be2 & E2). pose proof (coarse_rnd (-210) _ ltac:(lia) Cq) as Cq'. rewrite <- Eq in E2, Cq'.
  assert (Bq : 0 <= f2r (fmul d d) <= bpow radix2 128).
  { rewrite Eq. split; [rewrite <- rnd_0; apply rnd_le; nra|]. apply rnd_le_fmt; [apply fmt_bpow; lia|]. apply Rle_trans with (2 := B128). apply Rle_abs. }
  pose proof (square_rel (f2r d) x e1 e2 Be1 Be2 E1) as Sq. rewrite <- E2 in Sq.
  set (q := fmul d d) in *. clearbody q.
  assert (Bsum : 0 <= f2r sum + f2r q <= IZR (k + 1) * bpow radix2 128) by (rewrite plus_IZR; lra).
  destruct (fadd_correct sum q Fs Fq 181) as [Ea Fa]; [lia| |].
  { rewrite Rabs_pos_eq by lra. apply Rle_trans with (1 := proj2 Bsum). replace (bpow radix2 181) with (bpow radix2 53 * bpow radix2 128) by (rewrite <- bpow_plus; reflexivity).
    apply Rmult_le_compat_r; [apply bpow_ge_0|]. change (bpow radix2 53) with (IZR (2 ^ 53)). now apply IZR_le. }
  pose proof (coarse_plus (-210) _ _ (proj1 Bs) (proj1 Bq) Cs Cq') as Ca. destruct (coarse_rel (-210) _ ltac:(lia) Ca) as (e3 & Be3 & E3).
  rewrite Ea. split; [now apply coarse_rnd|]. replace (Z.to_nat (k + 1) + 3)%nat with (1 + (Z.to_nat k + 3))%nat by lia. cbn [Nat.add]. rewrite lo_S, hi_S.
  destruct (rel_between _ _ e3 Be3 (proj1 Bsum) E3) as (L & U). pose proof u_small as Us. assert (Qx : 0 <= x * x) by nra.
  pose proof (lo_le 3 (Z.to_nat k + 3) ltac:(lia)) as Ll. pose proof (hi_le 3 (Z.to_nat k + 3) ltac:(lia)) as Lh. pose proof (lo_bounds (Z.to_nat k + 3)). pose proof (hi_bounds (Z.to_nat k + 3)).
  set (a := lo (Z.to_nat k + 3)) in *. set (b := hi (Z.to_nat k + 3)) in *. set (p := lo 3) in *. set (r := hi 3) in *. clearbody a b p r.
  assert (A1 : a * (S + x * x) <= f2r sum + f2r q). { assert (a * (x * x) <= p * (x * x)) by (apply Rmult_le_compat_r; lra). lra. }
  assert (A2 : f2r sum + f2r q <= b * (S + x * x)). { assert (r * (x * x) <= b * (x * x)) by (apply Rmult_le_compat_r; lra). lra. }
  split.
  - eapply Rle_trans; [|exact L]. rewrite Rmult_assoc. apply Rmult_le_compat_l; lra.
  - eapply Rle_trans; [exact U|]. rewrite Rmult_assoc. apply Rmult_le_compat_l; lra.
Qed.
Definition dev (m : R) (l : list Z) : R := rsum (map (fun v => (IZR v - m) * (IZR v - m)) l).
Definition devf (m : R) (l : list Z) : R := rsum (map (fun v => (fl v - m) * (fl v - m)) l).
Lemma var_fold_rel m z : fis_finite m = true -> Rabs (f2r m) <= bpow radix2 63 -> f2r m = IZR z * bpow radix2 (-105) ->
  forall l sum k S, Forall is_int64 l -> fis_finite sum = true -> (0 <= k)%Z -> (k + slen l <= 2 ^ 53)%Z -> 0 <= f2r sum <= IZR k * bpow radix2 128 ->
  coarse (-210) (f2r sum) -> 0 <= S -> lo (Z.to_nat k + 3) * S <= f2r sum <= hi (Z.to_nat k + 3) * S ->
  let s := fold_left (var_step m) l sum in
  coarse (-210) (f2r s) /\ lo (Z.to_nat (k + slen l) + 3) * (S + devf (f2r m) l) <= f2r s <= hi (Z.to_nat (k + slen l) + 3) * (S + devf (f2r m) l).
Proof.
  intros Fm Bm Mz. induction l as [|v l IH]; intros sum k S Hi Fs Hk Hl Bs Cs HS R; cbn [fold_left].
  - unfold slen, devf. cbn [map rsum fold_right length]. rewrite Z.add_0_r, Rplus_0_r. auto.
  - rewrite slen_cons in *. pose proof (slen_nonneg l). inversion Hi as [|? ? Hv Hr]; subst.
    destruct (var_step_bound m sum v k Fm Bm Hv Fs Hk ltac:(lia) Bs) as [F1 B1].
    destruct (var_step_rel m z sum v k S Fm Bm Mz Hv Fs Hk ltac:(lia) Bs Cs HS R) as [C1 R1]. cbv zeta in R1.
    assert (HS' : 0 <= S + (fl v - f2r m) * (fl v - f2r m)) by (pose proof (Rle_0_sqr (fl v - f2r m)) as Q; unfold Rsqr in Q; lra).
    specialize (IH (var_step m sum v) (k + 1)%Z (S + (fl v - f2r m) * (fl v - f2r m)) Hr F1 ltac:(lia) ltac:(lia) B1 C1 HS' R1). cbv zeta in IH |- *.
    replace (k + (slen l + 1))%Z with (k + 1 + slen l)%Z by lia. unfold devf in *. cbn [map rsum fold_right]. fold (rsum (map (fun v0 => (fl v0 - f2r m) * (fl v0 - f2r m)) l)). rewrite <- Rplus_assoc. exact IH.
Qed.

(** ** sums of squares *)
Lemma dev_shift m x l : dev x l = dev m l + 2 * (m - x) * rsum (map (fun v => IZR v - m) l) + IZR (slen l) * ((x - m) * (x - m)).
Proof.
  unfold dev. induction l as [|v l IH]; [unfold slen; cbn [map rsum fold_right length]; ring|]. cbn [map rsum fold_right]. fold (rsum (map (fun v => (IZR v - x) * (IZR v - x)) l)) (rsum (map (fun v => (IZR v - m) * (IZR v - m)) l)) (rsum (map (fun v => IZR v - m) l)). rewrite IH, slen_cons, plus_IZR. ring.
Qed.
Lemma dev_first m l : rsum (map (fun v => IZR v - m) l) = IZR (zsum l) - IZR (slen l) * m.
Proof.
  induction l as [|v l IH]; [unfold slen; cbn; ring|]. cbn [map rsum fold_right zsum]. fold (rsum (map (fun v => IZR v - m) l)) (zsum l). rewrite IH, slen_cons, !plus_IZR. ring.
Qed.
Lemma dev_mean x l : l <> [] -> dev x l = IZR (slen l) * (variance_of l + (x - mean_of l) * (x - mean_of l)).
Proof.
  intros N. assert (Hn : IZR (slen l) <> 0). { destruct l; [congruence|]. rewrite slen_cons. pose proof (slen_nonneg l). apply not_0_IZR. lia. }
  rewrite (dev_shift (mean_of l) x l), dev_first. unfold variance_of. fold (dev (mean_of l) l).
  assert (Z : IZR (zsum l) = IZR (slen l) * mean_of l) by (unfold mean_of; field; exact Hn). rewrite Z. set (D := dev (mean_of l) l). set (M := mean_of l). clearbody D M. field. exact Hn.
Qed.
Lemma dev_nonneg m l : 0 <= dev m l.
Proof. unfold dev. induction l as [|v l IH]; cbn [map rsum fold_right]; [lra|]. fold (rsum (map (fun v => (IZR v - m) * (IZR v - m)) l)). pose proof (Rle_0_sqr (IZR v - m)) as Q. unfold Rsqr in Q. lra. Qed.
Lemma variance_nonneg l : 0 <= variance_of l.
Proof.
  unfold variance_of. fold (dev (mean_of l) l). destruct l as [|v l]; [unfold dev, slen; cbn; unfold Rdiv; rewrite Rmult_0_l; lra|].
  pose proof (dev_nonneg (mean_of (v :: l)) (v :: l)). apply Rmult_le_pos; [exact H|]. left. apply Rinv_0_lt_compat, IZR_lt. rewrite slen_cons. pose proof (slen_nonneg l). lia.
Qed.

Lemma devf_nonneg m l : 0 <= devf m l.
Proof. unfold devf. induction l as [|v l IH]; cbn [map rsum fold_right]; [lra|]. fold (rsum (map (fun v => (fl v - m) * (fl v - m)) l)). pose proof (Rle_0_sqr (fl v - m)) as Q. unfold Rsqr in Q. lra. Qed.
Lemma devf_dev m l : Forall (fun v => Z.abs v <= 2 ^ 53)%Z l -> devf m l = dev m l.
Proof.
  unfold devf, dev. induction 1 as [|v l Hv _ IH]; [reflexivity|]. cbn [map rsum fold_right]. fold (rsum (map (fun v => (fl v - m) * (fl v - m)) l)) (rsum (map (fun v => (IZR v - m) * (IZR v - m)) l)). now rewrite IH, f_of_int_exact.
Qed.

(** ** the results *)
Lemma variance_wide l : l <> [] -> (slen l <= 2 ^ 53)%Z -> Forall is_int64 l ->
  let V := devf (f2r (SampleMean l)) l / IZR (slen l) in
  (f2r (SampleVariance l) = 0 \/ bpow radix2 (-263) <= f2r (SampleVariance l)) /\
  (1 - u) ^ (length l + 4) * V <= f2r (SampleVariance l) <= (1 + u) ^ (length l + 4) * V.
Proof.
  intros N Hl Hi V.
  rewrite variance_eq by exact N. destruct (mean_real l N Hl) as (_ & Fm & Bm). destruct (mean_multiple l N Hl) as (z & Mz).
  destruct (var_fold_bound _ Fm Bm l f_zero 0 Hi eq_refl ltac:(lia) ltac:(lia)) as [Fs Bs]; [rewrite f2r_zero; lra|].
  destruct (var_fold_rel _ z Fm Bm Mz l f_zero 0 0 Hi eq_refl ltac:(lia) ltac:(lia)) as [Cs Rs]; try (rewrite f2r_zero; try lra; try (now left)); [lra|].
  rewrite Z.add_0_l in Bs, Rs. rewrite Rplus_0_l in Rs. set (s := fold_left _ _ _) in *. clearbody s.
  destruct (len_f l N Hl) as (En & Fn & Hn). assert (EV : devf (f2r (SampleMean l)) l = IZR (slen l) * V) by (unfold V; field; lra). rewrite EV in Rs. assert (Hinv : 0 < / IZR (slen l)) by (apply Rinv_0_lt_compat; lra).
  assert (Bq : 0 <= f2r s / IZR (slen l) <= bpow radix2 128).
  { split; [apply Rmult_le_pos; lra|]. apply Rmult_le_reg_r with (IZR (slen l)); [lra|]. unfold Rdiv. rewrite Rmult_assoc, Rinv_l by lra. lra. }
  destruct (fdiv_correct s (f_of_int (slen l)) Fs 128) as [E F]; [lia|rewrite En; lra|rewrite En, Rabs_pos_eq; lra|]. rewrite En in E.
  assert (Cq : coarse (-263) (f2r s / IZR (slen l))).
  { destruct Cs as [->|Cs]; [left; unfold Rdiv; ring|]. right. rewrite Rabs_pos_eq in * by lra. change (-263)%Z with (-210 + -53)%Z. rewrite bpow_plus. apply Rmult_le_compat; [apply bpow_ge_0|apply bpow_ge_0|exact Cs|].
    change (-53)%Z with (- (53))%Z. rewrite bpow_opp. apply Rinv_le; [lra|]. change (bpow radix2 53) with (IZR (2 ^ 53)). now apply IZR_le. }
  destruct (coarse_rel (-263) _ ltac:(lia) Cq) as (e & Be & Ee). rewrite E. split.
  - destruct (coarse_rnd (-263) _ ltac:(lia) Cq) as [Z0|G]; [now left|]. right. rewrite Rabs_pos_eq in G; [exact G|]. rewrite <- rnd_0. apply rnd_le. lra.
  - destruct (rel_between _ _ e Be (proj1 Bq) Ee) as (L & U). pose proof u_small as Us.
    assert (HV : 0 <= V) by (unfold V, Rdiv; apply Rmult_le_pos; [apply devf_nonneg|lra]).
    replace (Z.to_nat (slen l) + 3)%nat with (length l + 3)%nat in Rs by (unfold slen; lia). replace (length l + 4)%nat with (S (length l + 3)) by lia. cbn [pow]. fold (lo (length l + 3)) (hi (length l + 3)).
    destruct Rs as (R1 & R2).
    assert (Q1 : lo (length l + 3) * V <= f2r s / IZR (slen l)). { apply Rmult_le_reg_r with (IZR (slen l)); [lra|]. unfold Rdiv. rewrite (Rmult_assoc (f2r s)), Rinv_l by lra. lra. }
    assert (Q2 : f2r s / IZR (slen l) <= hi (length l + 3) * V). { apply Rmult_le_reg_r with (IZR (slen l)); [lra|]. unfold Rdiv. rewrite (Rmult_assoc (f2r s)), Rinv_l by lra. lra. }
    split.
    + eapply Rle_trans; [|exact L]. rewrite Rmult_assoc. apply Rmult_le_compat_l; lra.
    + eapply Rle_trans; [exact U|]. rewrite Rmult_assoc. apply Rmult_le_compat_l; lra.
Qed.
Lemma variance_rel l : l <> [] -> (slen l <= 2 ^ 53)%Z -> Forall (fun v => Z.abs v <= 2 ^ 53)%Z l ->
  let d := f2r (SampleMean l) - mean_of l in
  (1 - u) ^ (length l + 4) * (variance_of l + d * d) <= f2r (SampleVariance l) <= (1 + u) ^ (length l + 4) * (variance_of l + d * d).
Proof.
  intros N Hl Hv d. assert (Hi : Forall is_int64 l) by (eapply Forall_impl; [|exact Hv]; unfold is_int64, min_int64, max_int64; cbv beta; intros; lia).
  pose proof (proj2 (variance_wide l N Hl Hi)) as R. cbv zeta in R. rewrite devf_dev, dev_mean in R by assumption. fold d in R.
  destruct (len_f l N Hl) as (_ & _ & Hn). replace (IZR (slen l) * (variance_of l + d * d) / IZR (slen l)) with (variance_of l + d * d) in R by (field; lra). exact R.
Qed.
Lemma stddev_rel l : l <> [] -> (slen l <= 2 ^ 53)%Z -> Forall is_int64 l ->
  (1 - u) * sqrt (f2r (SampleVariance l)) <= f2r (SampleStdDev l) <= (1 + u) * sqrt (f2r (SampleVariance l)).
Proof.
  intros N Hl Hi. destruct (variance_bound l Hi Hl) as [F B]. unfold SampleStdDev. destruct (fsqrt_finite _ F (proj1 B)) as [E _]. rewrite E.
  destruct (variance_wide l N Hl Hi) as (C & _). assert (Cq : coarse (-132) (sqrt (f2r (SampleVariance l)))).
  { destruct C as [->|C]; [left; apply sqrt_0|]. right. rewrite Rabs_pos_eq by apply sqrt_pos. replace (bpow radix2 (-132)) with (sqrt (bpow radix2 (-264))).
    - apply sqrt_le_1_alt. eapply Rle_trans; [|exact C]. apply bpow_le. lia.
    - replace (bpow radix2 (-264)) with (bpow radix2 (-132) * bpow radix2 (-132)) by (rewrite <- bpow_plus; reflexivity). apply sqrt_square, bpow_ge_0. }
  destruct (coarse_rel (-132) _ ltac:(lia) Cq) as (e & Be & Ee). exact (rel_between _ _ e Be (sqrt_pos _) Ee).
Qed.

(** ** means of squares: adding at most E everywhere adds at most E to the root *)
Definition msq (l : list R) : R := rsum (map (fun x => x * x) l) / INR (length l).
Lemma rsum_cons x l : rsum (x :: l) = x + rsum l. Proof. reflexivity. Qed.
Lemma sum_sq_ge t (l : list R) : 2 * t * rsum (map Rabs l) <= rsum (map (fun x => x * x) l) + INR (length l) * (t * t).
Proof.
  induction l as [|x l IH]; [cbn; lra|]. cbn [map length]. rewrite !rsum_cons, S_INR. assert (x * x = Rabs x * Rabs x) by (rewrite <- Rabs_mult; symmetry; apply Rabs_pos_eq, (Rle_0_sqr x)).
  pose proof (Rle_0_sqr (Rabs x - t)) as Q. unfold Rsqr in Q. nra.
Qed.
Lemma sum_sq_nonneg (l : list R) : 0 <= rsum (map (fun x => x * x) l).
Proof. induction l as [|x l IH]; [cbn; lra|]. cbn [map]. rewrite rsum_cons. pose proof (Rle_0_sqr x) as Q. unfold Rsqr in Q. lra. Qed.
Lemma sum_abs_nonneg (l : list R) : 0 <= rsum (map Rabs l).
Proof. induction l as [|x l IH]; [cbn; lra|]. cbn [map]. rewrite rsum_cons. pose proof (Rabs_pos x). lra. Qed.
Lemma sum_sq_shift E (l l' : list R) : Forall2 (fun x y => Rabs (y - x) <= E) l l' -> rsum (map (fun x => x * x) l') <= rsum (map (fun x => x * x) l) + 2 * E * rsum (map Rabs l) + INR (length l) * (E * E).
Proof.
  induction 1 as [|x y l l' H _ IH]; [cbn; lra|]. cbn [map length]. rewrite !rsum_cons, S_INR.
  assert (A : Rabs y <= Rabs x + E). { replace y with (x + (y - x)) by ring. eapply Rle_trans; [apply Rabs_triang|]. lra. }
  assert (y * y = Rabs y * Rabs y) by (rewrite <- Rabs_mult; symmetry; apply Rabs_pos_eq, (Rle_0_sqr y)).
  assert (x * x = Rabs x * Rabs x) by (rewrite <- Rabs_mult; symmetry; apply Rabs_pos_eq, (Rle_0_sqr x)).
  pose proof (Rabs_pos y). pose proof (Rabs_pos x). assert (Rabs y * Rabs y <= (Rabs x + E) * (Rabs x + E)) by (apply Rmult_le_compat; lra). nra.
Qed.
Lemma root_shift E (l l' : list R) : l <> [] -> 0 <= E -> Forall2 (fun x y => Rabs (y - x) <= E) l l' -> sqrt (msq l') <= sqrt (msq l) + E.
Proof.
  intros N HE F. assert (Ln : length l' = length l) by (clear -F; induction F; cbn; congruence). assert (Pn : 0 < INR (length l)) by (apply lt_0_INR; destruct l; [congruence|cbn; lia]).
  set (n := INR (length l)) in *. set (A := rsum (map Rabs l)). set (Q := rsum (map (fun x => x * x) l)).
  pose proof (sum_sq_shift E l l' F) as H. fold n A Q in H. pose proof (sum_sq_ge (A / n) l) as G. fold n A Q in G. pose proof (sum_abs_nonneg l) as PA. fold A in PA. pose proof (sum_sq_nonneg l) as PQ. fold Q in PQ.
  unfold msq. rewrite Ln. fold n Q. set (Q' := rsum (map (fun x => x * x) l')) in *.
  assert (Pi : 0 < / n) by now apply Rinv_0_lt_compat. set (s := A / n) in *. set (q := Q / n).
  assert (Es : A = n * s) by (unfold s; field; lra). assert (Eq : Q = n * q) by (unfold q; field; lra).
  assert (Ps : 0 <= s) by (unfold s, Rdiv; apply Rmult_le_pos; lra). assert (Pq : 0 <= q) by (unfold q, Rdiv; apply Rmult_le_pos; lra).
  assert (S2 : s * s <= q). { rewrite Es, Eq in G. apply Rmult_le_reg_l with n; [lra|]. nra. }
  assert (Sq : s <= sqrt q). { rewrite <- (sqrt_square s) by lra. now apply sqrt_le_1_alt. }
  assert (T : Q' / n <= (sqrt q + E) * (sqrt q + E)).
  { assert (Q' / n <= q + 2 * E * s + E * E). { apply Rmult_le_reg_l with n; [lra|]. unfold Rdiv. rewrite <- Rmult_assoc, (Rmult_comm n Q'), Rmult_assoc, Rinv_r, Rmult_1_r by lra. rewrite Es, Eq in H. lra. }
    pose proof (sqrt_sqrt q Pq). nra. }
  rewrite <- (sqrt_square (sqrt q + E)) by (pose proof (sqrt_pos q); lra). now apply sqrt_le_1_alt.
Qed.
Lemma root_close E (l l' : list R) : l <> [] -> 0 <= E -> Forall2 (fun x y => Rabs (y - x) <= E) l l' -> sqrt (msq l) - E <= sqrt (msq l') <= sqrt (msq l) + E.
Proof.
  intros N HE F. split; [|now apply root_shift]. assert (N' : l' <> []) by (destruct F; [congruence|discriminate]).
  assert (F' : Forall2 (fun x y => Rabs (y - x) <= E) l' l). { clear -F. induction F; constructor; auto. now rewrite Rabs_minus_sym. }
  pose proof (root_shift E l' l N' HE F'). lra.
Qed.
