(** Mean, variance, standard deviation. *)
From Coq Require Import ZArith Reals List Lia Lra Bool Permutation.
From Flocq Require Import Core Relative IEEE754.BinarySingleNaN IEEE754.Binary IEEE754.Bits.
From Verif.Model Require Import GoInt GoFloat GoBase Stats.
From Verif.Spec Require Import OrderStats.
From Verif.Proofs Require Import FloatFacts ExtFacts IntFacts StatsInt.
Import ListNotations.
Open Scope R_scope.

Lemma int64_abs z : is_int64 z -> (Z.abs z <= 2 ^ 63)%Z.
Proof. unfold is_int64, min_int64, max_int64. lia. Qed.

Lemma pow63_le_1000 : (2 ^ 63 <= 2 ^ 1000)%Z.
Proof. now vm_compute. Qed.

Lemma int64_f z : is_int64 z -> f2r (f_of_int z) = rnd (IZR z) /\ fis_finite (f_of_int z) = true.
Proof.
  intro H. apply f_of_int_correct. apply int64_abs in H. pose proof pow63_le_1000. lia.
Qed.

Lemma Rabs_IZR_pow z k : (0 <= k)%Z -> (Z.abs z <= 2 ^ k)%Z -> Rabs (IZR z) <= bpow radix2 k.
Proof.
  intros Hk H. rewrite <- abs_IZR. rewrite <- IZR_Zpower by exact Hk. apply IZR_le. exact H.
Qed.

Lemma int64_f_bound z : is_int64 z -> Rabs (f2r (f_of_int z)) <= bpow radix2 63.
Proof.
  intro H. rewrite (proj1 (int64_f z H)). apply Rabs_rnd_le; [lia|].
  apply Rabs_IZR_pow; [lia|]. now apply int64_abs.
Qed.

Lemma len_f {A} (l : list A) : l <> [] -> (slen l <= 2 ^ 53)%Z ->
  f2r (f_of_int (slen l)) = IZR (slen l) /\ fis_finite (f_of_int (slen l)) = true /\ 1 <= IZR (slen l).
Proof.
  intros Hne Hl. pose proof (slen_pos l Hne) as Hp.
  split; [|split].
  - apply f_of_int_exact. lia.
  - apply f_of_int_finite. apply Z.le_trans with (2 ^ 53)%Z; [lia|]. now vm_compute.
  - now apply IZR_le.
Qed.

Lemma Rabs_div_ge1 a b e : 1 <= b -> Rabs a <= e -> Rabs (a / b) <= e.
Proof.
  intros Hb Ha. unfold Rdiv. rewrite Rabs_mult. rewrite (Rabs_pos_eq (/ b)).
  - assert (/ b <= 1) by (rewrite <- Rinv_1; apply Rinv_le; lra).
    assert (0 < / b) by (apply Rinv_0_lt_compat; lra). pose proof (Rabs_pos a). nra.
  - left. apply Rinv_0_lt_compat; lra.
Qed.

Lemma mean_eq l : l <> [] -> SampleMean l = fdiv (f_of_int (SampleSum l)) (f_of_int (slen l)).
Proof. destruct l; [congruence|reflexivity]. Qed.

(** the mean is fl(fl(S)/n) *)
Lemma mean_real l : l <> [] -> (slen l <= 2 ^ 53)%Z ->
  f2r (SampleMean l) = rnd (rnd (IZR (SampleSum l)) / IZR (slen l)) /\
  fis_finite (SampleMean l) = true /\ Rabs (f2r (SampleMean l)) <= bpow radix2 63.
Proof.
  intros Hne Hl. destruct (len_f l Hne Hl) as (En & Fn & Hn).
  pose proof (SampleSum_int64 l) as Hs. destruct (int64_f _ Hs) as [Es Fs].
  pose proof (int64_f_bound _ Hs) as Bs.
  rewrite mean_eq by exact Hne.
  assert (B : Rabs (f2r (f_of_int (SampleSum l)) / f2r (f_of_int (slen l))) <= bpow radix2 63).
  { rewrite En. now apply Rabs_div_ge1. }
  destruct (fdiv_correct (f_of_int (SampleSum l)) (f_of_int (slen l)) Fs 63) as [E F];
    [lia|rewrite En; lra|exact B|].
  rewrite E. split; [now rewrite En, Es|]. split; [exact F|].
  apply Rabs_rnd_le; [lia|exact B].
Qed.

Lemma mean_exact l : l <> [] -> (slen l <= 2 ^ 53)%Z -> (Z.abs (zsum l) <= 2 ^ 53)%Z ->
  f2r (SampleMean l) = rnd (IZR (zsum l) / IZR (slen l)).
Proof.
  intros Hne Hl Hs. destruct (mean_real l Hne Hl) as [E _]. rewrite E.
  rewrite SampleSum_spec, wrap64_id by (unfold is_int64, min_int64, max_int64; lia).
  now rewrite (rnd_id _ (fmt_IZR _ Hs)).
Qed.

Lemma mean_relative l : l <> [] -> (slen l <= 2 ^ 53)%Z -> is_int64 (zsum l) ->
  Rabs (f2r (SampleMean l) - IZR (zsum l) / IZR (slen l))
   <= (bpow radix2 (-52) + bpow radix2 (-106)) * Rabs (IZR (zsum l) / IZR (slen l)).
Proof.
  intros Hne Hl Hs. destruct (mean_real l Hne Hl) as [E _]. rewrite E. clear E.
  rewrite SampleSum_spec, wrap64_id by exact Hs.
  destruct (len_f l Hne Hl) as (_ & _ & Hn).
  set (S := zsum l) in *. set (n := IZR (slen l)) in *.
  assert (Hn53 : n <= bpow radix2 53).
  { unfold n. change (bpow radix2 53) with (IZR (2 ^ 53)). now apply IZR_le. }
  assert (Hin : 0 < / n) by (apply Rinv_0_lt_compat; lra).
  assert (Hin53 : bpow radix2 (-53) <= / n).
  { change (-53)%Z with (Z.opp 53). rewrite bpow_opp. apply Rinv_le; lra. }
  destruct (Z.eq_dec S 0) as [E0|N0].
  { rewrite E0. unfold Rdiv. rewrite rnd_0, !Rmult_0_l, rnd_0, Rminus_0_r, Rabs_R0. lra. }
  assert (HS1 : 1 <= Rabs (IZR S)) by (rewrite <- abs_IZR; apply IZR_le; lia).
  assert (R1 : Rabs (rnd (IZR S) - IZR S) <= bpow radix2 (-53) * Rabs (IZR S)).
  { apply rnd_relative. apply Rle_trans with (2 := HS1). change 1 with (bpow radix2 0). apply bpow_le. lia. }
  assert (HR1 : 1 <= Rabs (rnd (IZR S))).
  { apply abs_round_ge_generic; try typeclasses eauto; [|exact HS1].
    change 1 with (bpow radix2 0). apply fmt_bpow. lia. }
  assert (R2 : Rabs (rnd (rnd (IZR S) / n) - rnd (IZR S) / n) <= bpow radix2 (-53) * Rabs (rnd (IZR S) / n)).
  { apply rnd_relative. unfold Rdiv. rewrite Rabs_mult, (Rabs_pos_eq (/ n)) by lra.
    apply Rle_trans with (bpow radix2 (-53)).
    - apply bpow_le; lia.
    - nra. }
  unfold Rdiv in *. set (r := rnd (IZR S)) in *. set (s := IZR S) in *. set (i := / n) in *.
  replace (rnd (r * i) - s * i) with ((rnd (r * i) - r * i) + (r - s) * i) by ring.
  eapply Rle_trans; [apply Rabs_triang|].
  rewrite Rabs_mult, (Rabs_pos_eq i) by lra. rewrite (Rabs_mult s i), (Rabs_pos_eq i) by lra.
  rewrite Rabs_mult, (Rabs_pos_eq i) in R2 by lra.
  assert (R3 : Rabs r <= (1 + bpow radix2 (-53)) * Rabs s).
  { replace r with (s + (r - s)) by ring. eapply Rle_trans; [apply Rabs_triang|]. lra. }
  replace (bpow radix2 (-52)) with (2 * bpow radix2 (-53)).
  2:{ change 2 with (bpow radix2 1). rewrite <- bpow_plus. reflexivity. }
  replace (bpow radix2 (-106)) with (bpow radix2 (-53) * bpow radix2 (-53)).
  2:{ rewrite <- bpow_plus. reflexivity. }
  set (u := bpow radix2 (-53)) in *.
  assert (Hu : 0 < u) by apply bpow_gt_0.
  pose proof (Rabs_pos s).
  assert (Rabs r * i <= (1 + u) * Rabs s * i) by (apply Rmult_le_compat_r; lra).
  assert (Rabs (r - s) * i <= u * Rabs s * i) by (apply Rmult_le_compat_r; lra).
  assert (u * (Rabs r * i) <= u * ((1 + u) * Rabs s * i)) by (apply Rmult_le_compat_l; lra).
  nra.
Qed.

(** n*min <= sum <= n*max *)
Lemma zsum_bounds l a b : (forall x, In x l -> a <= x <= b)%Z ->
  (slen l * a <= zsum l <= slen l * b)%Z.
Proof.
  induction l as [|x l IH]; intro H.
  - unfold slen; simpl; lia.
  - rewrite slen_cons. unfold zsum in *. cbn [fold_right].
    specialize (IH (fun y Hy => H y (or_intror Hy))). specialize (H x (or_introl eq_refl)). lia.
Qed.

Lemma mean_between l : l <> [] -> Forall is_int64 l -> (slen l <= 2 ^ 53)%Z -> (Z.abs (zsum l) <= 2 ^ 53)%Z ->
  fle (f_of_int (SampleMin l)) (SampleMean l) = true /\ fle (SampleMean l) (f_of_int (SampleMax l)) = true.
Proof.
  intros Hne Hi Hl Hs.
  destruct (SampleMin_spec l Hne Hi) as [Imin Lmin]. destruct (SampleMax_spec l Hne Hi) as [Imax Lmax].
  destruct (mean_real l Hne Hl) as (_ & Fm & _). pose proof (mean_exact l Hne Hl Hs) as Em.
  rewrite Forall_forall in Hi.
  destruct (int64_f _ (Hi _ Imin)) as [E1 F1]. destruct (int64_f _ (Hi _ Imax)) as [E2 F2].
  destruct (zsum_bounds l (SampleMin l) (SampleMax l)) as [L1 L2]; [intros x Hx; split; auto|].
  destruct (len_f l Hne Hl) as (_ & _ & Hn).
  apply IZR_le in L1. apply IZR_le in L2. rewrite mult_IZR in L1, L2.
  rewrite !fle_correct by assumption. rewrite E1, E2, Em.
  split; apply Rle_bool_true, rnd_le.
  - apply Rmult_le_reg_r with (IZR (slen l)); [lra|]. unfold Rdiv. rewrite Rmult_assoc, Rinv_l by lra. lra.
  - apply Rmult_le_reg_r with (IZR (slen l)); [lra|]. unfold Rdiv. rewrite Rmult_assoc, Rinv_l by lra. lra.
Qed.

(** ** Variance *)
Definition var_step (m : f64) (sum : f64) (v : Z) : f64 :=
  let d := fsub (f_of_int v) m in fadd sum (fmul d d).

Lemma fmt_scaled k e : (0 <= k <= 2 ^ 53)%Z -> (-1074 <= e)%Z -> fmt64 (IZR k * bpow radix2 e).
Proof.
  intros Hk He. destruct (Z.eq_dec k (2 ^ 53)) as [->|N].
  - change (IZR (2 ^ 53)) with (bpow radix2 53). rewrite <- bpow_plus. apply fmt_bpow. lia.
  - apply generic_format_FLT. exists (Float radix2 k e); simpl; [reflexivity| |exact He].
    change (Z.pow_pos 2 53) with (2 ^ 53)%Z. lia.
Qed.

Lemma var_step_bound m sum v k :
  fis_finite m = true -> Rabs (f2r m) <= bpow radix2 63 -> is_int64 v ->
  fis_finite sum = true -> (0 <= k)%Z -> (k + 1 <= 2 ^ 53)%Z ->
  0 <= f2r sum <= IZR k * bpow radix2 128 ->
  fis_finite (var_step m sum v) = true /\
  0 <= f2r (var_step m sum v) <= IZR (k + 1) * bpow radix2 128.
Proof.
  intros Fm Bm Hv Fs Hk Hk1 Bs. unfold var_step. cbv zeta.
  destruct (int64_f v Hv) as [Ev Fv]. pose proof (int64_f_bound v Hv) as Bv.
  assert (B64 : Rabs (f2r (f_of_int v) - f2r m) <= bpow radix2 64).
  { unfold Rminus. eapply Rle_trans; [apply Rabs_triang|]. rewrite Rabs_Ropp.
    change (bpow radix2 64) with (IZR (2 * 2 ^ 63)). rewrite mult_IZR.
    change (IZR (2 ^ 63)) with (bpow radix2 63). lra. }
  destruct (fsub_correct (f_of_int v) m Fv Fm 64) as [Ed Fd]; [lia|exact B64|].
  assert (Bd : Rabs (f2r (fsub (f_of_int v) m)) <= bpow radix2 64).
  { rewrite Ed. apply Rabs_rnd_le; [lia|exact B64]. }
  set (d := fsub (f_of_int v) m) in *. clearbody d.
  assert (B128 : Rabs (f2r d * f2r d) <= bpow radix2 128).
  { rewrite Rabs_mult. replace (bpow radix2 128) with (bpow radix2 64 * bpow radix2 64) by (rewrite <- bpow_plus; reflexivity).
    pose proof (Rabs_pos (f2r d)). nra. }
  destruct (fmul_correct d d Fd Fd 128) as [Eq Fq]; [lia|exact B128|].
  assert (Bq : 0 <= f2r (fmul d d) <= bpow radix2 128).
  { rewrite Eq. split.
    - rewrite <- rnd_0. apply rnd_le. nra.
    - apply rnd_le_fmt; [apply fmt_bpow; lia|]. apply Rle_trans with (2 := B128). apply Rle_abs. }
  set (q := fmul d d) in *. clearbody q.
  assert (Bsum : 0 <= f2r sum + f2r q <= IZR (k + 1) * bpow radix2 128).
  { rewrite plus_IZR. lra. }
  destruct (fadd_correct sum q Fs Fq 181) as [Ea Fa]; [lia| |].
  - rewrite Rabs_pos_eq by lra. apply Rle_trans with (1 := proj2 Bsum).
    replace (bpow radix2 181) with (bpow radix2 53 * bpow radix2 128) by (rewrite <- bpow_plus; reflexivity).
    apply Rmult_le_compat_r; [apply bpow_ge_0|]. change (bpow radix2 53) with (IZR (2 ^ 53)). now apply IZR_le.
  - split; [exact Fa|]. rewrite Ea. split.
    + rewrite <- rnd_0. apply rnd_le. lra.
    + apply rnd_le_fmt; [apply fmt_scaled; lia|]. lra.
Qed.

Lemma var_fold_bound m : fis_finite m = true -> Rabs (f2r m) <= bpow radix2 63 ->
  forall l sum k, Forall is_int64 l -> fis_finite sum = true -> (0 <= k)%Z -> (k + slen l <= 2 ^ 53)%Z ->
  0 <= f2r sum <= IZR k * bpow radix2 128 ->
  let s := fold_left (var_step m) l sum in
  fis_finite s = true /\ 0 <= f2r s <= IZR (k + slen l) * bpow radix2 128.
Proof.
  intros Fm Bm. induction l as [|v l IH]; intros sum k Hi Fs Hk Hl Bs; cbn [fold_left].
  - simpl. unfold slen; simpl. rewrite Z.add_0_r. auto.
  - rewrite slen_cons in *. pose proof (slen_nonneg l).
    destruct (var_step_bound m sum v k Fm Bm (Forall_inv Hi) Fs Hk ltac:(lia) Bs) as [F1 B1].
    specialize (IH (var_step m sum v) (k + 1)%Z (Forall_inv_tail Hi) F1 ltac:(lia) ltac:(lia) B1).
    cbv zeta in *. replace (k + (slen l + 1))%Z with (k + 1 + slen l)%Z by lia. exact IH.
Qed.

Lemma variance_eq l : l <> [] ->
  SampleVariance l = fdiv (fold_left (var_step (SampleMean l)) l f_zero) (f_of_int (slen l)).
Proof. destruct l; [congruence|reflexivity]. Qed.

Lemma variance_bound l : Forall is_int64 l -> (slen l <= 2 ^ 53)%Z ->
  fis_finite (SampleVariance l) = true /\ 0 <= f2r (SampleVariance l) <= bpow radix2 128.
Proof.
  intros Hi Hl. destruct l as [|a l0] eqn:El.
  { split; [reflexivity|]. change (f2r (SampleVariance [])) with 0. split; [lra|apply bpow_ge_0]. }
  rewrite <- El in *. assert (Hne : l <> []) by (rewrite El; discriminate). clear El.
  rewrite variance_eq by exact Hne.
  destruct (mean_real l Hne Hl) as (_ & Fm & Bm).
  destruct (var_fold_bound _ Fm Bm l f_zero 0 Hi eq_refl ltac:(lia) ltac:(lia)) as [Fs Bs].
  { rewrite f2r_zero. lra. }
  rewrite Z.add_0_l in Bs. set (s := fold_left _ _ _) in *. clearbody s.
  destruct (len_f l Hne Hl) as (En & Fn & Hn).
  assert (Bq : 0 <= f2r s / f2r (f_of_int (slen l)) <= bpow radix2 128).
  { rewrite En. assert (0 < / IZR (slen l)) by (apply Rinv_0_lt_compat; lra). split.
    - apply Rmult_le_pos; lra.
    - apply Rmult_le_reg_r with (IZR (slen l)); [lra|]. unfold Rdiv. rewrite Rmult_assoc, Rinv_l by lra. lra. }
  destruct (fdiv_correct s (f_of_int (slen l)) Fs 128) as [E F]; [lia|rewrite En; lra|rewrite Rabs_pos_eq; lra|].
  split; [exact F|]. rewrite E. split.
  - rewrite <- rnd_0. apply rnd_le. lra.
  - apply rnd_le_fmt; [apply fmt_bpow; lia|lra].
Qed.

Lemma fsqrt_finite x : fis_finite x = true -> 0 <= f2r x ->
  f2r (fsqrt x) = rnd (sqrt (f2r x)) /\ fis_finite (fsqrt x) = true.
Proof.
  intros Fx Hx. unfold fsqrt, b64_sqrt.
  destruct (Binary.Bsqrt_correct 53 1024 eq_refl eq_refl unop_nan_pl64 mode_NE x) as (C1 & C2 & _).
  split; [exact C1|]. etransitivity; [exact C2|].
  destruct x as [s|s|s pl H|s m e H]; try discriminate; trivial.
  destruct s; [|reflexivity]. exfalso. unfold f2r in Hx. simpl in Hx.
  pose proof (F2R_lt_0 radix2 (Float radix2 (Z.neg m) e) eq_refl). lra.
Qed.

Lemma stddev_bound l : Forall is_int64 l -> (slen l <= 2 ^ 53)%Z ->
  fis_finite (SampleStdDev l) = true /\ 0 <= f2r (SampleStdDev l) <= bpow radix2 64.
Proof.
  intros Hi Hl. destruct (variance_bound l Hi Hl) as [F B]. unfold SampleStdDev.
  destruct (fsqrt_finite _ F (proj1 B)) as [E F']. split; [exact F'|]. rewrite E. split.
  - rewrite <- rnd_0. apply rnd_le, sqrt_pos.
  - apply rnd_le_fmt; [apply fmt_bpow; lia|].
    replace (bpow radix2 64) with (sqrt (bpow radix2 128)).
    + apply sqrt_le_1_alt. lra.
    + replace (bpow radix2 128) with (bpow radix2 64 * bpow radix2 64) by (rewrite <- bpow_plus; reflexivity).
      apply sqrt_square, bpow_ge_0.
Qed.

(** constant slices with a small sum *)
Lemma zsum_repeat v n : zsum (repeat v n) = (Z.of_nat n * v)%Z.
Proof. induction n as [|n IH]; cbn [repeat zsum fold_right]; [lia|]. fold (zsum (repeat v n)). rewrite IH. lia. Qed.
Lemma slen_repeat {A} (v : A) n : slen (repeat v n) = Z.of_nat n.
Proof. unfold slen. now rewrite repeat_length. Qed.

Lemma var_step_zero m sum v : fis_finite m = true -> fis_finite sum = true -> (Z.abs v <= 2 ^ 53)%Z ->
  f2r m = IZR v -> f2r sum = 0 ->
  fis_finite (var_step m sum v) = true /\ f2r (var_step m sum v) = 0.
Proof.
  intros Fm Fs Hv Em Es. unfold var_step. cbv zeta.
  assert (Fv : fis_finite (f_of_int v) = true).
  { apply f_of_int_finite. apply Z.le_trans with (1 := Hv). now vm_compute. }
  assert (B0 : forall e, 0 <= bpow radix2 e) by (intro; apply bpow_ge_0).
  destruct (fsub_correct (f_of_int v) m Fv Fm 0) as [Ed Fd]; [lia| |].
  { rewrite f_of_int_exact, Em by exact Hv. rewrite Rminus_diag_eq, Rabs_R0 by reflexivity. apply B0. }
  rewrite f_of_int_exact, Em, Rminus_diag_eq, rnd_0 in Ed by trivial.
  set (d := fsub (f_of_int v) m) in *. clearbody d.
  destruct (fmul_correct d d Fd Fd 0) as [Eq Fq]; [lia| |].
  { rewrite Ed, Rmult_0_l, Rabs_R0. apply B0. }
  rewrite Ed, Rmult_0_l, rnd_0 in Eq.
  destruct (fadd_correct sum (fmul d d) Fs Fq 0) as [Ea Fa]; [lia| |].
  { rewrite Es, Eq, Rplus_0_l, Rabs_R0. apply B0. }
  rewrite Es, Eq, Rplus_0_l, rnd_0 in Ea. auto.
Qed.

Lemma variance_const v n : is_int64 v -> (Z.of_nat n <= 2 ^ 53)%Z -> (Z.abs (Z.of_nat n * v) <= 2 ^ 53)%Z ->
  fis_finite (SampleVariance (repeat v n)) = true /\ f2r (SampleVariance (repeat v n)) = 0.
Proof.
  intros Hv Hn Hs. destruct n as [|n]; [split; reflexivity|].
  set (l := repeat v (S n)). assert (Hne : l <> []) by discriminate.
  assert (Hl : (slen l <= 2 ^ 53)%Z) by (unfold l; now rewrite slen_repeat).
  rewrite variance_eq by exact Hne.
  destruct (mean_real l Hne Hl) as (_ & Fm & Bm).
  assert (Hz : (Z.abs (zsum l) <= 2 ^ 53)%Z) by (unfold l; rewrite zsum_repeat; exact Hs).
  pose proof (mean_exact l Hne Hl Hz) as Em.
  destruct (len_f l Hne Hl) as (En & Fn & H1).
  assert (Hv53 : (Z.abs v <= 2 ^ 53)%Z) by nia.
  assert (Em' : f2r (SampleMean l) = IZR v).
  { rewrite Em. unfold l in H1 |- *. rewrite zsum_repeat, slen_repeat in *. rewrite mult_IZR.
    replace (IZR (Z.of_nat (S n)) * IZR v / IZR (Z.of_nat (S n))) with (IZR v) by (field; lra).
    apply rnd_id, fmt_IZR, Hv53. }
  assert (K : forall k sum, fis_finite sum = true -> f2r sum = 0 ->
    fis_finite (fold_left (var_step (SampleMean l)) (repeat v k) sum) = true /\
    f2r (fold_left (var_step (SampleMean l)) (repeat v k) sum) = 0).
  { induction k as [|k IH]; intros sum Fs Es; cbn [repeat fold_left]; [auto|].
    destruct (var_step_zero _ sum v Fm Fs Hv53 Em' Es). now apply IH. }
  destruct (K (S n) f_zero eq_refl eq_refl) as [Fs Es]. fold l in Fs, Es.
  set (s := fold_left _ _ _) in *. clearbody s.
  assert (Ez : f2r s / f2r (f_of_int (slen l)) = 0) by (rewrite Es; unfold Rdiv; apply Rmult_0_l).
  destruct (fdiv_correct s (f_of_int (slen l)) Fs 0) as [E F].
  - lia.
  - rewrite En. lra.
  - rewrite Ez, Rabs_R0. apply bpow_ge_0.
  - split; [exact F|]. now rewrite E, Ez, rnd_0.
Qed.

Lemma stddev_const v n : is_int64 v -> (Z.of_nat n <= 2 ^ 53)%Z -> (Z.abs (Z.of_nat n * v) <= 2 ^ 53)%Z ->
  fis_finite (SampleStdDev (repeat v n)) = true /\ f2r (SampleStdDev (repeat v n)) = 0.
Proof.
  intros Hv Hn Hs. destruct (variance_const v n Hv Hn Hs) as [F E]. unfold SampleStdDev.
  destruct (fsqrt_finite _ F ltac:(lra)) as [E' F']. split; [exact F'|]. now rewrite E', E, sqrt_0, rnd_0.
Qed.

(** Exactness: integer mean and sum of squared deviations at most 2^53. *)
Definition sqdev (m : Z) (l : list Z) : Z := zsum (map (fun v => (v - m) * (v - m))%Z l).

Lemma sqdev_nonneg m l : (0 <= sqdev m l)%Z.
Proof.
  induction l as [|v l IH]; [unfold sqdev; simpl; lia|].
  change (sqdev m (v :: l)) with ((v - m) * (v - m) + sqdev m l)%Z.
  pose proof (Z.square_nonneg (v - m)). lia.
Qed.

Lemma fold_var_exact mf m : fis_finite mf = true -> f2r mf = IZR m -> (Z.abs m <= 2 ^ 53)%Z ->
  forall l sum k, fis_finite sum = true -> f2r sum = IZR k -> (0 <= k)%Z ->
  Forall (fun v => Z.abs v <= 2 ^ 53)%Z l -> (k + sqdev m l <= 2 ^ 53)%Z ->
  fis_finite (fold_left (var_step mf) l sum) = true /\
  f2r (fold_left (var_step mf) l sum) = IZR (k + sqdev m l).
Proof.
  intros Fm Em Hm. induction l as [|v l IH]; intros sum k Fs Es Hk Hl Hb; cbn [fold_left].
  - unfold sqdev; simpl. rewrite Z.add_0_r. auto.
  - assert (Esq : sqdev m (v :: l) = ((v - m) * (v - m) + sqdev m l)%Z) by reflexivity.
    rewrite Esq in *. pose proof (sqdev_nonneg m l) as Hsq.
    pose proof (Forall_inv Hl) as Hv. cbv beta in Hv.
    set (d := (v - m)%Z) in *. assert (Hdd : (d * d <= 2 ^ 53)%Z) by lia.
    assert (Hd : (Z.abs d <= 2 ^ 53)%Z) by nia.
    assert (Fv : fis_finite (f_of_int v) = true).
    { apply f_of_int_finite. apply Z.le_trans with (1 := Hv). now vm_compute. }
    assert (B53 : forall z, (Z.abs z <= 2 ^ 53)%Z -> Rabs (IZR z) <= bpow radix2 53)
      by (intros z Hz; apply Rabs_IZR_pow; [lia|exact Hz]).
    destruct (fsub_correct (f_of_int v) mf Fv Fm 53) as [Ed Fd]; [lia| |].
    { rewrite f_of_int_exact, Em, <- minus_IZR by exact Hv. apply B53. exact Hd. }
    rewrite f_of_int_exact, Em, <- minus_IZR in Ed by exact Hv.
    fold d in Ed. rewrite (rnd_id _ (fmt_IZR _ Hd)) in Ed.
    unfold var_step at 2. unfold var_step at 3. cbv zeta.
    set (df := fsub (f_of_int v) mf) in *. clearbody df.
    destruct (fmul_correct df df Fd Fd 53) as [Eq Fq]; [lia| |].
    { rewrite Ed, <- mult_IZR. apply B53. nia. }
    rewrite Ed, <- mult_IZR in Eq. rewrite rnd_id in Eq by (apply fmt_IZR; nia).
    destruct (fadd_correct sum (fmul df df) Fs Fq 53) as [Ea Fa]; [lia| |].
    { rewrite Es, Eq, <- plus_IZR. apply B53. nia. }
    rewrite Es, Eq, <- plus_IZR in Ea. rewrite rnd_id in Ea by (apply fmt_IZR; nia).
    destruct (IH _ (k + d * d)%Z Fa Ea ltac:(nia) (Forall_inv_tail Hl) ltac:(lia)) as [F E].
    split; [exact F|]. rewrite E. f_equal. lia.
Qed.

Lemma variance_exact l m : l <> [] -> (slen l <= 2 ^ 53)%Z ->
  Forall (fun v => Z.abs v <= 2 ^ 53)%Z l -> (Z.abs (zsum l) <= 2 ^ 53)%Z ->
  zsum l = (slen l * m)%Z -> (sqdev m l <= 2 ^ 53)%Z ->
  f2r (SampleVariance l) = rnd (IZR (sqdev m l) / IZR (slen l)).
Proof.
  intros Hne Hl Hv Hs Hm Hq.
  destruct (mean_real l Hne Hl) as (_ & Fm & Bm).
  pose proof (mean_exact l Hne Hl Hs) as Em.
  destruct (len_f l Hne Hl) as (En & Fn & Hn). pose proof (slen_pos l Hne) as Hnz.
  assert (Hm53 : (Z.abs m <= 2 ^ 53)%Z) by nia.
  assert (Em' : f2r (SampleMean l) = IZR m).
  { rewrite Em, Hm, mult_IZR. replace (IZR (slen l) * IZR m / IZR (slen l)) with (IZR m) by (field; lra).
    apply rnd_id, fmt_IZR, Hm53. }
  rewrite variance_eq by exact Hne.
  destruct (fold_var_exact _ m Fm Em' Hm53 l f_zero 0 eq_refl eq_refl ltac:(lia) Hv ltac:(lia)) as [Fs Es].
  rewrite Z.add_0_l in Es. set (s := fold_left _ _ _) in *. clearbody s.
  destruct (fdiv_correct s (f_of_int (slen l)) Fs 53) as [E F]; [lia|rewrite En; lra| |].
  - rewrite En. apply Rabs_div_ge1; [exact Hn|]. rewrite Es. apply Rabs_IZR_pow; [lia|].
    pose proof (sqdev_nonneg m l). lia.
  - now rewrite E, Es, En.
Qed.
