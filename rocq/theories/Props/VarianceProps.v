(** C09 continued: how far [SampleVariance] and [SampleStdDev] can be from the
    population variance and standard deviation. *)
From Coq Require Import ZArith Reals List Lia Lra.
From Flocq Require Import Core.
From Verif.Model Require Import GoInt GoFloat GoBase Stats.
From Verif.Spec Require Import OrderStats VarianceSpec.
From Verif.Proofs Require Import FloatFacts IntFacts StatsInt StatsFloat VarianceProofs.
Import ListNotations.
Open Scope R_scope.

(** whatever the sum does: the variance is that of the values about the mean
    [SampleMean] returned, to within n+4 roundings *)
Theorem C09_about_the_mean : forall l, l <> [] -> (slen l <= 2 ^ 53)%Z -> Forall (fun v => Z.abs v <= 2 ^ 53)%Z l ->
  let d := f2r (SampleMean l) - mean_of l in
  (1 - bpow radix2 (-53)) ^ (length l + 4) * (variance_of l + d * d) <= f2r (SampleVariance l) <= (1 + bpow radix2 (-53)) ^ (length l + 4) * (variance_of l + d * d).
Proof. intros l N Hl Hv d. exact (variance_rel l N Hl Hv). Qed.
Print Assumptions C09_about_the_mean.

(** when the sum does not overflow the mean is right to within 2^-52, so the
    variance is right to within n+4 roundings and (2^-51 mean)^2 *)
Theorem C09_variance_accuracy : forall l, l <> [] -> (slen l <= 2 ^ 53)%Z -> Forall (fun v => Z.abs v <= 2 ^ 53)%Z l -> is_int64 (zsum l) ->
  (1 - bpow radix2 (-53)) ^ (length l + 4) * variance_of l <= f2r (SampleVariance l) <=
  (1 + bpow radix2 (-53)) ^ (length l + 4) * (variance_of l + (bpow radix2 (-51) * mean_of l) ^ 2).
Proof.
  intros l N Hl Hv Hs. destruct (variance_rel l N Hl Hv) as (A & B). pose proof (mean_relative l N Hl Hs) as M. fold (mean_of l) in M.
  set (d := f2r (SampleMean l) - mean_of l) in *. set (V := variance_of l) in *. set (m := mean_of l) in *. pose proof (lo_bounds (length l + 4)) as L. pose proof (hi_bounds (length l + 4)) as U. unfold lo, hi in L, U.
  set (a := (1 - bpow radix2 (-53)) ^ (length l + 4)) in *. set (b := (1 + bpow radix2 (-53)) ^ (length l + 4)) in *.
  assert (Q : 0 <= d * d) by (pose proof (Rle_0_sqr d) as Q; exact Q).
  assert (D : d * d <= (bpow radix2 (-51) * m) ^ 2).
  { assert (E : Rabs d <= bpow radix2 (-51) * Rabs m).
    { eapply Rle_trans; [exact M|]. apply Rmult_le_compat_r; [apply Rabs_pos|]. replace (bpow radix2 (-51)) with (bpow radix2 (-52) + bpow radix2 (-52)) by (change (-51)%Z with (1 + -52)%Z; rewrite bpow_plus; change (bpow radix2 1) with 2; ring). apply Rplus_le_compat_l, bpow_le. lia. }
    assert (G : d * d = Rabs d * Rabs d) by (rewrite <- Rabs_mult; symmetry; apply Rabs_pos_eq; exact Q).
    assert (H : (bpow radix2 (-51) * m) ^ 2 = (bpow radix2 (-51) * Rabs m) * (bpow radix2 (-51) * Rabs m)).
    { assert (m * m = Rabs m * Rabs m) by (rewrite <- Rabs_mult; symmetry; apply Rabs_pos_eq, (Rle_0_sqr m)). cbn [pow]. nra. }
    rewrite G, H. apply Rmult_le_compat; auto using Rabs_pos. }
  clearbody d V m a b. split.
  - eapply Rle_trans; [|exact A]. apply Rmult_le_compat_l; lra.
  - eapply Rle_trans; [exact B|]. apply Rmult_le_compat_l; lra.
Qed.
Print Assumptions C09_variance_accuracy.

(** the standard deviation: one more rounding, after an exact square root *)
Theorem C09_stddev_accuracy : forall l, l <> [] -> (slen l <= 2 ^ 53)%Z -> Forall (fun v => Z.abs v <= 2 ^ 53)%Z l -> is_int64 (zsum l) ->
  (1 - bpow radix2 (-53)) * sqrt ((1 - bpow radix2 (-53)) ^ (length l + 4) * variance_of l) <= f2r (SampleStdDev l) <=
  (1 + bpow radix2 (-53)) * sqrt ((1 + bpow radix2 (-53)) ^ (length l + 4) * (variance_of l + (bpow radix2 (-51) * mean_of l) ^ 2)).
Proof.
  intros l N Hl Hv Hs. assert (Hi : Forall is_int64 l) by (eapply Forall_impl; [|exact Hv]; unfold is_int64, min_int64, max_int64; cbv beta; intros; lia).
  destruct (stddev_rel l N Hl Hi) as (A & B). destruct (C09_variance_accuracy l N Hl Hv Hs) as (C & D). pose proof u_small as U. split.
  - eapply Rle_trans; [|exact A]. apply Rmult_le_compat_l; [lra|]. apply sqrt_le_1_alt. exact C.
  - eapply Rle_trans; [exact B|]. apply Rmult_le_compat_l; [lra|]. apply sqrt_le_1_alt. exact D.
Qed.
Print Assumptions C09_stddev_accuracy.

(** Values of any magnitude.  Each value is rounded to a float64 first, [float64(v)] (an integer); the
    variance is the mean square distance of those from the mean [SampleMean] returned, to within
    n+4 roundings, whatever the sum does. *)
Theorem C09_rounded_values : forall l, l <> [] -> (slen l <= 2 ^ 53)%Z -> Forall is_int64 l ->
  let V := rsum (map (fun v => (f2r (f_of_int v) - f2r (SampleMean l)) ^ 2) l) / IZR (slen l) in
  (1 - bpow radix2 (-53)) ^ (length l + 4) * V <= f2r (SampleVariance l) <= (1 + bpow radix2 (-53)) ^ (length l + 4) * V.
Proof.
  intros l N Hl Hi V. assert (E : V = devf (f2r (SampleMean l)) l / IZR (slen l)) by (unfold V, devf; do 2 f_equal; apply map_ext; intros; ring).
  rewrite E. exact (proj2 (variance_wide l N Hl Hi)).
Qed.
Print Assumptions C09_rounded_values.

(** If the sum fits an int64, the standard deviation is within (n+6)/2 roundings of one that differs
    from the real one by at most 2^-51 of the mean and 2^-53 of the largest value. *)
Theorem C09_stddev_any_values : forall l M, l <> [] -> (slen l <= 2 ^ 53)%Z -> Forall is_int64 l -> Forall (fun v => Z.abs v <= M)%Z l -> is_int64 (zsum l) ->
  let E := bpow radix2 (-51) * Rabs (mean_of l) + bpow radix2 (-53) * IZR M in
  exists s, sqrt (variance_of l) - E <= s <= sqrt (variance_of l) + E /\ 0 <= s /\
    (1 - bpow radix2 (-53)) * (sqrt ((1 - bpow radix2 (-53)) ^ (length l + 4)) * s) <= f2r (SampleStdDev l) <= (1 + bpow radix2 (-53)) * (sqrt ((1 + bpow radix2 (-53)) ^ (length l + 4)) * s).
Proof.
  intros l M N Hl Hi HM Hs E. set (m := f2r (SampleMean l)). set (V := devf m l / IZR (slen l)). exists (sqrt V).
  assert (In : IZR (slen l) = INR (length l)) by (unfold slen; now rewrite <- INR_IZR_INZ).
  assert (V1 : V = msq (map (fun v => f2r (f_of_int v) - m) l)) by (unfold V, msq, devf; rewrite map_map, map_length, In; reflexivity).
  assert (V2 : variance_of l = msq (map (fun v => IZR v - mean_of l) l)) by (unfold variance_of, msq; rewrite map_map, map_length, In; reflexivity).
  assert (HE : 0 <= E). { unfold E. assert (0 <= IZR M) by (destruct l as [|v l]; [congruence|]; inversion HM; subst; apply IZR_le; lia). pose proof (bpow_ge_0 radix2 (-51)). pose proof (bpow_ge_0 radix2 (-53)). pose proof (Rabs_pos (mean_of l)). nra. }
  split; [|split; [apply sqrt_pos|]].
  - rewrite V1, V2. apply root_close; [destruct l; [congruence|discriminate]|exact HE|].
    pose proof (mean_relative l N Hl Hs) as Mr. fold (mean_of l) in Mr. fold m in Mr.
    assert (G : forall l', Forall is_int64 l' -> Forall (fun v => Z.abs v <= M)%Z l' -> Forall2 (fun x y => Rabs (y - x) <= E) (map (fun v => IZR v - mean_of l) l') (map (fun v => f2r (f_of_int v) - m) l')).
    { induction l' as [|v l' IH]; intros A B; [constructor|]. inversion A; inversion B; subst. cbn [map]. constructor; [|now apply IH].
      replace (f2r (f_of_int v) - m - (IZR v - mean_of l)) with (- (m - mean_of l) + (f2r (f_of_int v) - IZR v)) by ring. eapply Rle_trans; [apply Rabs_triang|]. rewrite Rabs_Ropp. unfold E. apply Rplus_le_compat.
      - eapply Rle_trans; [exact Mr|]. apply Rmult_le_compat_r; [apply Rabs_pos|]. replace (bpow radix2 (-51)) with (bpow radix2 (-52) + bpow radix2 (-52)) by (change (-51)%Z with (1 + -52)%Z; rewrite bpow_plus; change (bpow radix2 1) with 2; ring). apply Rplus_le_compat_l, bpow_le. lia.
      - eapply Rle_trans; [now apply fl_close|]. apply Rmult_le_compat_l; [apply bpow_ge_0|]. rewrite <- abs_IZR. now apply IZR_le. }
    now apply G.
  - destruct (stddev_rel l N Hl Hi) as (A & B). pose proof (proj2 (variance_wide l N Hl Hi)) as (C & D). fold m in C, D. fold V in C, D. pose proof u_small as U.
    assert (PV : 0 <= V). { unfold V, Rdiv. apply Rmult_le_pos; [apply devf_nonneg|]. rewrite In. left. apply Rinv_0_lt_compat, lt_0_INR. destruct l; [congruence|cbn; lia]. }
    pose proof (lo_bounds (length l + 4)) as Lb. pose proof (hi_bounds (length l + 4)) as Hb. unfold lo, hi in Lb, Hb.
    rewrite <- !sqrt_mult by lra. split.
    + eapply Rle_trans; [|exact A]. apply Rmult_le_compat_l; [lra|]. now apply sqrt_le_1_alt.
    + eapply Rle_trans; [exact B|]. apply Rmult_le_compat_l; [lra|]. now apply sqrt_le_1_alt.
Qed.
Print Assumptions C09_stddev_any_values.

(** 2^62+1, -2^62 and 7: the first is not a float64, the sum fits *)
Example C09_any_example : let l := [2 ^ 62 + 1; - 2 ^ 62; 7]%Z in
  l <> [] /\ (slen l <= 2 ^ 53)%Z /\ Forall is_int64 l /\ Forall (fun v => Z.abs v <= 2 ^ 62 + 1)%Z l /\ is_int64 (zsum l) /\
  float64bits (f_of_int (2 ^ 62 + 1)) = float64bits (f_of_int (2 ^ 62)) /\ mean_of l = 8 / 3.
Proof.
  cbv zeta. split; [discriminate|]. split; [discriminate|]. split; [repeat constructor; discriminate|]. split; [repeat constructor; discriminate|]. split; [split; discriminate|]. split; [vm_compute; reflexivity|].
  unfold mean_of. change (zsum [2 ^ 62 + 1; - 2 ^ 62; 7]%Z) with 8%Z. reflexivity.
Qed.

(** 3, 5 and 10: mean 6, variance 26/3, and what the code returns is the
    float64 next to 26/3 *)
Example C09_accuracy_example : let l := [3; 5; 10]%Z in
  l <> [] /\ (slen l <= 2 ^ 53)%Z /\ Forall (fun v => Z.abs v <= 2 ^ 53)%Z l /\ is_int64 (zsum l) /\
  mean_of l = 6 /\ variance_of l = 26 / 3 /\ float64bits (SampleVariance l) = float64bits (fdiv (f_of_int 26) (f_of_int 3)).
Proof.
  cbv zeta. split; [discriminate|]. split; [discriminate|]. split; [repeat constructor; discriminate|]. split; [split; discriminate|].
  assert (M : mean_of [3; 5; 10]%Z = 6) by (unfold mean_of; change (zsum [3; 5; 10]%Z) with 18%Z; change (slen [3; 5; 10]%Z) with 3%Z; lra).
  split; [exact M|]. split; [|vm_compute; reflexivity].
  unfold variance_of. rewrite M. unfold rsum. change (slen [3; 5; 10]%Z) with 3%Z. cbn [map fold_right]. lra.
Qed.
(** 1024 times 2^53: the sum overflows, the mean the code
    uses is wrong, and the first theorem says by how much the variance is *)
Example C09_overflow_example : let l := repeat (2 ^ 53)%Z 1024 in
  l <> [] /\ (slen l <= 2 ^ 53)%Z /\ Forall (fun v => Z.abs v <= 2 ^ 53)%Z l /\ ~ is_int64 (zsum l) /\ float64bits (SampleMean l) = float64bits (f_of_int (- 2 ^ 53)) /\
  float64bits (SampleVariance l) = float64bits (f_of_int (2 ^ 108)).
Proof.
  cbv zeta. split; [discriminate|]. split; [vm_compute; discriminate|]. split; [apply Forall_forall; intros v Hv; apply repeat_spec in Hv; subst v; discriminate|]. split; [|split; vm_compute; reflexivity].
  unfold is_int64, max_int64. intros (_ & H). vm_compute in H. now apply H.
Qed.
