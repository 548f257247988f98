(** Properties C06-C13: statistics of a slice of int64 (sample.go:235-395). *)
From Coq Require Import ZArith Reals List Permutation Sorted Lia.
From Flocq Require Import Core.
From Verif.Model Require Import GoInt GoFloat GoBase Stats.
From Verif.Spec Require Import OrderStats.
From Verif.Proofs Require Import FloatFacts SortFacts IntFacts StatsInt StatsFloat StatsPercentile.
Import ListNotations.
Open Scope Z_scope.

(** Concrete slices used to show that hypotheses are satisfiable. *)
Definition ex_slice : list Z := [5; -3; 9; 5; max_int64; min_int64].
Definition ex_small : list Z := [5; -3; 9; 5].
Lemma ex_slice_int64 : Forall is_int64 ex_slice.
Proof. unfold ex_slice, is_int64, min_int64, max_int64. repeat constructor; lia. Qed.
Lemma ex_small_int64 : Forall is_int64 ex_small.
Proof. unfold ex_small, is_int64, min_int64, max_int64. repeat constructor; lia. Qed.

(** ** C06 *)
Theorem C06_SampleMax : forall l, Forall is_int64 l -> l <> [] ->
  In (SampleMax l) l /\ forall x, In x l -> x <= SampleMax l.
Proof. exact (fun l Hi Hne => SampleMax_spec l Hne Hi). Qed.
Print Assumptions C06_SampleMax.

Theorem C06_SampleMin : forall l, Forall is_int64 l -> l <> [] ->
  In (SampleMin l) l /\ forall x, In x l -> SampleMin l <= x.
Proof. exact (fun l Hi Hne => SampleMin_spec l Hne Hi). Qed.
Print Assumptions C06_SampleMin.

Theorem C06_empty : SampleMax [] = 0 /\ SampleMin [] = 0.
Proof. exact (conj eq_refl eq_refl). Qed.

Example C06_example : Forall is_int64 ex_slice /\ ex_slice <> [] /\
  SampleMax ex_slice = max_int64 /\ SampleMin ex_slice = min_int64.
Proof. split; [exact ex_slice_int64|]. split; [discriminate|]. split; reflexivity. Qed.

(** ** C07 *)
Theorem C07_SampleSum : forall l, SampleSum l = wrap64 (zsum l).
Proof. exact SampleSum_spec. Qed.
Print Assumptions C07_SampleSum.

Theorem C07_SampleSum_exact : forall l, is_int64 (zsum l) -> SampleSum l = zsum l.
Proof. exact (fun l H => eq_trans (SampleSum_spec l) (wrap64_id _ H)). Qed.

Theorem C07_SampleSum_order : forall l l', Permutation l l' -> SampleSum l = SampleSum l'.
Proof. exact SampleSum_perm. Qed.

Theorem C07_mean_correctly_rounded : forall l, l <> [] -> slen l <= 2 ^ 53 -> Z.abs (zsum l) <= 2 ^ 53 ->
  fis_finite (SampleMean l) = true /\
  f2r (SampleMean l) = rnd (IZR (zsum l) / IZR (slen l)).
Proof. exact (fun l Hne Hl Hs => conj (proj1 (proj2 (mean_real l Hne Hl))) (mean_exact l Hne Hl Hs)). Qed.
Print Assumptions C07_mean_correctly_rounded.

Theorem C07_mean_relative_error : forall l, l <> [] -> slen l <= 2 ^ 53 -> is_int64 (zsum l) ->
  (Rabs (f2r (SampleMean l) - IZR (zsum l) / IZR (slen l))
   <= (bpow radix2 (-52) + bpow radix2 (-106)) * Rabs (IZR (zsum l) / IZR (slen l)))%R.
Proof. exact mean_relative. Qed.
Print Assumptions C07_mean_relative_error.

Theorem C07_mean_empty : SampleMean [] = f_zero.
Proof. exact eq_refl. Qed.

Example C07_example : ex_small <> [] /\ slen ex_small <= 2 ^ 53 /\ Z.abs (zsum ex_small) <= 2 ^ 53 /\
  is_int64 (zsum ex_small) /\ SampleMean ex_small = f_of_int 4.
Proof.
  split; [discriminate|]. split; [discriminate|]. split; [discriminate|].
  split; [split; discriminate|]. apply f64_eq_bits. vm_compute. reflexivity.
Qed.

(** ** C08 *)
Theorem C08_mean_between_min_max : forall l, l <> [] -> Forall is_int64 l -> slen l <= 2 ^ 53 ->
  Z.abs (zsum l) <= 2 ^ 53 ->
  fle (f_of_int (SampleMin l)) (SampleMean l) = true /\ fle (SampleMean l) (f_of_int (SampleMax l)) = true.
Proof. exact mean_between. Qed.
Print Assumptions C08_mean_between_min_max.

(** Without the bound on the sum the mean may fall below the minimum, or exceed
    the maximum, by rounding, although the sum fits int64 ... *)
Theorem C08_mean_rounding_refuted : exists l, Forall is_int64 l /\ is_int64 (zsum l) /\
  flt (SampleMean l) (f_of_int (SampleMin l)) = true.
Proof.
  exists (repeat 1672304204179803 28). split; [|split].
  - apply Forall_forall. intros x Hx. apply repeat_spec in Hx. subst x. split; discriminate.
  - split; discriminate.
  - vm_compute. reflexivity.
Qed.
Theorem C08_mean_rounding_above_refuted : exists l, Forall is_int64 l /\ is_int64 (zsum l) /\
  flt (f_of_int (SampleMax l)) (SampleMean l) = true.
Proof.
  exists (repeat 7094326442593803 89). split; [|split].
  - apply Forall_forall. intros x Hx. apply repeat_spec in Hx. subst x. split; discriminate.
  - split; discriminate.
  - vm_compute. reflexivity.
Qed.
(** ... and is negative for positive values when the sum overflows. *)
Theorem C08_mean_overflow_refuted : exists l, Forall is_int64 l /\ Forall (fun v => 0 < v) l /\
  SampleMean l = f_of_int (-1).
Proof.
  exists [max_int64; max_int64]. split; [|split].
  - unfold is_int64, min_int64, max_int64. repeat constructor; lia.
  - unfold max_int64. repeat constructor; lia.
  - apply f64_eq_bits. vm_compute. reflexivity.
Qed.

Example C08_example : ex_small <> [] /\ Forall is_int64 ex_small /\ slen ex_small <= 2 ^ 53 /\
  Z.abs (zsum ex_small) <= 2 ^ 53.
Proof. split; [discriminate|]. split; [exact ex_small_int64|]. split; discriminate. Qed.

(** ** C09 *)
Theorem C09_variance : forall l, Forall is_int64 l -> slen l <= 2 ^ 53 ->
  fis_finite (SampleVariance l) = true /\ (0 <= f2r (SampleVariance l) <= bpow radix2 128)%R.
Proof. exact variance_bound. Qed.
Print Assumptions C09_variance.

Theorem C09_stddev : forall l, Forall is_int64 l -> slen l <= 2 ^ 53 ->
  fis_finite (SampleStdDev l) = true /\ (0 <= f2r (SampleStdDev l) <= bpow radix2 64)%R.
Proof. exact stddev_bound. Qed.
Print Assumptions C09_stddev.

Theorem C09_empty : SampleVariance [] = f_zero /\ SampleStdDev [] = f_zero.
Proof. exact (conj eq_refl eq_refl). Qed.

Theorem C09_constant : forall v n, is_int64 v -> Z.of_nat n <= 2 ^ 53 -> Z.abs (Z.of_nat n * v) <= 2 ^ 53 ->
  f2r (SampleVariance (repeat v n)) = 0%R /\ f2r (SampleStdDev (repeat v n)) = 0%R.
Proof. exact (fun v n Hv Hn Hs => conj (proj2 (variance_const v n Hv Hn Hs)) (proj2 (stddev_const v n Hv Hn Hs))). Qed.
Print Assumptions C09_constant.

(** the population variance, correctly rounded, when every intermediate result
    is an integer below 2^53 *)
Theorem C09_variance_exact : forall l m, l <> [] -> slen l <= 2 ^ 53 ->
  Forall (fun v => Z.abs v <= 2 ^ 53) l -> Z.abs (zsum l) <= 2 ^ 53 ->
  zsum l = slen l * m -> zsum (map (fun v => (v - m) * (v - m)) l) <= 2 ^ 53 ->
  f2r (SampleVariance l) = rnd (IZR (zsum (map (fun v => (v - m) * (v - m)) l)) / IZR (slen l)).
Proof. exact variance_exact. Qed.
Print Assumptions C09_variance_exact.

Example C09_example : Forall is_int64 ex_slice /\ slen ex_slice <= 2 ^ 53 /\
  Forall (fun v => Z.abs v <= 2 ^ 53) ex_small /\ zsum ex_small = slen ex_small * 4 /\
  zsum (map (fun v => (v - 4) * (v - 4)) ex_small) = 76.
Proof.
  split; [exact ex_slice_int64|]. split; [discriminate|].
  split; [unfold ex_small; repeat constructor; discriminate|]. split; reflexivity.
Qed.

(** ** C10 *)
Theorem C10_no_panic_iff_no_NaN : forall l ps, l <> [] -> Forall is_int64 l -> slen l < 2 ^ 53 ->
  (is_ok (snd (SamplePercentiles l ps)) = true <-> forall p, In p ps -> fis_nan p = false).
Proof. exact percentiles_ok_iff. Qed.
Print Assumptions C10_no_panic_iff_no_NaN.

Theorem C10_one_score_per_percentile : forall l ps, l <> [] -> Forall is_int64 l -> slen l < 2 ^ 53 ->
  (forall p, In p ps -> fis_nan p = false) ->
  exists ss, snd (SamplePercentiles l ps) = Ok ss /\ length ss = length ps /\
    forall i p, nth_error ps i = Some p ->
      exists s, nth_error ss i = Some s /\ snd (SamplePercentile l p) = Ok s.
Proof. exact percentiles_pointwise. Qed.

Theorem C10_empty : forall ps, SamplePercentiles [] ps = ([], Ok (map (fun _ => f_zero) ps)).
Proof. exact (fun ps => eq_refl). Qed.

Example C10_example : ex_slice <> [] /\ Forall is_int64 ex_slice /\ slen ex_slice < 2 ^ 53 /\
  (forall p, In p [f_of_scaled 1 (-1); f_inf false; f_inf true; f_of_int 7] -> fis_nan p = false) /\
  is_ok (snd (SamplePercentiles ex_slice [f_of_scaled 1 (-1); f_nan])) = false.
Proof.
  split; [discriminate|]. split; [exact ex_slice_int64|]. split; [reflexivity|]. split.
  - intros p [<-|[<-|[<-|[<-|[]]]]]; reflexivity.
  - vm_compute. reflexivity.
Qed.

(** ** C11 *)
Theorem C11_percentile_bracketed : forall l p, l <> [] -> Forall is_int64 l -> slen l < 2 ^ 53 ->
  fis_nan p = false ->
  let n := slen l in
  let pos := fmul p (f_of_int (n + 1)) in
  exists s, snd (SamplePercentile l p) = Ok s /\ fis_finite s = true /\
   (flt pos (f_of_int 1) = true -> s = f_of_int (SampleMin l)) /\
   (fge pos (f_of_int n) = true -> s = f_of_int (SampleMax l)) /\
   (flt pos (f_of_int 1) = false -> fge pos (f_of_int n) = false ->
     exists k lo up, k = Zfloor (f2r pos) /\ 1 <= k < n /\
       order_stat l (Z.to_nat k) lo /\ order_stat l (Z.to_nat (k + 1)) up /\
       fle (f_of_int lo) s = true /\ fle s (f_of_int up) = true /\
       (f2r pos = IZR k -> f2r s = f2r (f_of_int lo)) /\
       (forall M, 1 <= M -> Rabs (IZR lo) <= M -> Rabs (IZR up) <= M ->
         Rabs (f2r s - (IZR lo + (f2r pos - IZR k) * (IZR up - IZR lo))) <= bpow radix2 (-49) * M)%R).
Proof. exact percentile_full. Qed.
Print Assumptions C11_percentile_bracketed.

Theorem C11_percentile_in_min_max : forall l p s, l <> [] -> Forall is_int64 l -> slen l < 2 ^ 53 ->
  fis_nan p = false -> snd (SamplePercentile l p) = Ok s ->
  fle (f_of_int (SampleMin l)) s = true /\ fle s (f_of_int (SampleMax l)) = true.
Proof. exact percentile_within. Qed.
Print Assumptions C11_percentile_in_min_max.

(** order statistics are unique, so the bracket above is a single interval *)
Theorem C11_order_stat_unique : forall l k x y, order_stat l k x -> order_stat l k y -> x = y.
Proof. exact order_stat_unique. Qed.

(* a case of the middle branch: 4 values, p = 1/2, pos = 2.5 *)
Example C11_example :
  let pos := fmul (f_of_scaled 1 (-1)) (f_of_int (slen ex_small + 1)) in
  flt pos (f_of_int 1) = false /\ fge pos (f_of_int (slen ex_small)) = false /\
  float64bits pos = float64bits (f_of_scaled 5 (-1)) /\
  match snd (SamplePercentile ex_slice (f_of_scaled 1 (-1))) with
  | Ok s => feq s (f_of_int 5) | Panic _ => false end = true.
Proof. vm_compute. repeat split. Qed.

(** ** C12 *)
Theorem C12_percentile_monotone : forall l p q, l <> [] -> Forall is_int64 l -> slen l < 2 ^ 53 ->
  fle p q = true ->
  exists s t, snd (SamplePercentile l p) = Ok s /\ snd (SamplePercentile l q) = Ok t /\ fle s t = true.
Proof. exact percentile_mono. Qed.
Print Assumptions C12_percentile_monotone.

Example C12_example : ex_slice <> [] /\ Forall is_int64 ex_slice /\ slen ex_slice < 2 ^ 53 /\
  fle (f_of_scaled 1 (-2)) (f_inf false) = true.
Proof. split; [discriminate|]. split; [exact ex_slice_int64|]. split; [reflexivity|]. vm_compute. reflexivity. Qed.

(** ** C13 *)
Theorem C13_order_independent : forall l l' ps, Permutation l l' ->
  SampleMin l = SampleMin l' /\ SampleMax l = SampleMax l' /\ SampleSum l = SampleSum l' /\
  SampleMean l = SampleMean l' /\ snd (SamplePercentiles l ps) = snd (SamplePercentiles l' ps).
Proof.
  exact (fun l l' ps P => conj (SampleMin_perm l l' P) (conj (SampleMax_perm l l' P)
    (conj (SampleSum_perm l l' P) (conj (SampleMean_perm l l' P)
    (f_equal snd (SamplePercentiles_perm l l' ps P)))))).
Qed.
Print Assumptions C13_order_independent.

Theorem C13_percentiles_sort_in_place : forall l ps,
  Permutation l (fst (SamplePercentiles l ps)) /\ StronglySorted Z.le (fst (SamplePercentiles l ps)).
Proof. exact (fun l ps => eq_ind_r (fun x => Permutation l x /\ StronglySorted Z.le x)
    (conj (sortz_perm l) (sortz_sorted l)) (SamplePercentiles_after l ps)). Qed.

(** any correct sorting algorithm yields the model's result *)
Theorem C13_sort_unique : forall (sort : list Z -> list Z) l,
  Permutation l (sort l) -> StronglySorted Z.le (sort l) -> sort l = sortz l.
Proof. exact sortz_correct_any. Qed.

(** The variance, in contrast, is a float64 sum and may depend on the order. *)
Theorem C13_variance_order_refuted : exists l l', Permutation l l' /\ Forall is_int64 l /\
  SampleVariance l <> SampleVariance l'.
Proof.
  exists [137; 582; 867; 821; 782], [137; 582; 782; 821; 867]. split; [|split].
  - eapply Permutation_trans; [apply (sortz_perm)|].
    eapply Permutation_trans; [|symmetry; apply sortz_perm]. reflexivity.
  - repeat constructor; discriminate.
  - intro H. apply (f_equal float64bits) in H. vm_compute in H. discriminate H.
Qed.

Example C13_example : Permutation ex_small [9; 5; 5; -3].
Proof.
  eapply Permutation_trans; [apply (sortz_perm)|].
  eapply Permutation_trans; [|symmetry; apply sortz_perm]. reflexivity.
Qed.
