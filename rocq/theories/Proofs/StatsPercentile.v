(** Percentiles: no panic, bracketing, monotonicity, accuracy. *)
From Coq Require Import ZArith Reals List Lia Lra Bool Permutation Sorted.
From Flocq Require Import Core Relative IEEE754.BinarySingleNaN IEEE754.Binary IEEE754.Bits.
From Verif.Model Require Import GoInt GoFloat GoBase Stats.
From Verif.Spec Require Import OrderStats.
From Verif.Proofs Require Import FloatFacts ExtFacts IntFacts SortFacts StatsInt StatsFloat.
Import ListNotations.
Open Scope R_scope.

(** Fractional part of a float in [1, 2^53). *)
Lemma frac_facts P : fmt64 P -> 1 <= P -> P < bpow radix2 53 ->
  fmt64 (P - IZR (Zfloor P)) /\ 0 <= P - IZR (Zfloor P) <= 1 - bpow radix2 (-52).
Proof.
  intros FP H1 H2. unfold fmt64, generic_format in FP.
  set (e := cexp radix2 (FLT_exp (-1074) 53) P) in *. set (M := Ztrunc _) in FP.
  assert (He : (-52 <= e <= 0)%Z).
  { unfold e, cexp, FLT_exp.
    assert (1 <= mag radix2 P)%Z.
    { apply mag_ge_bpow. simpl. rewrite Rabs_pos_eq by lra. exact H1. }
    assert (mag radix2 P <= 53)%Z.
    { apply mag_le_bpow; [lra|]. rewrite Rabs_pos_eq by lra. exact H2. }
    lia. }
  unfold F2R in FP; cbn [Fnum Fexp] in FP. clearbody M.
  set (N := (2 ^ (- e))%Z). assert (HN : (0 < N)%Z) by (apply Z.pow_pos_nonneg; lia).
  assert (EN : bpow radix2 e = / IZR N).
  { unfold N. change 2%Z with (radix_val radix2). rewrite IZR_Zpower by lia. rewrite bpow_opp, Rinv_inv. reflexivity. }
  assert (HNR : 0 < IZR N) by now apply IZR_lt.
  assert (EP : P = IZR M / IZR N) by (rewrite FP at 1; rewrite EN; reflexivity).
  assert (EF : Zfloor P = (M / N)%Z) by (rewrite EP; apply Zfloor_div; lia).
  assert (Efr : P - IZR (Zfloor P) = IZR (M mod N) * bpow radix2 e).
  { rewrite EF, EN, EP. rewrite Zmod_eq by lia. rewrite minus_IZR, mult_IZR. field. lra. }
  pose proof (Z.mod_pos_bound M N HN) as Hmod.
  assert (HN53 : (N <= 2 ^ 52)%Z) by (apply Z.pow_le_mono_r; lia).
  rewrite Efr. split.
  - apply fmt_scaled; lia.
  - split.
    + apply Rmult_le_pos; [apply IZR_le; lia|apply bpow_ge_0].
    + assert (IZR (M mod N) <= IZR N - 1) by (rewrite <- minus_IZR; apply IZR_le; lia).
      assert (bpow radix2 (-52) <= bpow radix2 e) by (apply bpow_le; lia).
      assert (IZR (M mod N) * bpow radix2 e <= (IZR N - 1) * bpow radix2 e)
        by (apply Rmult_le_compat_r; [apply bpow_ge_0|assumption]).
      replace ((IZR N - 1) * bpow radix2 e) with (1 - bpow radix2 e) in * by (rewrite EN; field; lra).
      lra.
Qed.

(** The rounded product of a fraction below one with a rounded difference does
    not exceed the exact difference. *)
Lemma interp_le x F : 1 <= x -> 0 <= F <= 1 - bpow radix2 (-52) -> rnd (F * rnd x) <= x.
Proof.
  intros Hx HF. set (D := rnd x).
  assert (HD : 1 <= D).
  { unfold D. apply rnd_ge_fmt; [|exact Hx]. change 1 with (bpow radix2 0). apply fmt_bpow. lia. }
  assert (FD : fmt64 D) by apply rnd_fmt.
  assert (Hulp : ulp radix2 (FLT_exp (-1074) 53) D <= bpow radix2 (-52) * D).
  { rewrite ulp_neq_0 by lra. unfold cexp, FLT_exp.
    assert (Hm : (1 <= mag radix2 D)%Z).
    { apply mag_ge_bpow. simpl. rewrite Rabs_pos_eq by lra. exact HD. }
    rewrite Z.max_l by lia.
    replace (mag radix2 D - 53)%Z with (-52 + (mag radix2 D - 1))%Z by lia.
    rewrite bpow_plus. apply Rmult_le_compat_l; [apply bpow_ge_0|].
    pose proof (bpow_mag_le radix2 D ltac:(lra)) as HH. rewrite Rabs_pos_eq in HH by lra. exact HH. }
  assert (Hpred : D - ulp radix2 (FLT_exp (-1074) 53) D <= pred radix2 (FLT_exp (-1074) 53) D).
  { rewrite pred_eq_pos by lra. unfold pred_pos. destruct (Req_bool_spec D (bpow radix2 (mag radix2 D - 1))) as [E|N]; [|lra].
    apply Rplus_le_compat_l, Ropp_le_contravar. rewrite ulp_neq_0 by lra.
    apply bpow_le. unfold cexp. unfold FLT_exp. lia. }
  assert (Hpd : F * D <= pred radix2 (FLT_exp (-1074) 53) D).
  { apply Rle_trans with (2 := Hpred). assert (F * D <= (1 - bpow radix2 (-52)) * D) by (apply Rmult_le_compat_r; lra). lra. }
  apply Rle_trans with (pred radix2 (FLT_exp (-1074) 53) D).
  - apply rnd_le_fmt; [|exact Hpd]. unfold fmt64. apply generic_format_pred; [typeclasses eauto|exact FD].
  - unfold D, rnd. apply pred_round_le_id; typeclasses eauto.
Qed.

(** real-number version of the interpolation of sample.go:292 *)
Definition interpR (L U F : R) : R := rnd (L + rnd (F * rnd (U - L))).

Lemma interpR_bracket L U F : fmt64 L -> fmt64 U -> L <= U -> (U = L \/ 1 <= U - L) ->
  0 <= F <= 1 - bpow radix2 (-52) -> L <= interpR L U F <= U.
Proof.
  intros FL FU HLU Hgap HF. unfold interpR.
  assert (HD : 0 <= rnd (U - L)) by (rewrite <- rnd_0; apply rnd_le; lra).
  assert (HG : 0 <= rnd (F * rnd (U - L))).
  { rewrite <- rnd_0. apply rnd_le. apply Rmult_le_pos; lra. }
  split.
  - apply rnd_ge_fmt; [exact FL|lra].
  - apply rnd_le_fmt; [exact FU|]. destruct Hgap as [->|Hgap].
    + rewrite Rminus_diag_eq, rnd_0, Rmult_0_r, rnd_0 by reflexivity. lra.
    + pose proof (interp_le (U - L) F Hgap HF). lra.
Qed.

Lemma interpR_mono L U F F' : L <= U -> F <= F' -> interpR L U F <= interpR L U F'.
Proof.
  intros HLU HF. unfold interpR. apply rnd_le. apply Rplus_le_compat_l. apply rnd_le.
  apply Rmult_le_compat_r; [|exact HF]. rewrite <- rnd_0. apply rnd_le. lra.
Qed.

(** rounding int64 values: the gap of distinct results is at least 1 *)
Lemma rnd_IZR_int z : exists z', rnd (IZR z) = IZR z'.
Proof.
  unfold rnd, round, F2R. cbn [Fnum Fexp].
  destruct (Z_le_gt_dec 0 (cexp radix2 (FLT_exp (-1074) 53) (IZR z))) as [H|H].
  - exists (ZnearestE (scaled_mantissa radix2 (FLT_exp (-1074) 53) (IZR z)) * 2 ^ cexp radix2 (FLT_exp (-1074) 53) (IZR z))%Z.
    rewrite mult_IZR. f_equal. symmetry. apply (IZR_Zpower radix2). exact H.
  - exists z. change (rnd (IZR z) = IZR z). apply rnd_id.
    apply generic_format_FLT. exists (Float radix2 z 0); simpl.
    + unfold F2R; simpl. ring.
    + change (Z.pow_pos 2 53) with (2 ^ 53)%Z.
      unfold cexp, FLT_exp in H. assert (Hm : (mag radix2 (IZR z) <= 53)%Z) by lia.
      apply lt_IZR. rewrite abs_IZR. change (IZR (2 ^ 53)) with (bpow radix2 53).
      destruct (Req_dec (IZR z) 0) as [E|N].
      * rewrite E, Rabs_R0. apply bpow_gt_0.
      * eapply Rlt_le_trans; [apply bpow_mag_gt|]. now apply bpow_le.
    + lia.
Qed.

Lemma rnd_int_gap a b : (a <= b)%Z -> rnd (IZR b) = rnd (IZR a) \/ 1 <= rnd (IZR b) - rnd (IZR a).
Proof.
  intro H. destruct (rnd_IZR_int a) as [a' Ea], (rnd_IZR_int b) as [b' Eb].
  assert (Hab : rnd (IZR a) <= rnd (IZR b)) by now apply rnd_le, IZR_le.
  rewrite Ea, Eb in *. apply le_IZR in Hab.
  destruct (Z.eq_dec a' b') as [->|N]; [now left|right]. rewrite <- minus_IZR. apply IZR_le. lia.
Qed.

(** ** The loop body on a sorted non-empty slice *)
Section Sorted.
Variable l : list Z.
Hypothesis Hne : l <> [].
Hypothesis Hi : Forall is_int64 l.
Hypothesis Hlen : (slen l < 2 ^ 53)%Z.
Hypothesis Hsort : StronglySorted Z.le l.

Definition posf (p : f64) : f64 := fmul p (f_of_int (slen l + 1)).

Lemma n1_f : f2r (f_of_int (slen l + 1)) = IZR (slen l + 1) /\ fis_finite (f_of_int (slen l + 1)) = true /\ 1 <= IZR (slen l + 1).
Proof.
  pose proof (slen_pos l Hne). split; [|split].
  - apply f_of_int_exact. lia.
  - apply f_of_int_finite. apply Z.le_trans with (2 ^ 53)%Z; [lia|]. now vm_compute.
  - apply IZR_le. lia.
Qed.

Lemma posf_ext p : fis_nan p = false ->
  fis_nan (posf p) = false /\ ext (posf p) = clampB (rnd (ext p * IZR (slen l + 1))).
Proof.
  intro Hp. destruct n1_f as (E & F & H1). unfold posf.
  rewrite <- E. apply fmul_ext; [exact Hp|exact F|rewrite E; exact H1].
Qed.

Lemma posf_mono p q : fis_nan p = false -> fis_nan q = false -> ext p <= ext q -> ext (posf p) <= ext (posf q).
Proof.
  intros Hp Hq H. rewrite (proj2 (posf_ext p Hp)), (proj2 (posf_ext q Hq)).
  apply clampB_mono, rnd_le. apply Rmult_le_compat_r; [|exact H].
  destruct n1_f as (_ & _ & H1). lra.
Qed.

Lemma one_ext : ext (f_of_int 1) = 1 /\ fis_nan (f_of_int 1) = false.
Proof.
  assert (F : fis_finite (f_of_int 1) = true) by (apply f_of_int_finite; now vm_compute).
  split; [|now apply finite_not_nan]. rewrite ext_finite by exact F. apply f_of_int_exact. now vm_compute.
Qed.

Lemma n_ext : ext (f_of_int (slen l)) = IZR (slen l) /\ fis_nan (f_of_int (slen l)) = false.
Proof.
  destruct (len_f l Hne ltac:(lia)) as (E & F & _). split; [|now apply finite_not_nan].
  now rewrite ext_finite.
Qed.

Lemma cond_lo p : fis_nan p = false -> flt (posf p) (f_of_int 1) = Rlt_bool (ext (posf p)) 1.
Proof.
  intro Hp. destruct (posf_ext p Hp) as [Hn _]. destruct one_ext as [E1 N1].
  rewrite flt_ext by assumption. now rewrite E1.
Qed.
Lemma cond_hi p : fis_nan p = false -> fge (posf p) (f_of_int (slen l)) = Rle_bool (IZR (slen l)) (ext (posf p)).
Proof.
  intro Hp. destruct (posf_ext p Hp) as [Hn _]. destruct n_ext as [E1 N1].
  unfold fge. rewrite fle_ext by assumption. now rewrite E1.
Qed.

Lemma n53 : IZR (slen l) < bpow radix2 53.
Proof. change (bpow radix2 53) with (IZR (2 ^ 53)). now apply IZR_lt. Qed.

Lemma mid_finite p : fis_nan p = false -> 1 <= ext (posf p) < IZR (slen l) ->
  fis_finite (posf p) = true /\ f2r (posf p) = ext (posf p).
Proof.
  intros Hp Hm. destruct (posf_ext p Hp) as [Hn _].
  assert (F : fis_finite (posf p) = true).
  { apply ext_small_finite; [exact Hn|]. pose proof n53. pose proof BIG_pos.
    assert (bpow radix2 53 <= BIG) by (apply bpow_le; lia). lra. }
  split; [exact F|]. now rewrite ext_finite.
Qed.

Lemma mid_floor p : fis_nan p = false -> 1 <= ext (posf p) < IZR (slen l) ->
  int_of_f (posf p) = Zfloor (ext (posf p)) /\ (1 <= Zfloor (ext (posf p)) < slen l)%Z.
Proof.
  intros Hp Hm. destruct (mid_finite p Hp Hm) as [F E]. pose proof n53 as H53.
  split.
  - rewrite int_of_f_correct; [|exact F|].
    + rewrite E. apply Ztrunc_floor. lra.
    + rewrite E, Rabs_pos_eq by lra. apply Rlt_le. apply Rlt_trans with (1 := proj2 Hm).
      apply Rlt_trans with (1 := H53). change (bpow radix2 53) with (IZR (2 ^ 53)). apply IZR_lt. lia.
  - split.
    + apply Zfloor_lub. lra.
    + apply lt_IZR. apply Rle_lt_trans with (2 := proj2 Hm). apply Zfloor_lb.
Qed.

(** Complete characterisation of one score. *)
Inductive score_cases (p : f64) (s : f64) : Prop :=
| score_lo a : ext (posf p) < 1 -> sget l 0 = Ok a -> s = f_of_int a -> score_cases p s
| score_hi a : 1 <= ext (posf p) -> IZR (slen l) <= ext (posf p) -> sget l (slen l - 1) = Ok a ->
    s = f_of_int a -> score_cases p s
| score_mid k a b : 1 <= ext (posf p) < IZR (slen l) -> k = Zfloor (ext (posf p)) -> (1 <= k < slen l)%Z ->
    sget l (k - 1) = Ok a -> sget l k = Ok b -> (a <= b)%Z ->
    f2r s = interpR (rnd (IZR a)) (rnd (IZR b)) (ext (posf p) - IZR k) -> score_cases p s.

Lemma sget_int64 i a : sget l i = Ok a -> is_int64 a.
Proof. intro H. apply sget_nth in H. destruct H as [_ H]. apply nth_error_In in H. rewrite Forall_forall in Hi. auto. Qed.

Lemma sget_le i j a b : (i <= j)%Z -> sget l i = Ok a -> sget l j = Ok b -> (a <= b)%Z.
Proof.
  intros Hij Ha Hb. apply sget_nth in Ha. apply sget_nth in Hb. destruct Ha as [H0 Ha], Hb as [H1 Hb].
  eapply sorted_nth_le; [exact Hsort| |exact Ha|exact Hb]. lia.
Qed.

Lemma interp_float pos a b : is_int64 a -> is_int64 b -> (a <= b)%Z -> fis_finite pos = true ->
  1 <= f2r pos < bpow radix2 53 ->
  let s := fadd (f_of_int a) (fmul (fsub pos (ffloor pos)) (fsub (f_of_int b) (f_of_int a))) in
  fis_finite s = true /\
  f2r s = interpR (rnd (IZR a)) (rnd (IZR b)) (f2r pos - IZR (Zfloor (f2r pos))).
Proof.
  intros Ha Hb Hab Fp Hp s. unfold s; clear s.
  destruct (int64_f a Ha) as [Ea Fa]. destruct (int64_f b Hb) as [Eb Fb].
  pose proof (int64_f_bound a Ha) as Ba. pose proof (int64_f_bound b Hb) as Bb.
  destruct (ffloor_correct pos Fp) as [Ef Ff].
  destruct (frac_facts (f2r pos) (fmt_f2r pos) (proj1 Hp) (proj2 Hp)) as [Fmt Hfr].
  set (F := f2r pos - IZR (Zfloor (f2r pos))) in *.
  assert (H52 : 0 < bpow radix2 (-52)) by apply bpow_gt_0.
  destruct (fsub_correct pos (ffloor pos) Fp Ff 0) as [E1 F1]; [lia| |].
  { rewrite Ef. fold F. rewrite Rabs_pos_eq by lra. simpl. lra. }
  rewrite Ef in E1. fold F in E1. rewrite (rnd_id F Fmt) in E1.
  assert (HLU : rnd (IZR a) <= rnd (IZR b)) by now apply rnd_le, IZR_le.
  assert (B64 : Rabs (rnd (IZR b) - rnd (IZR a)) <= bpow radix2 64).
  { rewrite <- Ea, <- Eb. unfold Rminus. eapply Rle_trans; [apply Rabs_triang|]. rewrite Rabs_Ropp.
    change (bpow radix2 64) with (IZR (2 * 2 ^ 63)). rewrite mult_IZR.
    change (IZR (2 ^ 63)) with (bpow radix2 63). lra. }
  destruct (fsub_correct (f_of_int b) (f_of_int a) Fb Fa 64) as [E2 F2]; [lia|rewrite Ea, Eb; exact B64|].
  rewrite Ea, Eb in E2.
  assert (BD : Rabs (rnd (rnd (IZR b) - rnd (IZR a))) <= bpow radix2 64) by (apply Rabs_rnd_le; [lia|exact B64]).
  assert (BM : Rabs (F * rnd (rnd (IZR b) - rnd (IZR a))) <= bpow radix2 64).
  { rewrite Rabs_mult, (Rabs_pos_eq F) by lra. pose proof (Rabs_pos (rnd (rnd (IZR b) - rnd (IZR a)))).
    assert (F * Rabs (rnd (rnd (IZR b) - rnd (IZR a))) <= 1 * Rabs (rnd (rnd (IZR b) - rnd (IZR a))))
      by (apply Rmult_le_compat_r; lra). lra. }
  destruct (fmul_correct _ _ F1 F2 64) as [E3 F3]; [lia|rewrite E1, E2; exact BM|].
  rewrite E1, E2 in E3.
  set (g := fmul (fsub pos (ffloor pos)) (fsub (f_of_int b) (f_of_int a))) in *. clearbody g.
  destruct (interpR_bracket (rnd (IZR a)) (rnd (IZR b)) F) as [I1 I2]; try apply rnd_fmt; trivial.
  { now apply rnd_int_gap. }
  assert (BG : Rabs (f2r g) <= bpow radix2 64) by (rewrite E3; apply Rabs_rnd_le; [lia|exact BM]).
  destruct (fadd_correct (f_of_int a) g Fa F3 65) as [E4 F4]; [lia| |].
  { eapply Rle_trans; [apply Rabs_triang|].
    change (bpow radix2 65) with (IZR (2 * 2 ^ 64)). rewrite mult_IZR. change (IZR (2 ^ 64)) with (bpow radix2 64).
    assert (bpow radix2 63 <= bpow radix2 64) by (apply bpow_le; lia). lra. }
  split; [exact F4|]. rewrite E4, Ea, E3. reflexivity.
Qed.

Lemma percentile_cases p : fis_nan p = false ->
  exists s, percentile_of_sorted l p = Ok s /\ fis_finite s = true /\ score_cases p s.
Proof.
  intro Hp. pose proof (slen_pos l Hne) as Hn. unfold percentile_of_sorted. fold (posf p).
  cbv zeta. rewrite cond_lo, cond_hi by exact Hp.
  destruct (Rlt_bool_spec (ext (posf p)) 1) as [H1|H1].
  - destruct (sget_in_range l 0) as [a Ha]; [lia|]. rewrite Ha. cbn [res_bind].
    exists (f_of_int a). split; [reflexivity|]. split; [now apply int64_f, sget_int64 with (1 := Ha)|].
    now apply score_lo with a.
  - destruct (Rle_bool_spec (IZR (slen l)) (ext (posf p))) as [H2|H2].
    + destruct (sget_in_range l (slen l - 1)) as [a Ha]; [lia|]. rewrite Ha. cbn [res_bind].
      exists (f_of_int a). split; [reflexivity|]. split; [now apply int64_f, sget_int64 with (1 := Ha)|].
      now apply score_hi with a.
    + destruct (mid_finite p Hp (conj H1 H2)) as [F E].
      destruct (mid_floor p Hp (conj H1 H2)) as [Ei Hk]. rewrite Ei.
      set (k := Zfloor (ext (posf p))) in *.
      rewrite wrap64_id by (unfold is_int64, min_int64, max_int64; lia).
      destruct (sget_in_range l (k - 1)) as [a Ha]; [lia|]. destruct (sget_in_range l k) as [b Hb]; [lia|].
      rewrite Ha, Hb. cbn [res_bind].
      assert (Hab : (a <= b)%Z) by (apply (sget_le (k - 1) k); [lia|exact Ha|exact Hb]).
      pose proof n53 as H53.
      destruct (interp_float (posf p) a b) as [Fs Es]; trivial.
      { now apply sget_int64 with (1 := Ha). }
      { now apply sget_int64 with (1 := Hb). }
      { rewrite E. lra. }
      eexists. split; [reflexivity|]. split; [exact Fs|].
      rewrite E in Es. fold k in Es.
      apply score_mid with k a b; trivial; lra.
Qed.

Lemma first_last a b x i : sget l 0 = Ok a -> sget l (slen l - 1) = Ok b -> sget l i = Ok x -> (a <= x <= b)%Z.
Proof.
  intros Ha Hb Hx. pose proof Hx as Hx'. apply sget_nth in Hx'. destruct Hx' as [H0 Hn].
  assert (Hlt : (Z.to_nat i < length l)%nat) by (apply nth_error_Some; congruence).
  split.
  - now apply (sget_le 0 i).
  - apply (sget_le i (slen l - 1)); trivial. unfold slen. lia.
Qed.

Lemma mid_bracket p k a b : fis_nan p = false -> 1 <= ext (posf p) < IZR (slen l) -> k = Zfloor (ext (posf p)) ->
  (a <= b)%Z ->
  rnd (IZR a) <= interpR (rnd (IZR a)) (rnd (IZR b)) (ext (posf p) - IZR k) <= rnd (IZR b).
Proof.
  intros Hp Hm -> Hab. destruct (mid_finite p Hp Hm) as [F E]. pose proof n53.
  apply interpR_bracket; try apply rnd_fmt.
  - now apply rnd_le, IZR_le.
  - now apply rnd_int_gap.
  - apply frac_facts; [rewrite <- E; apply fmt_f2r|lra|lra].
Qed.

Lemma score_mono p q s t : fis_nan p = false -> fis_nan q = false -> ext p <= ext q ->
  score_cases p s -> score_cases q t -> f2r s <= f2r t.
Proof.
  intros Hp Hq Hpq Cs Ct. pose proof (posf_mono p q Hp Hq Hpq) as Hpos.
  assert (FI : forall i x, sget l i = Ok x -> f2r (f_of_int x) = rnd (IZR x)).
  { intros i x Hx. apply int64_f, sget_int64 with (1 := Hx). }
  assert (RL : forall x y, (x <= y)%Z -> rnd (IZR x) <= rnd (IZR y)) by (intros; now apply rnd_le, IZR_le).
  destruct Cs as [a Hl Ha ->|a Hl1 Hl2 Ha ->|k a b Hm Ek Hk Ha Hb Hab Es];
  destruct Ct as [c Gl Gc ->|c Gl1 Gl2 Gc ->|k' c d Gm Ek' Hk' Gc Gd Hcd Et].
  - rewrite Ha in Gc. injection Gc as <-. lra.
  - rewrite (FI _ _ Ha), (FI _ _ Gc). apply RL. apply (sget_le 0 (slen l - 1)); trivial.
    pose proof (slen_pos l Hne); lia.
  - rewrite (FI _ _ Ha), Et. eapply Rle_trans; [|apply (mid_bracket q k' c d); trivial].
    apply RL. apply (sget_le 0 (k' - 1)); trivial; lia.
  - exfalso. lra.
  - rewrite Ha in Gc. injection Gc as <-. lra.
  - exfalso. lra.
  - exfalso. lra.
  - rewrite (FI _ _ Gc), Es. eapply Rle_trans; [apply (mid_bracket p k a b); trivial|].
    apply RL. apply (sget_le k (slen l - 1)); trivial; lia.
  - assert (Hkk : (k <= k')%Z) by (subst; now apply Zfloor_le).
    destruct (Z.eq_dec k k') as [Ekk|N].
    + clear Ek'. subst k'. rewrite Ha in Gc. rewrite Hb in Gd. injection Gc as <-. injection Gd as <-.
      rewrite Es, Et. apply interpR_mono; [now apply RL|lra].
    + rewrite Es, Et. eapply Rle_trans; [apply (mid_bracket p k a b); trivial|].
      eapply Rle_trans; [|apply (mid_bracket q k' c d); trivial].
      apply RL. apply (sget_le k (k' - 1)); trivial; lia.
Qed.

End Sorted.

(** ** Accuracy of the interpolation *)
Lemma rnd_err x M : Rabs x <= M -> bpow radix2 (-1022) <= M -> Rabs (rnd x - x) <= bpow radix2 (-53) * M.
Proof.
  intros Hx HM. destruct (Rle_or_lt (bpow radix2 (-1022)) (Rabs x)) as [H|H].
  - eapply Rle_trans; [now apply rnd_relative|]. apply Rmult_le_compat_l; [apply bpow_ge_0|exact Hx].
  - assert (E : Rabs (rnd x - x) <= / 2 * bpow radix2 (-1074)).
    { unfold rnd. eapply Rle_trans; [apply error_le_half_ulp; typeclasses eauto|].
      apply Rmult_le_compat_l; [lra|].
      right. apply ulp_FLT_small; [reflexivity|]. eapply Rlt_le_trans; [exact H|]. apply bpow_le. lia. }
    eapply Rle_trans; [exact E|]. eapply Rle_trans; [|apply Rmult_le_compat_l; [apply bpow_ge_0|exact HM]].
    rewrite <- bpow_plus. replace (/ 2) with (bpow radix2 (-1)) by reflexivity. rewrite <- bpow_plus. apply bpow_le. lia.
Qed.

Lemma interp_accuracy a b F M : 0 <= F <= 1 -> 1 <= M -> Rabs (IZR a) <= M -> Rabs (IZR b) <= M ->
  Rabs (interpR (rnd (IZR a)) (rnd (IZR b)) F - (IZR a + F * (IZR b - IZR a))) <= bpow radix2 (-49) * M.
Proof.
  intros HF HM Ha Hb.
  assert (Hmin : bpow radix2 (-1022) <= 1) by (change 1 with (bpow radix2 0); apply bpow_le; lia).
  assert (Hu : 0 < bpow radix2 (-53) <= / 100).
  { split; [apply bpow_gt_0|]. apply Rle_trans with (bpow radix2 (-7)); [apply bpow_le; lia|].
    simpl. lra. }
  replace (bpow radix2 (-49)) with (16 * bpow radix2 (-53)).
  2:{ change 16 with (bpow radix2 4). rewrite <- bpow_plus. reflexivity. }
  pose proof (rnd_err (IZR a) M Ha ltac:(lra)) as E1.
  pose proof (rnd_err (IZR b) M Hb ltac:(lra)) as E2.
  unfold interpR. set (L := rnd (IZR a)) in *. set (U := rnd (IZR b)) in *.
  set (D := rnd (U - L)). set (G := rnd (F * D)). set (A := IZR a) in *. set (B := IZR b) in *.
  set (u := bpow radix2 (-53)) in *.
  assert (Hw : 0 <= u * M <= / 100 * M) by nra.
  set (w := u * M) in *.
  assert (E3 : Rabs (D - (U - L)) <= u * (2.02 * M)).
  { apply rnd_err; [|lra]. apply Rabs_le_inv in E1. apply Rabs_le_inv in E2.
    apply Rabs_le_inv in Ha. apply Rabs_le_inv in Hb. apply Rabs_le. lra. }
  replace (u * (2.02 * M)) with (2.02 * w) in E3 by (unfold w; ring).
  apply Rabs_le_inv in E1. apply Rabs_le_inv in E2. apply Rabs_le_inv in Ha. apply Rabs_le_inv in Hb.
  apply Rabs_le_inv in E3.
  assert (BD : Rabs D <= 2.06 * M) by (apply Rabs_le; lra).
  assert (BFD : Rabs (F * D) <= 2.06 * M).
  { rewrite Rabs_mult, (Rabs_pos_eq F) by lra. pose proof (Rabs_pos D). nra. }
  assert (E4 : Rabs (G - F * D) <= u * (2.06 * M)) by (apply rnd_err; [exact BFD|lra]).
  replace (u * (2.06 * M)) with (2.06 * w) in E4 by (unfold w; ring).
  apply Rabs_le_inv in E4. apply Rabs_le_inv in BFD.
  assert (E5 : Rabs (rnd (L + G) - (L + G)) <= u * (3.2 * M)) by (apply rnd_err; [apply Rabs_le; lra|lra]).
  replace (u * (3.2 * M)) with (3.2 * w) in E5 by (unfold w; ring).
  apply Rabs_le_inv in E5.
  assert (E6 : - (4.1 * w) <= F * D - F * (B - A) <= 4.1 * w).
  { replace (F * D - F * (B - A)) with (F * (D - (B - A))) by ring.
    assert (- (4.1 * w) <= D - (B - A) <= 4.1 * w) by lra.
    assert (0 <= w) by lra. split; nra. }
  replace (16 * u * M) with (16 * w) by (unfold w; ring).
  apply Rabs_le. lra.
Qed.

(** ** Statements about arbitrary slices *)
Lemma percentile_eq l p : l <> [] ->
  snd (SamplePercentile l p) = percentile_of_sorted (sortz l) p.
Proof.
  intro Hne. destruct l as [|a l]; [congruence|]. unfold SamplePercentile, SamplePercentiles.
  cbn [snd percentile_loop]. destruct (percentile_of_sorted (sortz (a :: l)) p); reflexivity.
Qed.

Lemma sortz_ne l : l <> [] -> sortz l <> [].
Proof. intros H E. apply H. pose proof (length_sortz l) as L. rewrite E in L. destruct l; [reflexivity|discriminate]. Qed.

Lemma sortz_int64 l : Forall is_int64 l -> Forall is_int64 (sortz l).
Proof. intro H. eapply Permutation_Forall; [apply sortz_perm|exact H]. Qed.

Lemma sortz_first l a : l <> [] -> Forall is_int64 l -> sget (sortz l) 0 = Ok a -> a = SampleMin l.
Proof.
  intros Hne Hi Ha. destruct (SampleMin_spec l Hne Hi) as [Im Lm].
  assert (Ia : In a l).
  { apply sget_nth in Ha. destruct Ha as [_ Ha]. apply nth_error_In in Ha.
    eapply Permutation_in; [symmetry; apply sortz_perm|exact Ha]. }
  assert (Is : In (SampleMin l) (sortz l)) by (eapply Permutation_in; [apply sortz_perm|exact Im]).
  apply In_nth_error in Is. destruct Is as [i Hn].
  assert (a <= SampleMin l)%Z.
  { apply sget_nth in Ha. destruct Ha as [_ Ha].
    eapply sorted_nth_le; [apply sortz_sorted| |exact Ha|exact Hn]. simpl; lia. }
  specialize (Lm _ Ia). lia.
Qed.

Lemma sortz_last l a : l <> [] -> Forall is_int64 l -> sget (sortz l) (slen l - 1) = Ok a -> a = SampleMax l.
Proof.
  intros Hne Hi Ha. destruct (SampleMax_spec l Hne Hi) as [Im Lm].
  assert (Ia : In a l).
  { apply sget_nth in Ha. destruct Ha as [_ Ha]. apply nth_error_In in Ha.
    eapply Permutation_in; [symmetry; apply sortz_perm|exact Ha]. }
  assert (Is : In (SampleMax l) (sortz l)) by (eapply Permutation_in; [apply sortz_perm|exact Im]).
  apply In_nth_error in Is. destruct Is as [i Hn].
  assert (SampleMax l <= a)%Z.
  { apply sget_nth in Ha. destruct Ha as [_ Ha].
    assert (Hlt : (i < length (sortz l))%nat) by (apply nth_error_Some; congruence).
    rewrite length_sortz in Hlt.
    eapply sorted_nth_le; [apply sortz_sorted| |exact Hn|exact Ha]. unfold slen. lia. }
  specialize (Lm _ Ia). lia.
Qed.

Lemma sget_order_stat l k a : (1 <= k)%Z -> sget (sortz l) (k - 1) = Ok a -> order_stat l (Z.to_nat k) a.
Proof.
  intros Hk Ha. apply sget_nth in Ha. destruct Ha as [H0 Ha].
  replace (Z.to_nat k) with (S (Z.to_nat (k - 1))) by lia. now apply sortz_order_stat.
Qed.

(** Summary used by the properties. *)
Lemma percentile_full l p : l <> [] -> Forall is_int64 l -> (slen l < 2 ^ 53)%Z -> fis_nan p = false ->
  let n := slen l in
  let pos := fmul p (f_of_int (n + 1)) in
  exists s, snd (SamplePercentile l p) = Ok s /\ fis_finite s = true /\
   (flt pos (f_of_int 1) = true -> s = f_of_int (SampleMin l)) /\
   (fge pos (f_of_int n) = true -> s = f_of_int (SampleMax l)) /\
   (flt pos (f_of_int 1) = false -> fge pos (f_of_int n) = false ->
     exists k lo up, k = Zfloor (f2r pos) /\ (1 <= k < n)%Z /\
       order_stat l (Z.to_nat k) lo /\ order_stat l (Z.to_nat (k + 1)) up /\
       fle (f_of_int lo) s = true /\ fle s (f_of_int up) = true /\
       (f2r pos = IZR k -> f2r s = f2r (f_of_int lo)) /\
       (forall M, 1 <= M -> Rabs (IZR lo) <= M -> Rabs (IZR up) <= M ->
         Rabs (f2r s - (IZR lo + (f2r pos - IZR k) * (IZR up - IZR lo))) <= bpow radix2 (-49) * M)).
Proof.
  intros Hne Hi Hlen Hp n pos.
  set (l' := sortz l). pose proof (sortz_ne l Hne) as Hne'. pose proof (sortz_int64 l Hi) as Hi'.
  assert (El : slen l' = n) by apply slen_sortz.
  assert (Hlen' : (slen l' < 2 ^ 53)%Z) by (rewrite El; exact Hlen).
  pose proof (sortz_sorted l) as Hs'. fold l' in Hne', Hi', Hs'.
  destruct (percentile_cases l' Hne' Hi' Hlen' Hs' p Hp) as (s & E & Fs & C).
  assert (Epos : posf l' p = pos) by (unfold posf; rewrite El; reflexivity).
  pose proof (cond_lo l' Hne' Hlen' p Hp) as Clo. pose proof (cond_hi l' Hne' Hlen' p Hp) as Chi.
  rewrite Epos, ?El in *.
  pose proof (slen_pos l Hne) as Hn1. fold n in Hn1.
  assert (Hn1R : 1 <= IZR n) by now apply IZR_le.
  exists s. rewrite percentile_eq by exact Hne. fold l'. split; [exact E|]. split; [exact Fs|].
  rewrite Clo, Chi.
  destruct C as [a Hl Ha Hs|a Hl1 Hl2 Ha Hs|k a b Hm Ek Hk Ha Hb Hab Es]; rewrite ?Epos, ?El in *.
  - rewrite Rlt_bool_true by exact Hl. rewrite Rle_bool_false by lra.
    repeat split; try discriminate. intros _. rewrite Hs. f_equal. now apply sortz_first.
  - rewrite Rlt_bool_false by exact Hl1. rewrite Rle_bool_true by exact Hl2.
    repeat split; try discriminate. intros _. rewrite Hs. f_equal. now apply sortz_last.
  - rewrite Rlt_bool_false by lra. rewrite Rle_bool_false by lra.
    repeat split; try discriminate. intros _ _. clear Hlen'.
    assert (Hlen' : (slen l' < 2 ^ 53)%Z) by (rewrite El; exact Hlen).
    assert (Hm' : 1 <= ext (posf l' p) < IZR (slen l')) by (rewrite Epos, El; exact Hm).
    destruct (mid_finite l' Hne' Hlen' p Hp Hm') as [Fp Ep]. rewrite Epos in Fp, Ep.
    exists k, a, b. rewrite Ep. repeat split; trivial; try lia.
    + eapply Permutation_in; [symmetry; apply sortz_perm|]. apply sget_nth in Ha. destruct Ha as [_ Ha].
      now apply nth_error_In in Ha.
    + now apply sget_order_stat.
    + now apply sget_order_stat.
    + eapply Permutation_in; [symmetry; apply sortz_perm|]. apply sget_nth in Hb. destruct Hb as [_ Hb].
      now apply nth_error_In in Hb.
    + apply (sget_order_stat l (k + 1) b); [lia|]. replace (k + 1 - 1)%Z with k by lia. exact Hb.
    + apply (sget_order_stat l (k + 1) b); [lia|]. replace (k + 1 - 1)%Z with k by lia. exact Hb.
    + destruct (int64_f a) as [Ea Fa]; [eapply sget_int64; [exact Hi'|exact Ha]|].
      rewrite fle_correct by assumption. rewrite Ea, Es. apply Rle_bool_true.
      rewrite <- Epos. apply (mid_bracket l' Hne' Hlen' p k a b); trivial. now rewrite Epos.
    + destruct (int64_f b) as [Eb Fb]; [eapply sget_int64; [exact Hi'|exact Hb]|].
      rewrite fle_correct by assumption. rewrite Eb, Es. apply Rle_bool_true.
      rewrite <- Epos. apply (mid_bracket l' Hne' Hlen' p k a b); trivial. now rewrite Epos.
    + intro Ei. destruct (int64_f a) as [Ea Fa]; [eapply sget_int64; [exact Hi'|exact Ha]|].
      rewrite Ea, Es, Ei. unfold interpR. rewrite Rminus_diag_eq, Rmult_0_l, rnd_0, Rplus_0_r by reflexivity.
      apply rnd_id, rnd_fmt.
    + intros M HM HaM HbM. rewrite Es. apply interp_accuracy; trivial.
      rewrite Ek. pose proof (Zfloor_lb (ext pos)). pose proof (Zfloor_ub (ext pos)). lra.
Qed.

Lemma percentile_within l p s : l <> [] -> Forall is_int64 l -> (slen l < 2 ^ 53)%Z -> fis_nan p = false ->
  snd (SamplePercentile l p) = Ok s ->
  fle (f_of_int (SampleMin l)) s = true /\ fle s (f_of_int (SampleMax l)) = true.
Proof.
  intros Hne Hi Hlen Hp Hs.
  destruct (percentile_full l p Hne Hi Hlen Hp) as (s' & E & Fs & H1 & H2 & H3).
  rewrite E in Hs. injection Hs as <-. cbv zeta in *.
  destruct (SampleMin_spec l Hne Hi) as [Imin Lmin]. destruct (SampleMax_spec l Hne Hi) as [Imax Lmax].
  pose proof Hi as Hi'. rewrite Forall_forall in Hi'.
  destruct (int64_f _ (Hi' _ Imin)) as [E1 F1]. destruct (int64_f _ (Hi' _ Imax)) as [E2 F2].
  rewrite !fle_correct by assumption. rewrite E1, E2.
  assert (RL : forall x y, (x <= y)%Z -> rnd (IZR x) <= rnd (IZR y)) by (intros; now apply rnd_le, IZR_le).
  destruct (flt (fmul p (f_of_int (slen l + 1))) (f_of_int 1)) eqn:C1.
  - rewrite (H1 eq_refl), E1. split; apply Rle_bool_true; apply RL; auto; lia.
  - destruct (fge (fmul p (f_of_int (slen l + 1))) (f_of_int (slen l))) eqn:C2.
    + rewrite (H2 eq_refl), E2. split; apply Rle_bool_true; apply RL; auto; lia.
    + destruct (H3 eq_refl eq_refl) as (k & lo & up & Ek & Hk & [Il _] & [Iu _] & G1 & G2 & _).
      destruct (int64_f _ (Hi' _ Il)) as [E3 F3]. destruct (int64_f _ (Hi' _ Iu)) as [E4 F4].
      rewrite fle_correct in G1, G2 by assumption. rewrite E3 in G1. rewrite E4 in G2.
      destruct (Rle_bool_spec (rnd (IZR lo)) (f2r s')); [|discriminate].
      destruct (Rle_bool_spec (f2r s') (rnd (IZR up))); [|discriminate].
      pose proof (RL _ _ (Lmin _ Il)). pose proof (RL _ _ (Lmax _ Iu)).
      split; apply Rle_bool_true; lra.
Qed.

Lemma percentile_mono l p q : l <> [] -> Forall is_int64 l -> (slen l < 2 ^ 53)%Z -> fle p q = true ->
  exists s t, snd (SamplePercentile l p) = Ok s /\ snd (SamplePercentile l q) = Ok t /\ fle s t = true.
Proof.
  intros Hne Hi Hlen Hpq. destruct (fle_ext_true p q Hpq) as (Hp & Hq & Hle).
  pose proof (sortz_ne l Hne) as Hne'. pose proof (sortz_int64 l Hi) as Hi'.
  assert (Hlen' : (slen (sortz l) < 2 ^ 53)%Z) by now rewrite slen_sortz.
  pose proof (sortz_sorted l) as Hs'.
  destruct (percentile_cases _ Hne' Hi' Hlen' Hs' p Hp) as (s & E1 & Fs & Cs).
  destruct (percentile_cases _ Hne' Hi' Hlen' Hs' q Hq) as (t & E2 & Ft & Ct).
  exists s, t. rewrite !percentile_eq by exact Hne. repeat split; trivial.
  rewrite fle_correct by assumption. apply Rle_bool_true.
  exact (score_mono _ Hne' Hi' Hlen' Hs' p q s t Hp Hq Hle Cs Ct).
Qed.

(** NaN percentile: [int(NaN)-1] wraps to a huge index. *)
Lemma fmul_nan p c : fis_nan p = true -> fis_nan (fmul p c) = true.
Proof. destruct p; try discriminate. intros _. destruct c; reflexivity. Qed.

Lemma percentile_nan l p : l <> [] -> (slen l < 2 ^ 53)%Z -> fis_nan p = true ->
  percentile_of_sorted l p = Panic msg_index.
Proof.
  intros Hne Hl Hp. unfold percentile_of_sorted. cbv zeta.
  pose proof (fmul_nan p (f_of_int (slen l + 1)) Hp) as Hn.
  set (pos := fmul p _) in *. clearbody pos.
  assert (E1 : flt pos (f_of_int 1) = false).
  { destruct (flt pos (f_of_int 1)) eqn:E; [|reflexivity]. apply flt_ext_true in E. destruct E as [E _]. congruence. }
  assert (E2 : fge pos (f_of_int (slen l)) = false).
  { unfold fge. destruct (fle (f_of_int (slen l)) pos) eqn:E; [|reflexivity]. apply fle_ext_true in E. destruct E as (_ & E & _). congruence. }
  rewrite E1, E2.
  assert (Ei : int_of_f pos = min_int64).
  { unfold int_of_f. destruct pos; try discriminate. reflexivity. }
  rewrite Ei. change (wrap64 (min_int64 - 1)) with max_int64.
  assert (E3 : sget l max_int64 = Panic msg_index).
  { apply sget_out. unfold max_int64. lia. }
  now rewrite E3.
Qed.

Lemma percentile_loop_ok l ps : l <> [] -> Forall is_int64 l -> (slen l < 2 ^ 53)%Z -> StronglySorted Z.le l ->
  (forall p, In p ps -> fis_nan p = false) ->
  exists ss, percentile_loop l ps = Ok ss /\ length ss = length ps /\
    forall i p, nth_error ps i = Some p -> exists s, nth_error ss i = Some s /\ percentile_of_sorted l p = Ok s.
Proof.
  intros Hne Hi Hl Hs. induction ps as [|p ps IH]; intro Hp; cbn [percentile_loop].
  - exists []. repeat split. intros [|i] p; discriminate.
  - destruct (percentile_cases l Hne Hi Hl Hs p (Hp p (or_introl eq_refl))) as (s & E & _).
    destruct IH as (ss & Es & Ls & Ns); [intros; apply Hp; now right|].
    rewrite E, Es. cbn [res_bind]. exists (s :: ss). repeat split; [simpl; lia|].
    intros [|i] q Hq; cbn [nth_error] in *; [|now apply Ns].
    injection Hq as <-. exists s. auto.
Qed.

Lemma percentile_loop_nan l ps : l <> [] -> (slen l < 2 ^ 53)%Z ->
  is_ok (percentile_loop l ps) = true -> forall p, In p ps -> fis_nan p = false.
Proof.
  intros Hne Hl. induction ps as [|q ps IH]; cbn [percentile_loop]; intros Hok p Hp; [contradiction|].
  destruct (percentile_of_sorted l q) as [s|] eqn:E; cbn [res_bind is_ok] in Hok; [|discriminate].
  destruct Hp as [<-|Hp].
  - destruct (fis_nan q) eqn:N; [|reflexivity]. rewrite percentile_nan in E by assumption. discriminate.
  - apply IH; [|exact Hp]. destruct (percentile_loop l ps); [reflexivity|discriminate].
Qed.

Lemma percentiles_ok_iff l ps : l <> [] -> Forall is_int64 l -> (slen l < 2 ^ 53)%Z ->
  (is_ok (snd (SamplePercentiles l ps)) = true <-> forall p, In p ps -> fis_nan p = false).
Proof.
  intros Hne Hi Hl. destruct l as [|a l0] eqn:El; [congruence|]. rewrite <- El in *.
  assert (E : snd (SamplePercentiles l ps) = percentile_loop (sortz l) ps) by (subst l; reflexivity).
  rewrite E. clear El E. pose proof (sortz_ne l Hne). assert (slen (sortz l) < 2 ^ 53)%Z by now rewrite slen_sortz.
  split.
  - now apply percentile_loop_nan.
  - intro Hp. destruct (percentile_loop_ok (sortz l) ps) as (ss & -> & _); trivial.
    + now apply sortz_int64.
    + apply sortz_sorted.
Qed.

Lemma percentiles_pointwise l ps : l <> [] -> Forall is_int64 l -> (slen l < 2 ^ 53)%Z ->
  (forall p, In p ps -> fis_nan p = false) ->
  exists ss, snd (SamplePercentiles l ps) = Ok ss /\ length ss = length ps /\
    forall i p, nth_error ps i = Some p -> exists s, nth_error ss i = Some s /\ snd (SamplePercentile l p) = Ok s.
Proof.
  intros Hne Hi Hl Hp. destruct l as [|a l0] eqn:El; [congruence|]. rewrite <- El in *.
  assert (E : snd (SamplePercentiles l ps) = percentile_loop (sortz l) ps) by (subst l; reflexivity).
  rewrite E. clear El E.
  destruct (percentile_loop_ok (sortz l) ps) as (ss & E & Ls & Ns); trivial.
  - now apply sortz_ne.
  - now apply sortz_int64.
  - now rewrite slen_sortz.
  - apply sortz_sorted.
  - exists ss. repeat split; trivial. intros i p Hn. rewrite percentile_eq by exact Hne. now apply Ns.
Qed.
