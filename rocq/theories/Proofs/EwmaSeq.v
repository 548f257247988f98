From Coq Require Import ZArith List Lia Reals Lra Psatz.
From Flocq Require Import Core.
From Verif.Model Require Import GoInt GoFloat Conc Ewma.
From Verif.Spec Require Import EwmaSpec.
From Verif.Proofs Require Import IntFacts FloatFacts ExtFacts StatsFloat StatsPercentile.
Import ListNotations.
Open Scope Z_scope.

Lemma tick_seq w : w_mutex w = false ->
  cseq (ewma_body WTick) w = Some
    (MkEwma (wrap64 (w_uncounted w + wrap64 (- w_uncounted w))) (w_alpha w)
       (float64bits (if w_init w then recur (w_alpha w) (float64frombits (w_rate w)) (instant_rate (w_uncounted w))
                     else instant_rate (w_uncounted w))) true false, WNone).
Proof.
  destruct w as [n a r i m]. cbn [w_mutex w_init w_uncounted w_alpha w_rate]. intros ->.
  destruct i; cbn; reflexivity.
Qed.

Lemma update_seq w n : cseq (ewma_body (WUpdate n)) w = Some (set_uncounted (wrap64 (w_uncounted w + n)) w, WNone).
Proof. reflexivity. Qed.
Lemma rate_seq w : cseq (ewma_body WRate) w = Some (w, WVal (rate_of (w_rate w))).
Proof. reflexivity. Qed.
Lemma snapshot_seq w : cseq (ewma_body WSnapshot) w = Some (w, WSnap (rate_of (w_rate w))).
Proof. reflexivity. Qed.

Lemma ledger_snoc h op : tick_ledger (h ++ [op]) = ledger_step (tick_ledger h) op.
Proof. unfold tick_ledger. now rewrite fold_left_app. Qed.

Lemma float_average_snoc alpha cs c : cs <> [] ->
  float_average alpha (cs ++ [c]) = recur alpha (float_average alpha cs) (instant_rate c).
Proof. destruct cs as [|c0 cs]; [congruence|]. intros _. cbn [app float_average]. rewrite fold_left_app. reflexivity. Qed.

Lemma wrap_cancel n : is_int64 n -> wrap64 (n + wrap64 (- n)) = 0.
Proof. intro H. rewrite wrap64_add_r. now rewrite Z.add_opp_diag_r. Qed.

Definition wcounts (h : list ewma_op) : list Z := map wrap64 (tick_counts h).

Lemma ewma_run_inv alpha h :
  let w := ewma_run (NewEWMA alpha) h in
  w_uncounted w = wrap64 (pending h) /\ w_alpha w = alpha /\ w_mutex w = false /\
  w_init w = negb (match tick_counts h with [] => true | _ => false end) /\
  w_rate w = float64bits (float_average alpha (wcounts h)).
Proof.
  induction h as [|op h IH] using rev_ind.
  - simpl. repeat split.
  - cbv zeta in *. unfold ewma_run in *. rewrite fold_left_app. cbn [fold_left].
    set (w := fold_left ewma_seq h (NewEWMA alpha)) in *. clearbody w.
    destruct IH as (Hu & Ha & Hm & Hi & Hr). unfold ewma_seq, wcounts, tick_counts, pending in *. rewrite ledger_snoc.
    destruct op as [n| | |]; cbn [ledger_step fst snd].
    + rewrite update_seq. cbn. rewrite Hu, wrap64_add_l. auto.
    + rewrite tick_seq by exact Hm. cbn [w_uncounted w_alpha w_mutex w_init w_rate].
      rewrite wrap_cancel by (rewrite Hu; apply wrap64_range).
      split; [reflexivity|]. split; [exact Ha|]. split; [reflexivity|].
      rewrite map_app. cbn [map]. split.
      * destruct (fst (tick_ledger h)); reflexivity.
      * f_equal. rewrite Hi, Hr, Ha, Hu, frombits_bits.
        destruct (fst (tick_ledger h)) as [|c cs] eqn:E; cbn [negb].
        -- reflexivity.
        -- rewrite float_average_snoc by discriminate. reflexivity.
    + rewrite rate_seq. auto.
    + rewrite snapshot_seq. auto.
Qed.

(** the ledger accounts for every event *)
Lemma total_snoc h op : total_events (h ++ [op]) = total_events h + match op with WUpdate n => n | _ => 0 end.
Proof.
  unfold total_events. induction h as [|o h IH]; [destruct op; simpl; lia|].
  cbn [app fold_right]. rewrite IH. destruct o; lia.
Qed.
Lemma ledger_total h : fold_right Z.add 0 (tick_counts h) + pending h = total_events h.
Proof.
  unfold tick_counts, pending. induction h as [|op h IH] using rev_ind; [reflexivity|].
  rewrite ledger_snoc, total_snoc. destruct op; cbn [ledger_step fst snd]; try lia.
  rewrite fold_right_app. cbn [fold_right].
  assert (F : forall l a, fold_right Z.add a l = fold_right Z.add 0 l + a).
  { intros l a. induction l; simpl; lia. }
  rewrite F. lia.
Qed.

(** ** the exact recurrence *)
Open Scope R_scope.
Lemma ideal_snoc alpha cs c : cs <> [] ->
  ideal_average alpha (cs ++ [c]) = ideal_average alpha cs + alpha * (IZR c / 5000000000 - ideal_average alpha cs).
Proof. destruct cs as [|c0 cs]; [congruence|]. intros _. cbn [app ideal_average]. now rewrite fold_left_app. Qed.

Lemma ideal_weighted alpha cs : ideal_average alpha cs = weighted alpha (rev cs).
Proof.
  induction cs as [|c cs IH] using rev_ind; [reflexivity|].
  rewrite rev_app_distr. cbn [rev app]. destruct cs as [|c0 cs'] eqn:E.
  - reflexivity.
  - rewrite <- E in *. rewrite ideal_snoc by (subst; discriminate). rewrite IH.
    assert (N : rev cs <> []) by (subst; simpl; destruct (rev cs'); discriminate).
    cbn [weighted]. destruct (rev cs) as [|x l] eqn:Er; [congruence|]. ring.
Qed.

(** ** float bounds *)
Lemma f5000000000 : f2r (f_of_int 5000000000) = 5000000000 /\ fis_finite (f_of_int 5000000000) = true.
Proof. split; [rewrite f_of_int_exact by lia; reflexivity|apply f_of_int_finite; lia]. Qed.

Lemma pow31 : bpow radix2 31 = 2147483648. Proof. reflexivity. Qed.

Lemma instant_f c : (0 <= c < 2 ^ 63)%Z ->
  fis_finite (instant_rate c) = true /\ f2r (instant_rate c) = rnd (rnd (IZR c) / 5000000000) /\
  0 <= f2r (instant_rate c) <= bpow radix2 31.
Proof.
  intro Hc. destruct f5000000000 as [E5 F5].
  destruct (f_of_int_correct c) as [Ec Fc]; [lia|].
  assert (B : 0 <= rnd (IZR c) <= bpow radix2 63).
  { split.
    - rewrite <- rnd_0. apply rnd_le. apply IZR_le. lia.
    - apply rnd_le_fmt; [apply fmt_bpow; lia|]. change (bpow radix2 63) with (IZR (2 ^ 63)). apply IZR_le. lia. }
  assert (Hq : 0 <= rnd (IZR c) / 5000000000 <= bpow radix2 31).
  { assert (P : bpow radix2 63 = 9223372036854775808) by reflexivity. rewrite pow31. rewrite P in B.
    split; [apply Rmult_le_pos; lra|]. apply Rmult_le_reg_r with 5000000000; [lra|]. unfold Rdiv. rewrite Rmult_assoc, Rinv_l by lra. lra. }
  unfold instant_rate.
  destruct (fdiv_correct (f_of_int c) (f_of_int 5000000000) Fc 31) as [E F]; [lia|rewrite E5; lra| |].
  { rewrite Ec, E5. rewrite Rabs_pos_eq by apply Hq. apply Hq. }
  split; [exact F|]. rewrite Ec, E5 in E. split; [exact E|]. rewrite E. split.
  - rewrite <- rnd_0. apply rnd_le. apply Hq.
  - apply rnd_le_fmt; [apply fmt_bpow; lia|apply Hq].
Qed.

Lemma instant_mono c c' : (0 <= c <= c')%Z -> (c' < 2 ^ 63)%Z -> f2r (instant_rate c) <= f2r (instant_rate c').
Proof.
  intros H H'. destruct (instant_f c ltac:(lia)) as (_ & -> & _), (instant_f c' ltac:(lia)) as (_ & -> & _).
  apply rnd_le. unfold Rdiv. apply Rmult_le_compat_r; [lra|]. apply rnd_le, IZR_le. lia.
Qed.

(** the recurrence in terms of reals *)
Lemma recur_f alpha cur ir : fis_finite alpha = true -> fis_finite cur = true -> fis_finite ir = true ->
  0 <= f2r alpha <= 1 -> 0 <= f2r cur <= bpow radix2 32 -> 0 <= f2r ir <= bpow radix2 31 ->
  fis_finite (recur alpha cur ir) = true /\
  f2r (recur alpha cur ir) = rnd (f2r cur + rnd (f2r alpha * rnd (f2r ir - f2r cur))).
Proof.
  intros Fa Fc Fi Ha Hc Hi. assert (P31 := pow31). assert (P32 : bpow radix2 32 = 4294967296) by reflexivity.
  assert (P33 : bpow radix2 33 = 8589934592) by reflexivity. assert (P34 : bpow radix2 34 = 17179869184) by reflexivity.
  destruct (fsub_correct ir cur Fi Fc 32) as [Es Fs]; [lia|apply Rabs_le; lra|].
  assert (Bs : Rabs (rnd (f2r ir - f2r cur)) <= bpow radix2 32) by (apply Rabs_rnd_le; [lia|apply Rabs_le; lra]).
  destruct (fmul_correct alpha (fsub ir cur) Fa Fs 32) as [Em Fm]; [lia| |].
  { rewrite Es, Rabs_mult. rewrite (Rabs_pos_eq (f2r alpha)) by lra.
    pose proof (Rabs_pos (rnd (f2r ir - f2r cur))). nra. }
  assert (Bm : Rabs (f2r (fmul alpha (fsub ir cur))) <= bpow radix2 32).
  { rewrite Em. apply Rabs_rnd_le; [lia|]. rewrite Es, Rabs_mult, (Rabs_pos_eq (f2r alpha)) by lra.
    pose proof (Rabs_pos (rnd (f2r ir - f2r cur))). nra. }
  destruct (fadd_correct cur (fmul alpha (fsub ir cur)) Fc Fm 34) as [E F]; [lia| |].
  { apply Rabs_le. apply Rabs_le_inv in Bm. lra. }
  unfold recur. split; [exact F|]. rewrite E, Em, Es. reflexivity.
Qed.

Lemma recur_nonneg alpha cur ir : fis_finite alpha = true -> fis_finite cur = true -> fis_finite ir = true ->
  0 <= f2r alpha <= 1 -> 0 <= f2r cur <= bpow radix2 32 -> 0 <= f2r ir <= bpow radix2 31 ->
  0 <= f2r (recur alpha cur ir).
Proof.
  intros Fa Fc Fi Ha Hc Hi. destruct (recur_f alpha cur ir) as [_ ->]; trivial.
  rewrite <- rnd_0. apply rnd_le.
  assert (Hd : - f2r cur <= rnd (f2r ir - f2r cur)).
  { apply rnd_ge_fmt; [apply fmt_opp, fmt_f2r|]. lra. }
  assert (Hm : - f2r cur <= rnd (f2r alpha * rnd (f2r ir - f2r cur))).
  { apply rnd_ge_fmt; [apply fmt_opp, fmt_f2r|]. nra. }
  lra.
Qed.

(** bounded by twice any bound of the rates, for every alpha up to 1 *)
Lemma recur_le2 alpha cur ir M : fis_finite alpha = true -> fis_finite cur = true -> fis_finite ir = true ->
  0 <= f2r alpha <= 1 -> 0 <= f2r cur <= bpow radix2 32 -> 0 <= f2r ir <= bpow radix2 31 ->
  f2r ir <= M -> f2r cur <= 2 * M -> fmt64 M -> fmt64 (2 * M) ->
  f2r (recur alpha cur ir) <= 2 * M.
Proof.
  intros Fa Fc Fi Ha Hc Hi HiM HcM FM F2M. destruct (recur_f alpha cur ir) as [_ ->]; trivial.
  apply rnd_le_fmt; [exact F2M|].
  destruct (Rle_or_lt (f2r cur) (f2r ir)) as [H|H].
  - assert (Hd : rnd (f2r ir - f2r cur) <= M) by (apply rnd_le_fmt; [exact FM|lra]).
    assert (H0 : 0 <= rnd (f2r ir - f2r cur)) by (rewrite <- rnd_0; apply rnd_le; lra).
    assert (Hm : rnd (f2r alpha * rnd (f2r ir - f2r cur)) <= M) by (apply rnd_le_fmt; [exact FM|nra]).
    lra.
  - assert (Hd : rnd (f2r ir - f2r cur) <= 0) by (rewrite <- rnd_0; apply rnd_le; lra).
    assert (Hm : rnd (f2r alpha * rnd (f2r ir - f2r cur)) <= 0) by (rewrite <- rnd_0; apply rnd_le; nra).
    lra.
Qed.

(** differences of floats are multiples of the smallest subnormal; small ones
    are exact *)
Lemma small_diff_exact x y : fmt64 x -> fmt64 y -> Rabs (x - y) <= bpow radix2 (-1022) -> fmt64 (x - y).
Proof.
  intros Fx Fy H.
  assert (G : forall z, fmt64 z -> exists n, z = IZR n * bpow radix2 (-1074)).
  { intros z Fz. unfold fmt64 in Fz. apply generic_format_FIX_FLT in Fz. 
    apply FIX_format_generic in Fz. destruct Fz as [f Ef Hf]. exists (Fnum f). rewrite Ef. unfold F2R. now rewrite Hf. }
  destruct (G x Fx) as [n ->], (G y Fy) as [m ->].
  replace (IZR n * bpow radix2 (-1074) - IZR m * bpow radix2 (-1074)) with (IZR (n - m) * bpow radix2 (-1074)) in *
    by (rewrite minus_IZR; ring).
  apply generic_format_FLT. apply FLT_spec with (Float radix2 (n - m) (-1074)); [reflexivity| |simpl; lia].
  simpl. apply lt_IZR. rewrite abs_IZR.
  rewrite Rabs_mult, (Rabs_pos_eq (bpow radix2 (-1074))) in H by apply bpow_ge_0.
  apply Rle_lt_trans with (bpow radix2 52).
  - apply Rmult_le_reg_r with (bpow radix2 (-1074)); [apply bpow_gt_0|].
    apply (Rle_trans _ _ _ H). rewrite <- bpow_plus. apply Rle_refl.
  - change (bpow radix2 52) with (IZR (2 ^ 52)). apply IZR_lt. lia.
Qed.

(** never above the largest instantaneous rate when alpha is at most 1/2 *)
Lemma recur_le alpha cur ir M : fis_finite alpha = true -> fis_finite cur = true -> fis_finite ir = true ->
  0 <= f2r alpha <= / 2 -> 0 <= f2r cur <= bpow radix2 32 -> 0 <= f2r ir <= bpow radix2 31 ->
  f2r ir <= M -> f2r cur <= M -> fmt64 M ->
  f2r (recur alpha cur ir) <= M.
Proof.
  intros Fa Fc Fi Ha Hc Hi HiM HcM FM. destruct (recur_f alpha cur ir) as [_ ->]; trivial; [lra|].
  apply rnd_le_fmt; [exact FM|].
  destruct (Rle_or_lt (f2r ir) (f2r cur)) as [H|H].
  { assert (Hd : rnd (f2r ir - f2r cur) <= 0) by (rewrite <- rnd_0; apply rnd_le; lra).
    assert (Hm : rnd (f2r alpha * rnd (f2r ir - f2r cur)) <= 0) by (rewrite <- rnd_0; apply rnd_le; nra).
    lra. }
  set (x := f2r ir - f2r cur) in *. set (d := rnd x).
  assert (Hx : 0 < x) by (unfold x; lra).
  assert (Hdp : 0 <= d) by (unfold d; rewrite <- rnd_0; apply rnd_le; lra).
  assert (P : rnd (f2r alpha * d) <= rnd (/ 2 * d)) by (apply rnd_le; nra).
  assert (Q : rnd (/ 2 * d) <= x).
  { destruct (Rle_or_lt x (bpow radix2 (-1022))) as [S|S].
    - assert (E : d = x).
      { unfold d. apply rnd_id. apply small_diff_exact; [apply fmt_f2r|apply fmt_f2r|]. fold x. now rewrite Rabs_pos_eq by lra. }
      rewrite <- E. apply rnd_le_fmt; [apply rnd_fmt|lra].
    - assert (Ed : Rabs (d - x) <= bpow radix2 (-53) * x).
      { unfold d. apply rnd_err; [rewrite Rabs_pos_eq; lra|lra]. }
      assert (D : bpow radix2 (-1022) <= d) by (unfold d; apply rnd_ge_fmt; [apply fmt_bpow; lia|lra]).
      assert (E2 : Rabs (rnd (/ 2 * d) - / 2 * d) <= bpow radix2 (-53) * d).
      { apply rnd_err; [rewrite Rabs_pos_eq; lra|exact D]. }
      apply Rabs_le_inv in Ed. apply Rabs_le_inv in E2.
      assert (U : bpow radix2 (-53) = / 9007199254740992) by reflexivity. rewrite U in *.
      assert (U2 : / 9007199254740992 < / 16) by lra. lra. }
  unfold x in Q. lra.
Qed.

Lemma fmt_double M : fmt64 M -> fmt64 (2 * M).
Proof.
  intro F. apply FLT_format_generic in F; [|typeclasses eauto]. destruct F as [f Ef Hm He].
  apply generic_format_FLT. apply FLT_spec with (Float radix2 (Fnum f) (Fexp f + 1)).
  - rewrite Ef. unfold F2R. simpl. rewrite bpow_plus. change (bpow radix2 1) with 2. ring.
  - exact Hm.
  - simpl. lia.
Qed.


Lemma counts_upto_app B cs c : counts_upto B (cs ++ [c]) -> counts_upto B cs /\ (0 <= c <= B)%Z.
Proof. intro H. apply Forall_app in H. destruct H as [H1 H2]. split; [exact H1|]. now inversion H2. Qed.

Lemma average_bounds alpha B cs : unit_alpha alpha -> (0 <= B < 2 ^ 63)%Z -> counts_upto B cs ->
  fis_finite (float_average alpha cs) = true /\ 0 <= f2r (float_average alpha cs) <= 2 * f2r (instant_rate B) /\
  (f2r alpha <= / 2 -> f2r (float_average alpha cs) <= f2r (instant_rate B)).
Proof.
  intros [Fa Ha] HB. destruct (instant_f B HB) as (_ & _ & BM). assert (FM := fmt_f2r (instant_rate B)).
  assert (P31 := pow31). assert (P32 : bpow radix2 32 = 4294967296) by reflexivity.
  induction cs as [|c cs IH] using rev_ind; intro HC.
  - cbn [float_average]. rewrite f2r_zero. split; [reflexivity|]. split; [lra|]. intros _. lra.
  - apply counts_upto_app in HC. destruct HC as [HC Hc]. specialize (IH HC).
    destruct (instant_f c ltac:(lia)) as (Fi & _ & Bi). pose proof (instant_mono c B ltac:(lia) ltac:(lia)) as Mi.
    destruct cs as [|c0 cs'] eqn:E.
    + change (float_average alpha ([] ++ [c])) with (instant_rate c). split; [exact Fi|]. split; [lra|]. intros _. lra.
    + rewrite <- E in *. rewrite float_average_snoc by (subst; discriminate).
      destruct IH as (F & [B0 B1] & B2). assert (Hcur : 0 <= f2r (float_average alpha cs) <= bpow radix2 32) by lra.
      split; [now apply recur_f|]. split.
      * split; [now apply recur_nonneg|]. apply recur_le2; trivial. now apply fmt_double.
      * intro Hh. apply recur_le; trivial; [lra|]. now apply B2.
Qed.

Lemma instant_error c B : (0 <= c <= B)%Z -> (1 <= B < 2 ^ 63)%Z ->
  Rabs (f2r (instant_rate c) - IZR c / 5000000000) <= bpow radix2 (-51) * (IZR B / 5000000000).
Proof.
  intros Hc HB. destruct (instant_f c ltac:(lia)) as (_ & -> & _).
  assert (U : bpow radix2 (-53) = / 9007199254740992) by reflexivity.
  assert (U1 : bpow radix2 (-51) = 4 * / 9007199254740992) by (change (-51)%Z with (2 + -53)%Z; rewrite bpow_plus, U; reflexivity).
  assert (HB1 : 1 <= IZR B) by (apply IZR_le; lia).
  assert (Hcr : 0 <= IZR c <= IZR B) by (split; apply IZR_le; lia).
  assert (T : bpow radix2 (-1022) <= / 10000000000).
  { apply Rle_trans with (bpow radix2 (-40)); [apply bpow_le; lia|]. change (bpow radix2 (-40)) with (/ 1099511627776). lra. }
  assert (E1 : Rabs (rnd (IZR c) - IZR c) <= bpow radix2 (-53) * IZR B).
  { apply rnd_err; [rewrite Rabs_pos_eq; lra|]. lra. }
  set (x := rnd (IZR c)) in *. rewrite U in E1. apply Rabs_le_inv in E1.
  set (b := IZR B / 5000000000). assert (Eb : IZR B = 5000000000 * b) by (unfold b; field).
  assert (Hx : Rabs (x / 5000000000) <= 2 * b).
  { apply Rabs_le. lra. }
  assert (E2 : Rabs (rnd (x / 5000000000) - x / 5000000000) <= bpow radix2 (-53) * (2 * b)).
  { apply rnd_err; [exact Hx|]. lra. }
  rewrite U in E2. apply Rabs_le_inv in E2. rewrite U1. apply Rabs_le. lra.
Qed.

(** distance from exact arithmetic *)
Lemma average_error alpha B cs : unit_alpha alpha -> (1 <= B < 2 ^ 63)%Z -> counts_upto B cs ->
  Rabs (f2r (float_average alpha cs) - ideal_average (f2r alpha) cs)
    <= INR (length cs) * (bpow radix2 (-49) * (IZR B / 5000000000)) /\
  f2r alpha * Rabs (f2r (float_average alpha cs) - ideal_average (f2r alpha) cs)
    <= bpow radix2 (-49) * (IZR B / 5000000000).
Proof.
  intros UA HB. assert (UA' := UA). destruct UA' as [Fa Ha].
  set (b := IZR B / 5000000000).
  assert (U : bpow radix2 (-53) = / 9007199254740992) by reflexivity.
  assert (U1 : bpow radix2 (-51) = 4 * / 9007199254740992) by (change (-51)%Z with (2 + -53)%Z; rewrite bpow_plus, U; reflexivity).
  assert (U2 : bpow radix2 (-49) = 16 * / 9007199254740992) by (change (-49)%Z with (4 + -53)%Z; rewrite bpow_plus, U; reflexivity).
  assert (HB1 : 1 <= IZR B) by (apply IZR_le; lia).
  assert (Hb : / 5000000000 <= b) by (unfold b; lra).
  assert (T : bpow radix2 (-1022) <= / 10000000000).
  { apply Rle_trans with (bpow radix2 (-40)); [apply bpow_le; lia|]. change (bpow radix2 (-40)) with (/ 1099511627776). lra. }
  pose proof (instant_error B B ltac:(lia) ltac:(lia)) as EB. fold b in EB. rewrite U1 in EB. apply Rabs_le_inv in EB.
  assert (P31 := pow31). assert (P32 : bpow radix2 32 = 4294967296) by reflexivity.
  rewrite U2. set (u := / 9007199254740992) in *. assert (Hu : 0 < u <= / 1000000) by (unfold u; lra).
  assert (ub : 0 < u * b <= / 1000000 * b).
  { split; [apply Rmult_lt_0_compat; lra|]. apply Rmult_le_compat_r; lra. }
  induction cs as [|c cs IH] using rev_ind; intro HC.
  - cbn [float_average ideal_average length]. rewrite f2r_zero, Rminus_0_r, Rabs_R0. simpl. split; [lra|]. nra.
  - apply counts_upto_app in HC. destruct HC as [HC Hc]. specialize (IH HC).
    pose proof (instant_error c B ltac:(lia) ltac:(lia)) as Ec. fold b in Ec. rewrite U1 in Ec.
    destruct cs as [|c0 cs'] eqn:E.
    + change (float_average alpha ([] ++ [c])) with (instant_rate c). change (ideal_average (f2r alpha) ([] ++ [c])) with (IZR c / 5000000000).
      cbn [length app]. change (INR 1) with 1. set (e := Rabs _) in *. assert (0 <= e) by apply Rabs_pos. split; nra.
    + rewrite <- E in *. rewrite float_average_snoc, ideal_snoc by (subst; discriminate).
      destruct (average_bounds alpha B cs UA ltac:(lia) HC) as (F & [B0 B1] & _).
      destruct (instant_f c ltac:(lia)) as (Fi & _ & Bi). pose proof (instant_mono c B ltac:(lia) ltac:(lia)) as Mi.
      destruct (instant_f B ltac:(lia)) as (_ & _ & BB).
      destruct (recur_f alpha (float_average alpha cs) (instant_rate c)) as [_ ->]; trivial; [lra|].
      set (cur := f2r (float_average alpha cs)) in *. set (ir := f2r (instant_rate c)) in *. set (a := f2r alpha) in *.
      set (R0 := ideal_average a cs) in *. set (x := IZR c / 5000000000) in *.
      assert (Q1 : Rabs (rnd (ir - cur) - (ir - cur)) <= bpow radix2 (-53) * (2.1 * b)).
      { apply rnd_err; [apply Rabs_le; lra|lra]. }
      set (d := rnd (ir - cur)) in *. rewrite U in Q1. fold u in Q1.
      assert (Hd : Rabs d <= 2.2 * b). { apply Rabs_le. apply Rabs_le_inv in Q1. lra. }
      assert (Had : Rabs (a * d) <= 2.2 * b).
      { rewrite Rabs_mult, (Rabs_pos_eq a) by lra. pose proof (Rabs_pos d). nra. }
      assert (Q2 : Rabs (rnd (a * d) - a * d) <= bpow radix2 (-53) * (2.2 * b)).
      { apply rnd_err; [exact Had|lra]. }
      set (p := rnd (a * d)) in *. rewrite U in Q2. fold u in Q2.
      assert (Hp : Rabs (cur + p) <= 4.5 * b).
      { apply Rabs_le. apply Rabs_le_inv in Q2. apply Rabs_le_inv in Had. lra. }
      assert (Q3 : Rabs (rnd (cur + p) - (cur + p)) <= bpow radix2 (-53) * (4.5 * b)).
      { apply rnd_err; [exact Hp|lra]. }
      rewrite U in Q3. fold u in Q3. set (s := rnd (cur + p)) in *.
      assert (Q1' : Rabs (a * (d - (ir - cur))) <= u * (2.1 * b)).
      { rewrite Rabs_mult, (Rabs_pos_eq a) by lra. pose proof (Rabs_pos (d - (ir - cur))). nra. }
      assert (Ec' : Rabs (a * (ir - x)) <= 4 * u * b).
      { rewrite Rabs_mult, (Rabs_pos_eq a) by lra. pose proof (Rabs_pos (ir - x)). nra. }
      assert (St : Rabs (s - (R0 + a * (x - R0))) <= (1 - a) * Rabs (cur - R0) + 16 * u * b).
      { replace (s - (R0 + a * (x - R0))) with
          ((1 - a) * (cur - R0) + ((s - (cur + p)) + (p - a * d) + a * (d - (ir - cur)) + a * (ir - x))) by ring.
        eapply Rle_trans; [apply Rabs_triang|]. rewrite Rabs_mult, (Rabs_pos_eq (1 - a)) by lra.
        apply Rplus_le_compat_l. apply Rabs_le_inv in Q1'. apply Rabs_le_inv in Ec'. apply Rabs_le_inv in Q2. apply Rabs_le_inv in Q3.
        apply Rabs_le. lra. }
      destruct IH as [I1 I2]. rewrite app_length, plus_INR. cbn [length]. change (INR 1) with 1.
      set (e' := Rabs (s - _)) in *. set (e := Rabs (cur - R0)) in *. assert (0 <= e) by apply Rabs_pos.
      split; [nra|].
      apply Rle_trans with (a * ((1 - a) * e + 16 * u * b)); [apply Rmult_le_compat_l; lra|]. nra.
Qed.

(** ** what Rate returns *)
Lemma f1e9 : f2r (f_of_int 1000000000) = 1000000000 /\ fis_finite (f_of_int 1000000000) = true.
Proof. split; [rewrite f_of_int_exact by lia; reflexivity|apply f_of_int_finite; lia]. Qed.

Lemma rate_f r : fis_finite r = true -> 0 <= f2r r <= bpow radix2 32 ->
  fis_finite (rate_of (float64bits r)) = true /\ f2r (rate_of (float64bits r)) = rnd (f2r r * 1000000000).
Proof.
  intros F B. unfold rate_of. rewrite frombits_bits. destruct f1e9 as [E9 F9].
  destruct (fmul_correct r (f_of_int 1000000000) F F9 64) as [E Fm]; [lia| |].
  - rewrite E9. change (bpow radix2 32) with 4294967296 in B. change (bpow radix2 64) with 18446744073709551616.
    apply Rabs_le. lra.
  - rewrite E9 in E. auto.
Qed.

Lemma ewma_history alpha h : let w := ewma_run (NewEWMA alpha) h in
  w_uncounted w = wrap64 (pending h) /\
  (forall op, cseq (ewma_body op) w <> None) /\
  cseq (ewma_body WRate) w = Some (w, WVal (fmul (float_average alpha (map wrap64 (tick_counts h))) (f_of_int (10 ^ 9)))) /\
  cseq (ewma_body WSnapshot) w = Some (w, WSnap (fmul (float_average alpha (map wrap64 (tick_counts h))) (f_of_int (10 ^ 9)))).
Proof.
  cbv zeta. destruct (ewma_run_inv alpha h) as (Hu & Ha & Hm & Hi & Hr). fold (wcounts h). split; [exact Hu|]. split.
  - intros [n| | |]; [rewrite update_seq|rewrite tick_seq by exact Hm|rewrite rate_seq|rewrite snapshot_seq]; discriminate.
  - rewrite rate_seq, snapshot_seq. unfold rate_of. rewrite Hr, frombits_bits. auto.
Qed.

Lemma wrap_counts B cs : (B < 2 ^ 63)%Z -> counts_upto B cs -> map wrap64 cs = cs.
Proof.
  intros HB. induction 1 as [|c cs Hc HC IH]; [reflexivity|]. cbn [map]. rewrite IH, wrap64_id; [reflexivity|].
  unfold is_int64, min_int64, max_int64. lia.
Qed.


Lemma rate_now_run alpha h B : (B < 2 ^ 63)%Z -> counts_upto B (tick_counts h) ->
  rate_now (ewma_run (NewEWMA alpha) h) = rate_of (float64bits (float_average alpha (tick_counts h))).
Proof.
  intros HB HC. unfold rate_now. destruct (ewma_history alpha h) as (_ & _ & -> & _).
  rewrite (wrap_counts B) by assumption. unfold rate_of. now rewrite frombits_bits.
Qed.

Lemma rate_bounds alpha B h : unit_alpha alpha -> (0 <= B < 2 ^ 63)%Z -> counts_upto B (tick_counts h) ->
  let v := rate_now (ewma_run (NewEWMA alpha) h) in
  fis_finite v = true /\ 0 <= f2r v /\
  (f2r alpha <= / 2 -> f2r v <= f2r (fmul (fdiv (f_of_int B) (f_of_int (5 * 10 ^ 9))) (f_of_int (10 ^ 9)))).
Proof.
  intros UA HB HC. cbv zeta. rewrite (rate_now_run alpha h B) by (trivial; lia).
  destruct (average_bounds alpha B _ UA HB HC) as (F & [B0 B1] & B2).
  destruct (instant_f B HB) as (FB & _ & BB). assert (P31 := pow31). assert (P32 : bpow radix2 32 = 4294967296) by reflexivity.
  destruct (rate_f (float_average alpha (tick_counts h)) F) as [F' E']; [lra|].
  split; [exact F'|]. rewrite E'. split; [rewrite <- rnd_0; apply rnd_le; lra|]. intro Ha.
  destruct (rate_f (instant_rate B) FB) as [_ EB]; [lra|]. unfold rate_of in EB. rewrite frombits_bits in EB.
  change (fdiv (f_of_int B) (f_of_int (5 * 10 ^ 9))) with (instant_rate B). change (10 ^ 9)%Z with 1000000000%Z. rewrite EB.
  apply rnd_le. specialize (B2 Ha). lra.
Qed.

Lemma rate_accuracy alpha B h : unit_alpha alpha -> (1 <= B < 2 ^ 63)%Z -> counts_upto B (tick_counts h) ->
  let e := Rabs (f2r (rate_now (ewma_run (NewEWMA alpha) h)) - 1000000000 * ideal_average (f2r alpha) (tick_counts h)) in
  e <= (INR (length (tick_counts h)) + 1) * (bpow radix2 (-49) * (IZR B / 5)) /\
  f2r alpha * e <= 2 * (bpow radix2 (-49) * (IZR B / 5)).
Proof.
  intros UA HB HC. cbv zeta. rewrite (rate_now_run alpha h B) by (trivial; lia).
  destruct (average_bounds alpha B _ UA ltac:(lia) HC) as (F & [B0 B1] & _).
  destruct (average_error alpha B _ UA HB HC) as [E1 E2].
  destruct (instant_f B ltac:(lia)) as (FB & _ & BB). assert (P31 := pow31). assert (P32 : bpow radix2 32 = 4294967296) by reflexivity.
  destruct (rate_f (float_average alpha (tick_counts h)) F) as [F' E']; [lra|]. rewrite E'.
  pose proof (instant_error B B ltac:(lia) ltac:(lia)) as EB. destruct UA as [_ Ha].
  set (b := IZR B / 5000000000) in *. assert (Eb : IZR B / 5 = 1000000000 * b) by (unfold b; field). rewrite Eb.
  assert (HB1 : 1 <= IZR B) by (apply IZR_le; lia). assert (Hb : / 5000000000 <= b) by (unfold b; lra).
  assert (U : bpow radix2 (-53) = / 9007199254740992) by reflexivity.
  assert (U1 : bpow radix2 (-51) = 4 * / 9007199254740992) by (change (-51)%Z with (2 + -53)%Z; rewrite bpow_plus, U; reflexivity).
  assert (U2 : bpow radix2 (-49) = 16 * / 9007199254740992) by (change (-49)%Z with (4 + -53)%Z; rewrite bpow_plus, U; reflexivity).
  rewrite U1 in EB. rewrite U2 in *. set (u := / 9007199254740992) in *. assert (Hu : 0 < u <= / 1000000) by (unfold u; lra).
  assert (ub : 0 < u * b <= / 1000000 * b).
  { split; [apply Rmult_lt_0_compat; lra|]. apply Rmult_le_compat_r; lra. }
  assert (T : bpow radix2 (-1022) <= / 16). { change (/ 16) with (bpow radix2 (-4)). apply bpow_le. lia. }
  apply Rabs_le_inv in EB.
  set (r := f2r (float_average alpha (tick_counts h))) in *. set (R0 := ideal_average (f2r alpha) (tick_counts h)) in *.
  assert (Q : Rabs (rnd (r * 1000000000) - r * 1000000000) <= bpow radix2 (-53) * (1000000000 * (3 * b))).
  { apply rnd_err; [apply Rabs_le; lra|]. lra. }
  rewrite U in Q. fold u in Q.
  assert (S : Rabs (rnd (r * 1000000000) - 1000000000 * R0) <= 1000000000 * Rabs (r - R0) + 3 * 1000000000 * (u * b)).
  { replace (rnd (r * 1000000000) - 1000000000 * R0) with (1000000000 * (r - R0) + (rnd (r * 1000000000) - r * 1000000000)) by ring.
    eapply Rle_trans; [apply Rabs_triang|]. rewrite Rabs_mult, (Rabs_pos_eq 1000000000) by lra.
    apply Rplus_le_compat_l. lra. }
  set (e := Rabs (rnd (r * 1000000000) - _)) in *. set (e0 := Rabs (r - R0)) in *.
  split; [lra|]. assert (0 <= e0) by apply Rabs_pos. 
  apply Rle_trans with (f2r alpha * (1000000000 * e0 + 3 * 1000000000 * (u * b))); [apply Rmult_le_compat_l; lra|]. nra.
Qed.

(** ** constant input, idle decay *)
Lemma weighted_const alpha c n : weighted alpha (repeat c (S n)) = IZR c / 5000000000.
Proof.
  induction n as [|n IH]; [reflexivity|]. change (repeat c (S (S n))) with (c :: c :: repeat c n).
  change (c :: repeat c n) with (repeat c (S n)) in *. cbn [weighted]. cbn [weighted repeat] in *.
  rewrite IH. ring.
Qed.

(** ** the built-in smoothing factors *)
Lemma builtin_alpha mexp m : (1 <= m <= 2 ^ 49)%Z ->
  fis_finite (mexp (alpha_arg m)) = true -> f2r (mexp (alpha_arg m)) <= 1 ->
  Rabs (f2r (mexp (alpha_arg m)) - exp (f2r (alpha_arg m))) <= bpow radix2 (-20) ->
  unit_alpha (ewma_alpha mexp m) /\ f2r (ewma_alpha mexp m) <= / 2.
Proof.
  intros Hm F H1 He.
  assert (P : bpow radix2 (-20) = / 1048576) by reflexivity. assert (P3 : bpow radix2 (-3) = / 8) by reflexivity.
  assert (E5 : f2r (f_of_int (-1)) = -1) by (apply f_of_int_exact; lia). assert (F5 := f_of_int_finite (-1) ltac:(lia)).
  assert (Em : f2r (f_of_int (12 * m)) = IZR (12 * m)) by (apply f_of_int_exact; lia). rewrite mult_IZR in Em.
  assert (Hm1 : 1 <= IZR m) by (apply IZR_le; lia).
  assert (Bd : - / 8 <= -1 / (12 * IZR m) <= 0).
  { assert (I : 0 < / (12 * IZR m) <= / 12).
    { split; [apply Rinv_0_lt_compat; lra|]. apply Rinv_le_contravar; lra. }
    unfold Rdiv. lra. }
  destruct (fdiv_correct (f_of_int (-1)) (f_of_int (12 * m)) F5 0) as [Ea Fa]; [lia|lra| |].
  { rewrite Em, E5. change (bpow radix2 0) with 1. apply Rabs_le. lra. }
  rewrite Em, E5 in Ea. change (fdiv (f_of_int (-1)) (f_of_int (12 * m))) with (alpha_arg m) in *.
  assert (Ba : - / 8 <= f2r (alpha_arg m)).
  { rewrite Ea. apply rnd_ge_fmt; [rewrite <- P3; apply fmt_opp, fmt_bpow; lia|lra]. }
  assert (X : / 2 <= f2r (mexp (alpha_arg m))).
  { pose proof (exp_ineq1_le (f2r (alpha_arg m))). apply Rabs_le_inv in He. lra. }
  assert (E1 : f2r (f_of_int 1) = 1) by (apply f_of_int_exact; lia). assert (F1 := f_of_int_finite 1 ltac:(lia)).
  destruct (fsub_correct (f_of_int 1) (mexp (alpha_arg m)) F1 F 0) as [Es Fs]; [lia| |].
  { rewrite E1. change (bpow radix2 0) with 1. apply Rabs_le. lra. }
  rewrite E1 in Es. change (fsub (f_of_int 1) (mexp (alpha_arg m))) with (ewma_alpha mexp m) in *.
  assert (0 <= f2r (ewma_alpha mexp m)) by (rewrite Es, <- rnd_0; apply rnd_le; lra).
  assert (f2r (ewma_alpha mexp m) <= / 2).
  { rewrite Es. apply rnd_le_fmt; [|lra]. change (/ 2) with (bpow radix2 (-1)). apply fmt_bpow. lia. }
  repeat split; trivial; lra.
Qed.

Lemma exp_lip a b : a <= 0 -> b <= 0 -> Rabs (exp a - exp b) <= Rabs (a - b).
Proof.
  assert (G : forall a b, b <= a -> a <= 0 -> 0 <= exp a - exp b <= a - b).
  { clear. intros a b H Ha. assert (E : exp b = exp a * exp (b - a)) by (rewrite <- exp_plus; f_equal; ring).
    pose proof (exp_ineq1_le (b - a)). pose proof (exp_pos a). pose proof (exp_pos (b - a)).
    assert (exp a <= 1) by (rewrite <- exp_0; destruct Ha as [Ha| ->]; [left; apply exp_increasing; trivial|lra]).
    assert (exp (b - a) <= 1) by (rewrite <- exp_0; destruct H as [H| ->]; [left; apply exp_increasing; lra|right; f_equal; lra]).
    rewrite E. nra. }
  intros Ha Hb. destruct (Rle_or_lt b a) as [L|L].
  - specialize (G a b L Ha). rewrite !Rabs_pos_eq; lra.
  - specialize (G b a (Rlt_le _ _ L) Hb). rewrite (Rabs_minus_sym (exp a)), (Rabs_minus_sym a), !Rabs_pos_eq; lra.
Qed.
(** they are 1 - e^(-5/(60 m)) up to the error of math.Exp and 2^-53 *)
Lemma builtin_alpha_value mexp m eps : (1 <= m <= 2 ^ 49)%Z ->
  fis_finite (mexp (alpha_arg m)) = true -> 0 <= f2r (mexp (alpha_arg m)) <= 1 ->
  Rabs (f2r (mexp (alpha_arg m)) - exp (f2r (alpha_arg m))) <= eps ->
  Rabs (f2r (ewma_alpha mexp m) - (1 - exp (- (5 / (60 * IZR m))))) <= eps + bpow radix2 (-52).
Proof.
  intros Hm F H1 He.
  assert (E5 : f2r (f_of_int (-1)) = -1) by (apply f_of_int_exact; lia). assert (F5 := f_of_int_finite (-1) ltac:(lia)).
  assert (Em : f2r (f_of_int (12 * m)) = IZR (12 * m)) by (apply f_of_int_exact; lia). rewrite mult_IZR in Em.
  assert (Hm1 : 1 <= IZR m) by (apply IZR_le; lia).
  assert (Bd : - / 8 <= -1 / (12 * IZR m) <= 0).
  { assert (I : 0 < / (12 * IZR m) <= / 12).
    { split; [apply Rinv_0_lt_compat; lra|]. apply Rinv_le_contravar; lra. }
    unfold Rdiv. lra. }
  destruct (fdiv_correct (f_of_int (-1)) (f_of_int (12 * m)) F5 0) as [Ea Fa]; [lia|lra| |].
  { rewrite Em, E5. change (bpow radix2 0) with 1. apply Rabs_le. lra. }
  rewrite Em, E5 in Ea. change (fdiv (f_of_int (-1)) (f_of_int (12 * m))) with (alpha_arg m) in *.
  assert (Na : f2r (alpha_arg m) <= 0) by (rewrite Ea, <- rnd_0; apply rnd_le; lra).
  assert (P53 : bpow radix2 (-53) = / 9007199254740992) by reflexivity. assert (P52 : bpow radix2 (-52) = / 4503599627370496) by reflexivity.
  assert (T : bpow radix2 (-1022) <= / 8). { change (/ 8) with (bpow radix2 (-3)). apply bpow_le. lia. }
  assert (Da : Rabs (f2r (alpha_arg m) - -1 / (12 * IZR m)) <= bpow radix2 (-53) * / 8).
  { rewrite Ea. apply rnd_err; [apply Rabs_le; lra|exact T]. }
  replace (- (5 / (60 * IZR m))) with (-1 / (12 * IZR m)) by (field; lra).
  pose proof (exp_lip (f2r (alpha_arg m)) (-1 / (12 * IZR m)) Na ltac:(lra)) as L.
  assert (E1 : f2r (f_of_int 1) = 1) by (apply f_of_int_exact; lia). assert (F1 := f_of_int_finite 1 ltac:(lia)).
  destruct (fsub_correct (f_of_int 1) (mexp (alpha_arg m)) F1 F 0) as [Es Fs]; [lia| |].
  { rewrite E1. change (bpow radix2 0) with 1. apply Rabs_le. lra. }
  rewrite E1 in Es. change (fsub (f_of_int 1) (mexp (alpha_arg m))) with (ewma_alpha mexp m) in *.
  assert (Ds : Rabs (f2r (ewma_alpha mexp m) - (1 - f2r (mexp (alpha_arg m)))) <= bpow radix2 (-53) * 1).
  { rewrite Es. apply rnd_err; [apply Rabs_le; lra|lra]. }
  rewrite P53, P52 in *. apply Rabs_le_inv in Ds, Da, He. assert (L' : Rabs (exp (f2r (alpha_arg m)) - exp (-1 / (12 * IZR m))) <= / 9007199254740992 * / 8).
  { eapply Rle_trans; [exact L|]. apply Rabs_le. lra. }
  apply Rabs_le_inv in L'. apply Rabs_le. lra.
Qed.

Lemma ideal_const alpha c n : ideal_average alpha (repeat c (S n)) = IZR c / 5000000000.
Proof.
  rewrite ideal_weighted. rewrite <- (weighted_const alpha c n). f_equal.
  induction (S n) as [|m IH]; [reflexivity|].
  cbn [repeat rev]. rewrite IH. symmetry. apply repeat_cons.
Qed.

Lemma idle_tick alpha B h : unit_alpha alpha -> (0 <= B < 2 ^ 63)%Z -> counts_upto B (tick_counts h) -> pending h = 0%Z ->
  f2r (rate_now (ewma_run (NewEWMA alpha) (h ++ [WTick]))) <= f2r (rate_now (ewma_run (NewEWMA alpha) h)).
Proof.
  intros UA HB HC Hp.
  assert (Ec : tick_counts (h ++ [WTick]) = tick_counts h ++ [0%Z]).
  { unfold tick_counts. rewrite ledger_snoc. cbn [ledger_step fst]. unfold pending in Hp. now rewrite Hp. }
  assert (HC' : counts_upto B (tick_counts (h ++ [WTick]))).
  { rewrite Ec. apply Forall_app. split; [exact HC|]. constructor; [lia|constructor]. }
  rewrite (rate_now_run alpha (h ++ [WTick]) B), (rate_now_run alpha h B) by (trivial; lia).
  destruct (average_bounds alpha B _ UA HB HC) as (F & [B0 B1] & _).
  destruct (average_bounds alpha B _ UA HB HC') as (F' & [B0' B1'] & _).
  destruct (instant_f B HB) as (_ & _ & BB). assert (P31 := pow31). assert (P32 : bpow radix2 32 = 4294967296) by reflexivity.
  destruct (rate_f _ F) as [_ ->]; [lra|]. destruct (rate_f _ F') as [_ ->]; [lra|].
  apply rnd_le, Rmult_le_compat_r; [lra|].
  destruct (instant_f 0 ltac:(lia)) as (F0 & E0 & _).
  assert (Z0 : f2r (instant_rate 0) = 0).
  { rewrite E0. rewrite rnd_0. unfold Rdiv. rewrite Rmult_0_l. apply rnd_0. }
  rewrite Ec. destruct (tick_counts h) as [|c cs] eqn:E.
  - change (float_average alpha ([] ++ [0%Z])) with (instant_rate 0). rewrite Z0. cbn [float_average]. rewrite f2r_zero. lra.
  - rewrite <- E in *. rewrite float_average_snoc by (rewrite E; discriminate).
    destruct UA as [Fa Ha]. destruct (recur_f alpha (float_average alpha (tick_counts h)) (instant_rate 0)) as [_ ->]; trivial; try lra.
    set (cur := f2r (float_average alpha (tick_counts h))) in *. rewrite Z0.
    assert (Hd : rnd (0 - cur) <= 0) by (apply rnd_le_fmt; [apply fmt_0|lra]).
    assert (Hp2 : 0 <= f2r alpha * - rnd (0 - cur)) by (apply Rmult_le_pos; lra).
    assert (Hm : rnd (f2r alpha * rnd (0 - cur)) <= 0) by (apply rnd_le_fmt; [apply fmt_0|lra]).
    apply rnd_le_fmt; [apply fmt_f2r|lra].
Qed.

(** e^(-1/180) = 0.994459848..., for an example *)
Lemma exp_180 x : Rabs (x - -1/180) <= / 1000000000000 -> Rabs (994459848 / 1000000000 - exp x) <= / 2000000.
Proof.
  intros H. apply Rabs_le_inv in H.
  assert (S : forall y l h, 0 < l -> l <= exp (y / 2) <= h -> l * l <= exp y <= h * h).
  { intros y l h L B. replace (exp y) with (exp (y / 2) * exp (y / 2)) by (rewrite <- exp_plus; f_equal; field). split; apply Rmult_le_compat; lra. }
  assert (B7 : 499978298611107 / 500000000000000 <= exp (x / 128) <= 19999131982119 / 20000000000000).
  { pose proof (exp_ineq1_le (x / 128)). pose proof (exp_ineq1_le (- (x / 128))). split; [lra|].
    assert (P : exp (x / 128) * exp (- (x / 128)) = 1) by (rewrite <- exp_plus, Rplus_opp_r; apply exp_0). pose proof (exp_pos (x / 128)).
    apply Rmult_le_reg_r with (exp (- (x / 128))); [apply exp_pos|]. rewrite P. lra. }
  assert (B6 : 999913196328229 / 1000000000000000 <= exp (x / 64) <= 499956600047769 / 500000000000000).
  { replace (x / 128) with (x / 64 / 2) in B7 by field. apply S in B7; lra. }
  assert (B5 : 199965280038267 / 200000000000000 <= exp (x / 32) <= 9998264077253 / 10000000000000).
  { replace (x / 64) with (x / 32 / 2) in B6 by field. apply S in B6; lra. }
  assert (B4 : 999652830519563 / 1000000000000000 <= exp (x / 16) <= 499826422792439 / 500000000000000).
  { replace (x / 32) with (x / 16 / 2) in B5 by field. apply S in B5; lra. }
  assert (B3 : 499652890782887 / 500000000000000 <= exp (x / 8) <= 124913226460743 / 125000000000000).
  { replace (x / 16) with (x / 8 / 2) in B4 by field. apply S in B4; lra. }
  assert (B2 : 499306022535391 / 500000000000000 <= exp (x / 4) <= 124826513158663 / 125000000000000).
  { replace (x / 8) with (x / 4 / 2) in B3 by field. apply S in B3; lra. }
  assert (B1 : 997226016560449 / 1000000000000000 <= exp (x / 2) <= 124653267098799 / 125000000000000).
  { replace (x / 4) with (x / 2 / 2) in B2 by field. apply S in B2; lra. }
  assert (B0 : 49722986405251 / 50000000000000 <= exp (x) <= 99445996789789 / 100000000000000).
  { replace (x / 2) with (x / 2) in B1 by field. apply S in B1; lra. }
  apply Rabs_le. lra.
Qed.

Definition ex_exp : f64 := fdiv (f_of_int 994459848) (f_of_int 1000000000).
(** the hypotheses about math.Exp hold for m = 15 if it returns 0.994459848 *)
Lemma ex_exp_ok : let mexp := fun _ : f64 => ex_exp in
  fis_finite (mexp (alpha_arg 15)) = true /\ (0 <= f2r (mexp (alpha_arg 15)) <= 1) /\
  Rabs (f2r (mexp (alpha_arg 15)) - exp (f2r (alpha_arg 15))) <= bpow radix2 (-20).
Proof.
  cbv zeta. assert (E5 : f2r (f_of_int 994459848) = 994459848) by (apply f_of_int_exact; lia). assert (F5 := f_of_int_finite 994459848 ltac:(lia)).
  assert (Em : f2r (f_of_int 1000000000) = 1000000000) by (apply f_of_int_exact; lia).
  destruct (fdiv_correct (f_of_int 994459848) (f_of_int 1000000000) F5 0) as [Ea Fa]; [lia|lra| |].
  { rewrite Em, E5. change (bpow radix2 0) with 1. apply Rabs_le. lra. }
  fold ex_exp in Ea, Fa. rewrite Em, E5 in Ea.
  assert (P53 : bpow radix2 (-53) = / 9007199254740992) by reflexivity.
  assert (T : bpow radix2 (-1022) <= / 128). { change (/ 128) with (bpow radix2 (-7)). apply bpow_le. lia. }
  assert (D : Rabs (f2r ex_exp - 994459848 / 1000000000) <= bpow radix2 (-53) * 1) by (rewrite Ea; apply rnd_err; [apply Rabs_le; lra|lra]).
  assert (E1 : f2r (f_of_int (-1)) = -1) by (apply f_of_int_exact; lia). assert (F1 := f_of_int_finite (-1) ltac:(lia)).
  assert (E2 : f2r (f_of_int (12 * 15)) = 180) by (apply (f_of_int_exact 180); lia).
  destruct (fdiv_correct (f_of_int (-1)) (f_of_int (12 * 15)) F1 0) as [Eb Fb]; [lia|lra| |].
  { rewrite E1, E2. change (bpow radix2 0) with 1. apply Rabs_le. lra. }
  change (fdiv (f_of_int (-1)) (f_of_int (12 * 15))) with (alpha_arg 15) in *. rewrite E1, E2 in Eb.
  assert (D' : Rabs (f2r (alpha_arg 15) - -1 / 180) <= bpow radix2 (-53) * / 128) by (rewrite Eb; apply rnd_err; [apply Rabs_le; lra|exact T]).
  rewrite P53 in *. pose proof (exp_180 (f2r (alpha_arg 15)) ltac:(lra)) as X. apply Rabs_le_inv in X, D.
  split; [exact Fa|]. split; [lra|]. change (bpow radix2 (-20)) with (/ 1048576). apply Rabs_le. lra.
Qed.
