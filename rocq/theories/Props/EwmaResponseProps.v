(** Property C77: what "m-minute" means.  [h] is what was done with the average so far, [h'] what
    is done after that; each of the k ticks in [h'] finds c events. *)
From Coq Require Import ZArith List Reals Lra Lia.
From Flocq Require Import Core.
From Verif.Model Require Import GoInt GoFloat GoBase Conc Ewma World.
From Verif.Spec Require Import Traces EwmaSpec RegistrySpec MeterHistorySpec.
From Verif.Proofs Require Import IntFacts FloatFacts EwmaSeq WorldBase WorldStep.
From Verif.Props Require Import SnapshotProps EwmaProps MeterHistoryProps.
Import ListNotations.
Open Scope R_scope.

(** ** in exact arithmetic *)
Lemma ideal_steady alpha c k : forall cs, cs <> [] ->
  ideal_average alpha (cs ++ repeat c k) = IZR c / 5000000000 + (1 - alpha) ^ k * (ideal_average alpha cs - IZR c / 5000000000).
Proof.
  induction k as [|k IH]; intros cs N; [rewrite app_nil_r; cbn [pow]; lra|].
  cbn [repeat]. replace (cs ++ c :: repeat c k) with ((cs ++ [c]) ++ repeat c k) by (now rewrite <- app_assoc).
  rewrite IH by (destruct cs; discriminate). rewrite ideal_snoc by exact N. cbn [pow]. ring.
Qed.
Lemma pow_diff x y k d : 0 <= x <= 1 -> 0 <= y <= 1 -> Rabs (x - y) <= d -> Rabs (x ^ k - y ^ k) <= INR k * d.
Proof.
  intros X Y D. induction k as [|k IH]; [cbn; rewrite Rminus_diag_eq by reflexivity; rewrite Rabs_R0; lra|].
  rewrite S_INR. cbn [pow]. replace (x * x ^ k - y * y ^ k) with (x * (x ^ k - y ^ k) + y ^ k * (x - y)) by ring.
  eapply Rle_trans; [apply Rabs_triang|]. rewrite !Rabs_mult.
  assert (P : 0 <= y ^ k <= 1). { split; [apply pow_le; lra|]. rewrite <- (pow1 k). apply pow_incr. lra. }
  rewrite (Rabs_pos_eq x), (Rabs_pos_eq (y ^ k)) by lra.
  assert (x * Rabs (x ^ k - y ^ k) <= 1 * (INR k * d)) by (apply Rmult_le_compat; try lra; apply Rabs_pos).
  assert (y ^ k * Rabs (x - y) <= 1 * d) by (apply Rmult_le_compat; try lra; apply Rabs_pos). lra.
Qed.
Lemma exp_pow x k : exp x ^ k = exp (INR k * x).
Proof.
  induction k as [|k IH]; [cbn; rewrite Rmult_0_l; now rewrite exp_0|].
  cbn [pow]. rewrite IH, <- exp_plus. f_equal. rewrite S_INR. ring.
Qed.
Lemma ideal_range alpha B cs : 0 <= alpha <= 1 -> (0 <= B)%Z -> counts_upto B cs -> 0 <= ideal_average alpha cs <= IZR B / 5000000000.
Proof.
  intros A HB. induction cs as [|c cs IH] using rev_ind; intros C.
  - cbn. apply IZR_le in HB. split; [lra|]. unfold Rdiv. lra.
  - apply Forall_app in C. destruct C as [C1 C2]. inversion C2 as [|? ? [L1 L2] _]; subst. apply IZR_le in L1, L2.
    destruct cs as [|c0 cs]; [cbn; unfold Rdiv; split; nra|]. rewrite ideal_snoc by discriminate. specialize (IH C1).
    set (r := ideal_average alpha (c0 :: cs)) in *. set (x := IZR c / 5000000000). assert (0 <= x <= IZR B / 5000000000) by (unfold x, Rdiv; split; nra). split; nra.
Qed.

(** the bound on the error: B is the largest number of events of a tick, n and k are the numbers
    of ticks, eps is the error of math.Exp *)
Definition response_error (B : Z) (n k : nat) (eps : R) : R :=
  ((2 * INR n + INR k + 2) * bpow radix2 (-49) + INR k * (eps + bpow radix2 (-52))) * (IZR B / 5).

Section Response.
Variable mexp : f64 -> f64.
Variable m : Z.
Variable eps : R.
Hypothesis Hm : (1 <= m <= 2 ^ 49)%Z.
Hypothesis Hf : fis_finite (mexp (alpha_arg m)) = true.
Hypothesis H1 : 0 <= f2r (mexp (alpha_arg m)) <= 1.
Hypothesis He : Rabs (f2r (mexp (alpha_arg m)) - exp (f2r (alpha_arg m))) <= eps.
Hypothesis Hs : eps <= bpow radix2 (-20).
Let w h := ewma_run (NewEWMA (ewma_alpha mexp m)) h.
Lemma response B c k h h' : (1 <= B < 2 ^ 63)%Z -> (0 <= c <= B)%Z -> counts_upto B (tick_counts h) -> tick_counts h <> [] -> tick_counts (h ++ h') = (tick_counts h ++ repeat c k)%list ->
  let now := f2r (rate_now (w h)) in let later := f2r (rate_now (w (h ++ h'))) in
  Rabs (later - (IZR c / 5 + exp (- (INR k / (12 * IZR m))) * (now - IZR c / 5))) <= response_error B (length (tick_counts h)) k eps.
Proof.
  intros HB Hc C N E now later. set (a := f2r (ewma_alpha mexp m)).
  destruct (builtin_alpha mexp m Hm Hf (proj2 H1) (Rle_trans _ _ _ He Hs)) as [U _]. assert (A : 0 <= a <= 1) by exact (proj2 U).
  assert (C' : counts_upto B (tick_counts (h ++ h'))). { rewrite E. apply Forall_app. split; [exact C|]. clear -Hc. induction k; cbn; constructor; auto. }
  pose proof (proj1 (rate_accuracy _ B h U HB C)) as A1. pose proof (proj1 (rate_accuracy _ B (h ++ h') U HB C')) as A2. cbv zeta in A1, A2. fold a in A1, A2. fold (w h) in A1. fold now in A1. fold (w (h ++ h')) in A2. fold later in A2.
  assert (L : INR (length (tick_counts (h ++ h'))) = INR (length (tick_counts h)) + INR k) by (rewrite E, app_length, repeat_length; apply plus_INR). rewrite L in A2. clear L.
  rewrite E, (ideal_steady a c k) in A2 by exact N.
  pose proof (builtin_alpha_value mexp m eps Hm Hf H1 He) as Va. fold a in Va.
  set (y := exp (- (5 / (60 * IZR m)))) in *. assert (Pm : 1 <= IZR m) by (apply IZR_le; lia).
  assert (Y : 0 <= y <= 1). { split; [left; apply exp_pos|]. rewrite <- exp_0. left. apply exp_increasing. assert (0 < 5 / (60 * IZR m)) by (apply Rdiv_lt_0_compat; lra). lra. }
  assert (Ey : y ^ k = exp (- (INR k / (12 * IZR m)))). { unfold y. rewrite exp_pow. f_equal. field. lra. }
  assert (D : Rabs ((1 - a) ^ k - y ^ k) <= INR k * (eps + bpow radix2 (-52))). { apply pow_diff; [lra|exact Y|]. replace (1 - a - y) with (- (a - (1 - y))) by ring. now rewrite Rabs_Ropp. }
  rewrite <- Ey. clear Ey. set (r := ideal_average a (tick_counts h)) in *.
  assert (R : 0 <= r <= IZR B / 5000000000) by (apply ideal_range; auto; lia).
  assert (Cb : 0 <= IZR c <= IZR B) by (split; apply IZR_le; lia).
  assert (Yk : 0 <= y ^ k <= 1). { split; [apply pow_le; lra|]. rewrite <- (pow1 k). apply pow_incr. lra. }
  set (b := IZR B / 5) in *. assert (Eb : IZR B / 5000000000 = b / 1000000000) by (unfold b; lra).
  set (P := (1 - a) ^ k) in *. unfold response_error. fold b. set (u := bpow radix2 (-49)) in *. set (n := INR (length (tick_counts h))) in *. set (d := INR k * (eps + bpow radix2 (-52))) in *.
  replace (later - (IZR c / 5 + y ^ k * (now - IZR c / 5))) with
    ((later - 1000000000 * (IZR c / 5000000000 + P * (r - IZR c / 5000000000))) + - (y ^ k * (now - 1000000000 * r)) + (P - y ^ k) * (1000000000 * r - IZR c / 5)) by lra.
  assert (T1 : Rabs (y ^ k * (now - 1000000000 * r)) <= (n + 1) * (u * b)).
  { rewrite Rabs_mult, (Rabs_pos_eq (y ^ k)) by lra. assert (y ^ k * Rabs (now - 1000000000 * r) <= 1 * Rabs (now - 1000000000 * r)) by (apply Rmult_le_compat_r; [apply Rabs_pos|lra]). lra. }
  assert (T2 : Rabs ((P - y ^ k) * (1000000000 * r - IZR c / 5)) <= d * b).
  { rewrite Rabs_mult. apply Rmult_le_compat; try apply Rabs_pos; [exact D|]. apply Rabs_le. unfold b. unfold b in Eb. lra. }
  eapply Rle_trans; [apply Rabs_triang|]. eapply Rle_trans; [apply Rplus_le_compat_r, Rabs_triang|]. rewrite Rabs_Ropp. lra.
Qed.
End Response.

(** ** without the number of ticks in the bound *)
Lemma pow_diff_any x y z k d : 0 <= x <= z -> 0 <= y <= z -> z < 1 -> Rabs (x - y) <= d -> Rabs (x ^ k - y ^ k) <= d / (1 - z).
Proof.
  intros X Y Z D. assert (D0 : 0 <= d) by (eapply Rle_trans; [apply Rabs_pos|exact D]). set (b := d / (1 - z)). assert (B : d = b - z * b) by (unfold b; field; lra).
  assert (B0 : 0 <= b) by (unfold b, Rdiv; apply Rmult_le_pos; [exact D0|left; apply Rinv_0_lt_compat; lra]).
  induction k as [|k IH]; [cbn; rewrite Rminus_diag_eq by reflexivity; now rewrite Rabs_R0|].
  cbn [pow]. replace (x * x ^ k - y * y ^ k) with (x * (x ^ k - y ^ k) + y ^ k * (x - y)) by ring.
  eapply Rle_trans; [apply Rabs_triang|]. rewrite !Rabs_mult.
  assert (P : 0 <= y ^ k <= 1). { split; [apply pow_le; lra|]. rewrite <- (pow1 k). apply pow_incr. lra. }
  rewrite (Rabs_pos_eq x), (Rabs_pos_eq (y ^ k)) by lra.
  assert (x * Rabs (x ^ k - y ^ k) <= z * b) by (apply Rmult_le_compat; try lra; apply Rabs_pos).
  assert (y ^ k * Rabs (x - y) <= 1 * d) by (apply Rmult_le_compat; try lra; apply Rabs_pos). lra.
Qed.
(** B is the largest number of events of a tick, eps the error of math.Exp *)
Definition lasting_error (m B : Z) (eps : R) : R := 14 * IZR m * (bpow radix2 (-47) + eps + bpow radix2 (-52)) * (IZR B / 5).
Section Lasting.
Variable mexp : f64 -> f64.
Variable m : Z.
Variable eps : R.
Hypothesis Hm : (1 <= m <= 1000)%Z.
Hypothesis Hf : fis_finite (mexp (alpha_arg m)) = true.
Hypothesis H1 : 0 <= f2r (mexp (alpha_arg m)) <= 1.
Hypothesis He : Rabs (f2r (mexp (alpha_arg m)) - exp (f2r (alpha_arg m))) <= eps.
Hypothesis Hs : eps <= bpow radix2 (-20).
Let w h := ewma_run (NewEWMA (ewma_alpha mexp m)) h.
Let a := f2r (ewma_alpha mexp m).
Let y := exp (- (5 / (60 * IZR m))).
Lemma weights : 0 <= 1 - a <= 1 - / (14 * IZR m) /\ 0 <= y <= 1 - / (14 * IZR m) /\ Rabs (a - (1 - y)) <= eps + bpow radix2 (-52).
Proof.
  destruct (builtin_alpha mexp m ltac:(lia) Hf (proj2 H1) (Rle_trans _ _ _ He Hs)) as [U _]. assert (A : 0 <= a <= 1) by exact (proj2 U).
  pose proof (builtin_alpha_value mexp m eps ltac:(lia) Hf H1 He) as Va. fold a y in Va.
  assert (Pm : 1 <= IZR m <= 1000) by (split; apply IZR_le; lia). set (M := IZR m) in *. clearbody M.
  assert (Y0 : 0 < y) by apply exp_pos.
  assert (Y1 : y <= 1 - / (12 * M + 1)).
  { unfold y. rewrite exp_Ropp. set (x := 5 / (60 * M)). assert (Ex : x = / (12 * M)) by (unfold x; field; lra). assert (Px : 0 < x) by (rewrite Ex; apply Rinv_0_lt_compat; lra).
    pose proof (exp_ineq1 x ltac:(lra)) as I. apply Rle_trans with (/ (1 + x)); [apply Rinv_le; lra|]. right. rewrite Ex. field. lra. }
  assert (E52 : bpow radix2 (-52) <= bpow radix2 (-20)) by (apply bpow_le; lia). assert (E20 : bpow radix2 (-20) = / 1048576) by reflexivity.
  assert (G : / (14 * M) + / 524288 <= / (12 * M + 1)).
  { apply Rmult_le_reg_r with (14 * M * (12 * M + 1) * 524288); [nra|]. field_simplify; [|lra|lra]. nra. }
  assert (Q : 0 < / 524288) by lra. split; [|split; [lra|exact Va]]. split; [lra|]. apply Rabs_le_inv in Va. lra.
Qed.
Lemma lasting B c k h h' : (1 <= B < 2 ^ 63)%Z -> (0 <= c <= B)%Z -> counts_upto B (tick_counts h) -> tick_counts h <> [] -> tick_counts (h ++ h') = (tick_counts h ++ repeat c k)%list ->
  let now := f2r (rate_now (w h)) in let later := f2r (rate_now (w (h ++ h'))) in
  Rabs (later - (IZR c / 5 + exp (- (INR k / (12 * IZR m))) * (now - IZR c / 5))) <= lasting_error m B eps.
Proof.
  intros HB Hc C N E now later. destruct weights as (Wa & Wy & Va).
  destruct (builtin_alpha mexp m ltac:(lia) Hf (proj2 H1) (Rle_trans _ _ _ He Hs)) as [U _].
  assert (C' : counts_upto B (tick_counts (h ++ h'))). { rewrite E. apply Forall_app. split; [exact C|]. clear -Hc. induction k; cbn; constructor; auto. }
  pose proof (proj2 (rate_accuracy _ B h U HB C)) as A1. pose proof (proj2 (rate_accuracy _ B (h ++ h') U HB C')) as A2. cbv zeta in A1, A2. fold a in A1, A2. fold (w h) in A1. fold now in A1. fold (w (h ++ h')) in A2. fold later in A2.
  rewrite E, (ideal_steady a c k) in A2 by exact N.
  assert (Pm : 1 <= IZR m) by (apply IZR_le; lia). set (g := / (14 * IZR m)) in *. assert (Pg : 0 < g) by (apply Rinv_0_lt_compat; lra). assert (Eg : 14 * IZR m = / g) by (unfold g; now rewrite Rinv_inv).
  assert (Ey : y ^ k = exp (- (INR k / (12 * IZR m)))). { unfold y. rewrite exp_pow. f_equal. field. lra. }
  assert (D : Rabs ((1 - a) ^ k - y ^ k) <= (eps + bpow radix2 (-52)) / (1 - (1 - g))). { apply pow_diff_any; [exact Wa|exact Wy|lra|]. replace (1 - a - y) with (- (a - (1 - y))) by ring. now rewrite Rabs_Ropp. }
  replace (1 - (1 - g)) with g in D by ring. rewrite <- Ey. clear Ey. set (r := ideal_average a (tick_counts h)) in *.
  assert (R : 0 <= r <= IZR B / 5000000000) by (apply ideal_range; auto; try lia; lra).
  assert (Cb : 0 <= IZR c <= IZR B) by (split; apply IZR_le; lia).
  assert (Yk : 0 <= y ^ k <= 1). { split; [apply pow_le; lra|]. rewrite <- (pow1 k). apply pow_incr. lra. }
  unfold lasting_error. rewrite Eg. set (b := IZR B / 5) in *. assert (Eb : IZR B / 5000000000 = b / 1000000000) by (unfold b; lra).
  assert (E47 : bpow radix2 (-47) = 4 * bpow radix2 (-49)) by (change (-47)%Z with (2 + -49)%Z; rewrite bpow_plus; reflexivity). rewrite E47.
  set (P := (1 - a) ^ k) in *. set (v := bpow radix2 (-49)) in *. set (d := eps + bpow radix2 (-52)) in *.
  assert (Inv : forall e, 0 <= e -> a * e <= 2 * (v * b) -> e <= / g * (2 * (v * b))).
  { intros e P0 L. apply Rmult_le_reg_l with g; [exact Pg|]. rewrite <- Rmult_assoc, Rinv_r, Rmult_1_l by lra. eapply Rle_trans; [|exact L]. apply Rmult_le_compat_r; lra. }
  apply Inv in A1, A2; try apply Rabs_pos.
  replace (later - (IZR c / 5 + y ^ k * (now - IZR c / 5))) with
    ((later - 1000000000 * (IZR c / 5000000000 + P * (r - IZR c / 5000000000))) + - (y ^ k * (now - 1000000000 * r)) + (P - y ^ k) * (1000000000 * r - IZR c / 5)) by lra.
  assert (T1 : Rabs (y ^ k * (now - 1000000000 * r)) <= / g * (2 * (v * b))).
  { rewrite Rabs_mult, (Rabs_pos_eq (y ^ k)) by lra. assert (y ^ k * Rabs (now - 1000000000 * r) <= 1 * Rabs (now - 1000000000 * r)) by (apply Rmult_le_compat_r; [apply Rabs_pos|lra]). lra. }
  assert (T2 : Rabs ((P - y ^ k) * (1000000000 * r - IZR c / 5)) <= d / g * b).
  { rewrite Rabs_mult. apply Rmult_le_compat; try apply Rabs_pos; [exact D|]. apply Rabs_le. unfold b. unfold b in Eb. lra. }
  eapply Rle_trans; [apply Rabs_triang|]. eapply Rle_trans; [apply Rplus_le_compat_r, Rabs_triang|]. rewrite Rabs_Ropp.
  replace (/ g * (4 * v + eps + bpow radix2 (-52)) * b) with (/ g * (2 * (v * b)) + / g * (2 * (v * b)) + d / g * b) by (unfold d, Rdiv; ring). lra.
Qed.
End Lasting.

(** From any history on, the rate of the m-minute average moves from where it is towards the rate
    at which events come, and after k ticks of 5 seconds the part e^(-k/(12m)) of the distance is
    left. *)
Theorem C77_response : forall mexp m eps B c k h h', (1 <= m <= 2 ^ 49)%Z ->
  fis_finite (mexp (alpha_arg m)) = true -> 0 <= f2r (mexp (alpha_arg m)) <= 1 ->
  Rabs (f2r (mexp (alpha_arg m)) - exp (f2r (alpha_arg m))) <= eps -> eps <= bpow radix2 (-20) ->
  (1 <= B < 2 ^ 63)%Z -> (0 <= c <= B)%Z -> counts_upto B (tick_counts h) -> tick_counts h <> [] ->
  tick_counts (h ++ h') = (tick_counts h ++ repeat c k)%list ->
  let rate h := f2r (rate_now (ewma_run (NewEWMA (ewma_alpha mexp m)) h)) in
  Rabs (rate (h ++ h') - (IZR c / 5 + exp (- (INR k / (12 * IZR m))) * (rate h - IZR c / 5))) <= response_error B (length (tick_counts h)) k eps.
Proof. intros. now apply response. Qed.

(** The error does not build up: the same with a bound in which neither the number of ticks before
    nor that of the ticks after occurs, for averages of up to 1000 minutes. *)
Theorem C77_any_time : forall mexp m eps B c k h h', (1 <= m <= 1000)%Z ->
  fis_finite (mexp (alpha_arg m)) = true -> 0 <= f2r (mexp (alpha_arg m)) <= 1 ->
  Rabs (f2r (mexp (alpha_arg m)) - exp (f2r (alpha_arg m))) <= eps -> eps <= bpow radix2 (-20) ->
  (1 <= B < 2 ^ 63)%Z -> (0 <= c <= B)%Z -> counts_upto B (tick_counts h) -> tick_counts h <> [] ->
  tick_counts (h ++ h') = (tick_counts h ++ repeat c k)%list ->
  let rate h := f2r (rate_now (ewma_run (NewEWMA (ewma_alpha mexp m)) h)) in
  Rabs (rate (h ++ h') - (IZR c / 5 + exp (- (INR k / (12 * IZR m))) * (rate h - IZR c / 5))) <= lasting_error m B eps.
Proof. intros. now apply lasting. Qed.

(** When events stop coming, 1/e of the rate is left after m minutes, whatever the rate. *)
Theorem C77_window : forall mexp m eps B h h', (1 <= m <= 2 ^ 49)%Z ->
  fis_finite (mexp (alpha_arg m)) = true -> 0 <= f2r (mexp (alpha_arg m)) <= 1 ->
  Rabs (f2r (mexp (alpha_arg m)) - exp (f2r (alpha_arg m))) <= eps -> eps <= bpow radix2 (-20) ->
  (1 <= B < 2 ^ 63)%Z -> counts_upto B (tick_counts h) -> tick_counts h <> [] ->
  tick_counts (h ++ h') = (tick_counts h ++ repeat 0%Z (Z.to_nat (12 * m)))%list ->
  let rate h := f2r (rate_now (ewma_run (NewEWMA (ewma_alpha mexp m)) h)) in
  Rabs (rate (h ++ h') - rate h / exp 1) <= response_error B (length (tick_counts h)) (Z.to_nat (12 * m)) eps.
Proof.
  intros mexp m eps B h h' Hm Hf H1 He Hs HB C N E rate.
  pose proof (C77_response mexp m eps B 0 _ h h' Hm Hf H1 He Hs HB ltac:(lia) C N E) as R. cbv beta zeta in R. change (f2r (rate_now (ewma_run (NewEWMA (ewma_alpha mexp m)) h))) with (rate h) in R. change (f2r (rate_now (ewma_run (NewEWMA (ewma_alpha mexp m)) (h ++ h')))) with (rate (h ++ h')) in R. clearbody rate.
  assert (P : 1 <= IZR m) by (apply IZR_le; lia).
  assert (X : INR (Z.to_nat (12 * m)) / (12 * IZR m) = 1). { rewrite INR_IZR_INZ, Z2Nat.id, mult_IZR by lia. field. lra. }
  rewrite X, exp_Ropp in R. replace (0 / 5 + / exp 1 * (rate h - 0 / 5)) with (rate h / exp 1) in R by (unfold Rdiv; ring). exact R.
Qed.

(** While events come at c per tick, the rate gets as close to c/5 per second as the error of the
    arithmetic allows, however far off it was. *)
Theorem C77_settles : forall mexp m eps B c k h h', (1 <= m <= 2 ^ 49)%Z ->
  fis_finite (mexp (alpha_arg m)) = true -> 0 <= f2r (mexp (alpha_arg m)) <= 1 ->
  Rabs (f2r (mexp (alpha_arg m)) - exp (f2r (alpha_arg m))) <= eps -> eps <= bpow radix2 (-20) ->
  (1 <= B < 2 ^ 63)%Z -> (0 <= c <= B)%Z -> counts_upto B (tick_counts h) -> tick_counts h <> [] ->
  tick_counts (h ++ h') = (tick_counts h ++ repeat c k)%list ->
  let rate h := f2r (rate_now (ewma_run (NewEWMA (ewma_alpha mexp m)) h)) in
  Rabs (rate (h ++ h') - IZR c / 5) <= exp (- (INR k / (12 * IZR m))) * Rabs (rate h - IZR c / 5) + response_error B (length (tick_counts h)) k eps.
Proof.
  intros mexp m eps B c k h h' Hm Hf H1 He Hs HB Hc C N E rate.
  pose proof (C77_response mexp m eps B c _ h h' Hm Hf H1 He Hs HB Hc C N E) as R. cbv beta zeta in R. change (f2r (rate_now (ewma_run (NewEWMA (ewma_alpha mexp m)) h))) with (rate h) in R. change (f2r (rate_now (ewma_run (NewEWMA (ewma_alpha mexp m)) (h ++ h')))) with (rate (h ++ h')) in R. clearbody rate.
  set (x := exp (- (INR k / (12 * IZR m)))) in *. assert (0 < x) by apply exp_pos.
  replace (rate (h ++ h') - IZR c / 5) with (x * (rate h - IZR c / 5) + (rate (h ++ h') - (IZR c / 5 + x * (rate h - IZR c / 5)))) by ring.
  eapply Rle_trans; [apply Rabs_triang|]. rewrite Rabs_mult, (Rabs_pos_eq x) by lra. lra.
Qed.

(** ** The same of a meter in a program, whatever else the program does: [c] makes the meter, [q]
    is what the program does until the first reading, [q'] until the second. *)
Theorem C77_meter : forall mexp m eps B n j p c o v k q q' x u x' u' r o1 o2, In (m, r) [(1%Z, RK1); (5%Z, RK5); (15%Z, RK15)] ->
  fis_finite (mexp (alpha_arg m)) = true -> 0 <= f2r (mexp (alpha_arg m)) <= 1 ->
  Rabs (f2r (mexp (alpha_arg m)) - exp (f2r (alpha_arg m))) <= eps -> eps <= bpow radix2 (-20) ->
  let st := reach mexp p in let st1 := fst (step mexp st (c, o)) in let st2 := run mexp st1 q in let st3 := run mexp st1 (q ++ q') in
  snd (step mexp st (c, o)) = Some (Ok (RVal v)) -> (length (heap (fst st)) <= k)%nat -> meter_of (fst st1) v = Some k ->
  nth_error (snd st2) x = Some u -> meter_of (fst st2) u = Some k -> nth_error (snd st3) x' = Some u' -> meter_of (fst st3) u' = Some k ->
  let counts q := tick_counts (map as_ewma (happened mexp k st1 q)) in
  (1 <= B < 2 ^ 63)%Z -> (0 <= n <= B)%Z -> counts_upto B (counts q) -> counts q <> [] -> counts (q ++ q') = (counts q ++ repeat n j)%list ->
  exists now later, snd (step mexp st2 (OMRate x r, o1)) = Some (Ok (RF now)) /\ snd (step mexp st3 (OMRate x' r, o2)) = Some (Ok (RF later)) /\
    Rabs (f2r later - (IZR n / 5 + exp (- (INR j / (12 * IZR m))) * (f2r now - IZR n / 5))) <= Rmin (response_error B (length (counts q)) j eps) (lasting_error m B eps).
Proof.
  intros mexp m eps B n j p c o v k q q' x u x' u' r o1 o2 Hr Hf H1 He Hs st st1 st2 st3 R L M X U X' U' counts HB Hn C N E.
  exists (shown mexp (o_now o) (happened mexp k st1 q) r), (shown mexp (o_now o) (happened mexp k st1 (q ++ q')) r).
  split; [exact (C69_rates mexp p c o v k q x u r o1 R L M X U)|]. split; [exact (C69_rates mexp p c o v k (q ++ q') x' u' r o2 R L M X' U')|].
  assert (Sh : forall es, shown mexp (o_now o) es r = rate_now (ewma_run (NewEWMA (ewma_alpha mexp m)) (map as_ewma es))).
  { intros es. destruct (C23_recurrence (ewma_alpha mexp m) (map as_ewma es)) as (_ & _ & Y & _). unfold rate_now. rewrite Y. destruct Hr as [H|[H|[H|[]]]]; inversion H; subst; reflexivity. }
  rewrite !Sh. assert (Hap : forall st0 a, happened mexp k st0 (a ++ q') = (happened mexp k st0 a ++ happened mexp k (run mexp st0 a) q')%list).
  { intros st0 a. revert st0. induction a as [|[c0 o0] a IH]; intros st0; [reflexivity|]. cbn [app happened]. rewrite IH, app_assoc. reflexivity. }
  unfold counts in *. rewrite Hap, map_app in *.
  assert (Hm : (1 <= m <= 2 ^ 49)%Z) by (destruct Hr as [H|[H|[H|[]]]]; inversion H; lia).
  assert (Hm' : (1 <= m <= 1000)%Z) by (destruct Hr as [H|[H|[H|[]]]]; inversion H; lia).
  apply Rmin_glb; [exact (C77_response mexp m eps B n j _ _ Hm Hf H1 He Hs HB Hn C N E)|exact (C77_any_time mexp m eps B n j _ _ Hm' Hf H1 He Hs HB Hn C N E)].
Qed.

(** fifteen-minute average: a first tick with 100 events, then fifteen minutes without any *)
Definition burst : list ewma_op := [WUpdate 60; WUpdate 40; WTick].
Definition silence : list ewma_op := repeat WTick 180.
Example C77_example : let mexp := fun _ : f64 => ex_exp in
  (fis_finite (mexp (alpha_arg 15)) = true /\ 0 <= f2r (mexp (alpha_arg 15)) <= 1 /\ Rabs (f2r (mexp (alpha_arg 15)) - exp (f2r (alpha_arg 15))) <= bpow radix2 (-20)) /\
  counts_upto 100 (tick_counts burst) /\ tick_counts burst = [100%Z] /\ tick_counts (burst ++ silence) = (tick_counts burst ++ repeat 0%Z (Z.to_nat (12 * 15)))%list /\
  tick_counts (burst ++ concat (repeat [WUpdate 3; WTick] 7)) = (tick_counts burst ++ repeat 3%Z 7)%list.
Proof.
  split; [exact ex_exp_ok|]. split; [repeat constructor; cbn; lia|]. split; [reflexivity|]. split; vm_compute; reflexivity.
Qed.
(** with eps = 2^-52 (math.Exp good to one unit) the bound for it is below 10^-9 per second *)
Example C77_error_example : response_error 100 1 180 (bpow radix2 (-52)) <= / 10 ^ 9.
Proof.
  unfold response_error. assert (E : INR 180 = 180) by (rewrite INR_IZR_INZ; reflexivity). rewrite E. change (INR 1) with 1.
  assert (A : bpow radix2 (-49) = / 562949953421312) by reflexivity. assert (B : bpow radix2 (-52) = / 4503599627370496) by reflexivity. rewrite A, B. lra.
Qed.
(** for the fifteen-minute average and at most 10^6 events per tick the error stays below 2 in 10^6
    per second for ever *)
Example C77_lasting_example : lasting_error 15 1000000 (bpow radix2 (-52)) <= 2 / 10 ^ 6.
Proof.
  unfold lasting_error. assert (A : bpow radix2 (-47) = / 140737488355328) by reflexivity. assert (B : bpow radix2 (-52) = / 4503599627370496) by reflexivity. rewrite A, B. lra.
Qed.
(** a meter: 100 events and a tick, then fifteen minutes without any *)
Definition after_burst : list (op * orc) := [(OMark 1 100, orc0); (ORound, orc0)].
Definition quiet_time : list (op * orc) := repeat (ORound, orc0) 180.
Example C77_meter_example : let mexp := fun _ : f64 => ex_exp in
  let st := reach mexp [] in let st1 := fst (step mexp st (ONew NMeter, orc0)) in let st2 := run mexp st1 after_burst in let st3 := run mexp st1 (after_burst ++ quiet_time) in
  exists k, snd (step mexp st (ONew NMeter, orc0)) = Some (Ok (RVal (VMeter k))) /\ (length (heap (fst st)) <= k)%nat /\ meter_of (fst st1) (VMeter k) = Some k /\
    nth_error (snd st2) 1 = Some (VMeter k) /\ meter_of (fst st2) (VMeter k) = Some k /\ nth_error (snd st3) 1 = Some (VMeter k) /\ meter_of (fst st3) (VMeter k) = Some k /\
    tick_counts (map as_ewma (happened mexp k st1 after_burst)) = [100%Z] /\
    tick_counts (map as_ewma (happened mexp k st1 (after_burst ++ quiet_time))) = ([100%Z] ++ repeat 0%Z 180)%list.
Proof.
  cbv zeta. exists 6%nat. split; [vm_compute; reflexivity|]. split; [apply Nat.leb_le; vm_compute; reflexivity|]. split; [vm_compute; reflexivity|]. split; [vm_compute; reflexivity|]. split; [vm_compute; reflexivity|].
  split; [vm_compute; reflexivity|]. split; [vm_compute; reflexivity|]. split; vm_compute; reflexivity.
Qed.
