(** Properties C59 and C49, the notation of durations. *)
From Coq Require Import ZArith QArith List String Ascii Bool Lia.
From Verif.Model Require Import GoInt GoFloat Fmt Duration Report Librato.
From Verif.Spec Require Import TextSpec DurationSpec.
From Verif.Proofs Require Import TextProofs DurationProofs.
Import ListNotations.
Local Open Scope string_scope.
Local Open Scope Z_scope.

(** the text of a duration reads as that duration *)
Theorem C59_duration : forall d, is_duration (duration_string d) (inject_Z d).
Proof. exact duration_reads. Qed.
(** its first character is a digit other than 0, and this is what log.go:39 cuts off *)
Theorem C59_leading : forall d, 0 < d -> exists c v, duration_string d = String c (log_suffix d) /\ digit_value c = Some v /\ v <> 0.
Proof. intros d H. destruct (duration_leads d H) as (c & r & v & E & D & N). exists c, v. unfold log_suffix. rewrite E. auto. Qed.
(** What Log prints for a duration, a number of units of [scale] nanoseconds to two decimals
    and a suffix, reads as that duration exactly when [scale] is one of the units of package
    time *)
Theorem C59_units : forall scale, 0 < scale ->
  ((forall t n, parse_fixed 2 t = Some n -> is_duration (t ++ log_suffix scale) (inject_Z (n * scale) / inject_Z 100)) <->
   In scale [1; 10 ^ 3; 10 ^ 6; 10 ^ 9; 60 * 10 ^ 9; 3600 * 10 ^ 9]).
Proof.
  intros scale P. split.
  - intros H. apply one_suffix; [exact P| |].
    + apply (is_duration_ext ("1.00" ++ log_suffix scale) _ _) with (2 := H "1.00" 100 eq_refl). rewrite !inject_Z_mult. field.
    + apply (is_duration_ext ("2.00" ++ log_suffix scale) _ _) with (2 := H "2.00" 200 eq_refl). rewrite !inject_Z_mult. field.
  - intros H t n Pt. destruct (suffix_units scale H) as (un & rest & Hu & E & S0 & R). unfold log_suffix. rewrite E. exact (fixed_value 1 t n un scale rest Pt Hu S0 R).
Qed.
Example C59_duration_example : duration_string 5025600000000 = "1h23m45.6s" /\ duration_string (-1500) = "-1.5" ++ micro ++ "s" /\ duration_string 100 = "100ns" /\
  is_duration "1h23m45.6s" (inject_Z 5025600000000) /\ is_duration ("0.30" ++ log_suffix (60 * 10 ^ 9)) (inject_Z (18 * 10 ^ 9)) /\
  ~ is_duration ("3.00" ++ log_suffix (10 * 10 ^ 6)) (inject_Z (3 * (10 * 10 ^ 6))).
Proof.
  split; [vm_compute; reflexivity|]. split; [vm_compute; reflexivity|]. split; [vm_compute; reflexivity|]. split; [|split].
  - eexists. split; [vm_compute; reflexivity|reflexivity].
  - eexists. split; [vm_compute; reflexivity|reflexivity].
  - intros (x & H & E). vm_compute in H. injection H as <-. discriminate E.
Qed.

(** ** C49: the attributes of timers *)
Lemma match_unit x un : ends x -> no_digit un = true -> unit_match (x ++ un) = un.
Proof.
  intros (x' & c & d & -> & D) N. assert (Dc : is_digit c = true). { unfold digit_value in D. unfold is_digit. destruct ((48 <=? Z.of_nat (nat_of_ascii c)) && (Z.of_nat (nat_of_ascii c) <=? 57)) eqn:E; [|discriminate]. apply andb_prop in E. destruct E as [E1 E2]. apply Z.leb_le in E1, E2. apply andb_true_intro. split; apply Nat.leb_le; lia. }
  assert (Nx : forall y, no_digit (y ++ String c un) = false). { induction y as [|a y IH]; cbn [append no_digit]; [now rewrite Dc|]. rewrite IH. apply andb_false_r. }
  rewrite app_assoc'. cbn [append]. induction x' as [|a x' IH].
  - pose proof (Nx "") as X. cbn [append] in *. cbn [unit_match]. rewrite X. destruct un; [reflexivity|]. cbn [unit_match]. now rewrite N.
  - pose proof (Nx (String a x')) as X. cbn [append] in *. cbn [unit_match]. rewrite X. exact IH.
Qed.
(** NewReporter's display unit for timers is the last unit of the text of [u] *)
Lemma short_unit_spec u : 0 < u -> short_unit u = last_unit u.
Proof.
  intros U. destruct (duration_ends u U) as (x & E & X). unfold short_unit. rewrite E. apply match_unit; [exact X|]. unfold last_unit. destruct (u <? 10 ^ 3); [reflexivity|]. destruct (u <? 10 ^ 6); [reflexivity|]. now destruct (u <? 10 ^ 9).
Qed.
(** Librato is told to divide the timings, which are in nanoseconds, by [u] and to show the
    quotient with a unit: the right one exactly when [u] is at most a second and a unit of
    package time *)
Theorem C49_unit : forall d s ps u, 0 < u ->
  exists short, timer_attributes (new_reporter d s ps u) = [("display_transform", "x/" ++ fmt_d u); ("display_units_short", short)] /\
    (In (short, u) unit_names <-> In u [1; 10 ^ 3; 10 ^ 6; 10 ^ 9]).
Proof.
  intros d s ps u U. exists (short_unit u). split; [reflexivity|]. rewrite (short_unit_spec u U). split.
  - intros H. unfold last_unit in H. cbn [unit_names In] in H. destruct (Z.ltb_spec u (10 ^ 3)) as [L|L]; [|destruct (Z.ltb_spec u (10 ^ 6)) as [L6|L6]; [|destruct (Z.ltb_spec u (10 ^ 9)) as [L9|L9]]];
      repeat destruct H as [H|H]; try contradiction; try discriminate H; injection H as <-; cbn [In]; tauto.
  - intros H. cbn [In] in H. repeat destruct H as [<-|H]; try contradiction; vm_compute; tauto.
Qed.
(** a minute is shown as a second, and so is an hour *)
Theorem C49_minute_refuted : ~ forall d s ps u, In u (map snd unit_names) -> In ("display_units_short", "s") (timer_attributes (new_reporter d s ps u)) -> u = 10 ^ 9.
Proof. intros H. specialize (H (10 ^ 10) "" [] (60 * 10 ^ 9)). assert (X : 60 * 10 ^ 9 = 10 ^ 9); [|discriminate X]. apply H; vm_compute; tauto. Qed.
Example C49_unit_example : timer_attributes (new_reporter (10 ^ 10) "" [] (10 ^ 6)) = [("display_transform", "x/1000000"); ("display_units_short", "ms")] /\
  timer_attributes (new_reporter (10 ^ 10) "" [] (3600 * 10 ^ 9)) = [("display_transform", "x/3600000000000"); ("display_units_short", "s")].
Proof. split; vm_compute; reflexivity. Qed.
