(** Properties C59 (Log), C60 (Syslog) and C61 (Stathat).  The registry is the value [v] which
    the program holds at [r], and it holds the metric registered as [nm] at [at_ nm]. *)
From Coq Require Import ZArith Reals List String Ascii Bool Lia Lra.
From Verif.Model Require Import GoInt GoFloat GoBase World Fmt Duration Report.
From Verif.Spec Require Import ApiSpec RegistrySpec HealthSpec GetAllSpec TextSpec ReportSpec WriteSpec LogSpec.
From Verif.Proofs Require Import FloatFacts WorldBase WorldOps WorldStep GetAllProofs HealthProofs TextProofs ReportProofs LineProofs WriteProofs LogProofs HealthFree.
From Verif.Props Require Import SnapshotProps HealthProps GetAllProps ReportProps WriteProps.
Import ListNotations.
Local Open Scope nat_scope.
Local Open Scope string_scope.

Lemma forall2_in_l {A B} (R : A -> B -> Prop) l m a : Forall2 R l m -> In a l -> exists b, In b m /\ R a b.
Proof. intros F. induction F as [|x y l m H F IH]; intros Hi; [destruct Hi|]. destruct Hi as [<-|Hi]; [exists y; split; [now left|exact H]|]. destruct (IH Hi) as (z & Hz & Rz). exists z. split; [now right|exact Rz]. Qed.
(** the readings of a report that runs health checks *)
Lemma report_reads {A} mexp (st : state) r v b o at_ (render : string -> reading -> res (list A)) w' out : inv st -> nth_error (snd st) r = Some v -> base v = Some b ->
  (forall nm i, shown st v nm = Some i -> nth_error (snd st) (at_ nm) = Some i) ->
  Report.report true ps5 render v o (fst st) = (w', Ok out) ->
  exists names rds outs, visits st v names /\ Forall2 (reads mexp st v o at_) names rds /\ Forall2 (fun nr a => render (fst nr) (snd nr) = Ok a) rds outs /\ out = List.concat outs.
Proof.
  intros I E B At H. destruct (reg_each_run st v b o I (held_vok st r v I E) B) as (es & R & ND & Sh & F).
  unfold Report.report in H. rewrite (bind_ok _ _ _ _ _ _ R) in H.
  assert (M : Forall (fun kv => is_metric (snd kv) = true) es) by (eapply Forall_impl; [|exact F]; cbn; tauto).
  destruct (each_readings ps5 render o es (fst st) w' out M H) as (rds & outs & Ep & _ & -> & Fo).
  exists (map fst es), rds, outs. split; [now apply es_visits|]. split; [exact (each_reads mexp st v o at_ es w' rds I ND Sh F At Ep)|]. auto.
Qed.

(** ** C59 *)
(** on each cue, the messages are one block of lines for each registered metric; the durations
    of timers are in units of [scale] nanoseconds *)
Theorem C59_log : forall mexp p r v b o at_ error_text scale w' out, let st := reach mexp p in
  nth_error (snd st) r = Some v -> base v = Some b ->
  (forall nm i, shown st v nm = Some i -> nth_error (snd st) (at_ nm) = Some i) ->
  log_once error_text scale v o (fst st) = (w', Ok out) ->
  exists names blocks, visits st v names /\ out = map (fun l => l ++ newline) (List.concat blocks) /\
    Forall2 (fun nm ls => exists i, shown st v nm = Some i /\ block mexp error_text st v o log_rows scale (log_suffix scale) (at_ nm) nm i ls) names blocks.
Proof.
  intros mexp p r v b o at_ error_text scale w' out st. assert (I : inv st) by exact (reach_inv mexp p). clearbody st. intros E B At H. unfold log_once in H.
  destruct (report_reads mexp st r v b o at_ _ w' out I E B At H) as (names & rds & outs & V & Rd & Fo & ->).
  destruct (blocks_of mexp error_text st v o at_ (log_lines error_text scale (log_suffix scale)) log_rows scale (log_suffix scale) names rds outs) as (blocks & Eb & Bl); auto.
  - intros nm e l Hl. unfold log_lines, write_lines in Hl. injection Hl as <-. now rewrite !app_assoc'.
  - intros Q x nm rd l. apply log_rows_ok.
  - exists names, blocks. auto.
Qed.
(** no scale makes it panic, not even 0 *)
Theorem C59_returns : forall mexp p r v b o error_text scale, let st := reach mexp p in
  nth_error (snd st) r = Some v -> base v = Some b -> prepared mexp st v o standard true ->
  exists w' out, log_once error_text scale v o (fst st) = (w', Ok out).
Proof.
  intros mexp p r v b o error_text scale st. assert (I : inv st) by exact (reach_inv mexp p). clearbody st. intros E B P. unfold log_once.
  apply (report_returns mexp st r v b o ps5 true _ I E B P). intros nm i rd _ _. unfold log_lines, write_lines. destruct rd; eauto.
Qed.
(** the suffix for the units of package time *)
Theorem C59_suffix : log_suffix 1 = "ns" /\ log_suffix (10 ^ 3) = micro ++ "s" /\ log_suffix (10 ^ 6) = "ms" /\ log_suffix (10 ^ 9) = "s" /\
  log_suffix (60 * 10 ^ 9) = "m0s" /\ log_suffix (3600 * 10 ^ 9) = "h0m0s".
Proof. repeat split; vm_compute; reflexivity. Qed.
(** with other scales the number with its suffix reads as another duration: a timer that has
    timed 30 milliseconds, logged in units of 10 milliseconds *)
Definition slow : list (op * orc) := map (fun c => (c, orc_at (7 * 10 ^ 9))) [ONew NTimer; OUpdate 1 30000000; ORegister 0 "t" 1]%Z.
Theorem C59_scale_refuted : ~ forall mexp p r v b o x error_text scale w' out t nanoseconds n, let st := reach mexp p in
  nth_error (snd st) r = Some v -> base v = Some b -> shown st v "t" = nth_error (snd st) x -> (0 < scale)%Z ->
  log_once error_text scale v o (fst st) = (w', Ok out) ->
  In ("  min:         " ++ t ++ "ms" ++ newline) out -> parse_fixed 3 (unpad t) = Some n ->
  snd (step mexp st (OStat x SMin, o)) = Some (Ok (RZ nanoseconds)) ->
  (nanoseconds = n * 1000)%Z.
Proof.
  intros H.
  specialize (H one_exp slow 0 (VReg 0) 0 (orc_at (8 * 10 ^ 9)) 1 (fun _ => "") 10000000%Z
    (fst (log_once (fun _ => "") 10000000 (VReg 0) (orc_at (8 * 10 ^ 9)) (fst (reach one_exp slow))))
    match snd (log_once (fun _ => "") 10000000 (VReg 0) (orc_at (8 * 10 ^ 9)) (fst (reach one_exp slow))) with Ok out => out | Panic _ => [] end
    "        3.000" 30000000%Z 3000%Z).
  assert (X : (30000000 = 3000 * 1000)%Z); [|discriminate X]. apply H.
  - vm_compute; reflexivity.
  - reflexivity.
  - vm_compute; reflexivity.
  - lia.
  - assert (R : match snd (log_once (fun _ => "") 10000000 (VReg 0) (orc_at (8 * 10 ^ 9)) (fst (reach one_exp slow))) with Ok _ => true | Panic _ => false end = true) by (vm_compute; reflexivity).
    destruct (log_once (fun _ => "") 10000000 (VReg 0) (orc_at (8 * 10 ^ 9)) (fst (reach one_exp slow))) as [w [out|]]; [reflexivity|discriminate].
  - vm_compute. auto 20.
  - vm_compute; reflexivity.
  - vm_compute; reflexivity.
Qed.

(** ** C60 *)
(** one message for each registered metric *)
Theorem C60_syslog : forall mexp p r v b o at_ error_text w' out, let st := reach mexp p in
  nth_error (snd st) r = Some v -> base v = Some b ->
  (forall nm i, shown st v nm = Some i -> nth_error (snd st) (at_ nm) = Some i) ->
  syslog_once error_text v o (fst st) = (w', Ok out) ->
  exists names, visits st v names /\ Forall2 (fun nm l => exists i, shown st v nm = Some i /\ sys_says mexp error_text st v o (at_ nm) nm i l) names out.
Proof.
  intros mexp p r v b o at_ error_text w' out st. assert (I : inv st) by exact (reach_inv mexp p). clearbody st. intros E B At H. unfold syslog_once in H.
  destruct (report_reads mexp st r v b o at_ _ w' out I E B At H) as (names & rds & outs & V & Rd & Fo & ->). exists names. split; [exact V|]. eapply messages_of; eauto.
Qed.
Theorem C60_returns : forall mexp p r v b o error_text, let st := reach mexp p in
  nth_error (snd st) r = Some v -> base v = Some b -> prepared mexp st v o standard true ->
  exists w' out, syslog_once error_text v o (fst st) = (w', Ok out).
Proof.
  intros mexp p r v b o error_text st. assert (I : inv st) by exact (reach_inv mexp p). clearbody st. intros E B P. unfold syslog_once.
  apply (report_returns mexp st r v b o ps5 true _ I E B P). intros nm i rd _ _. unfold syslog_lines. eauto.
Qed.

(** ** C61 *)
(** what is posted for each registered metric; nothing for health checks *)
Theorem C61_stathat : forall mexp p r v b o at_ w' out, let st := reach mexp p in
  nth_error (snd st) r = Some v -> base v = Some b ->
  (forall nm i, shown st v nm = Some i -> nth_error (snd st) (at_ nm) = Some i) ->
  stathat v o (fst st) = (w', Ok out) ->
  exists names posts, visits st v names /\ out = List.concat posts /\
    Forall2 (fun nm ps => exists i, shown st v nm = Some i /\ Forall2 (hat_says mexp st o (at_ nm) nm) ps (hat_table (at_ nm) (cls i))) names posts.
Proof.
  intros mexp p r v b o at_ w' out st. assert (I : inv st) by exact (reach_inv mexp p). clearbody st. intros E B At H. unfold stathat in H.
  destruct (report_told mexp st r v b o ps5 false stathat_posts at_ w' out I E B At H) as (names & posts & V & -> & T).
  exists names, posts. split; [exact V|]. split; [reflexivity|]. eapply forall2_impl; [|exact T]. intros nm ps (i & Si & _ & Ti). exists i. split; [exact Si|].
  destruct (class_eqb (cls i) CHealth) eqn:Ch.
  - subst ps. assert (C : cls i = CHealth) by (destruct (cls i); try discriminate Ch; reflexivity). rewrite C. constructor.
  - destruct Ti as (rd & K & An & Hr). assert (N : kind_rd rd <> CHealth) by (rewrite K; intros C; rewrite C in Ch; discriminate). rewrite <- K.
    eapply forall2_impl; [|exact (hat_all _ _ _ _ _ N An Hr)]. intros q [[suffix c] s] X. exact X.
Qed.
Theorem C61_returns : forall mexp p r v b o, let st := reach mexp p in
  nth_error (snd st) r = Some v -> base v = Some b -> prepared mexp st v o standard false ->
  exists w' out, stathat v o (fst st) = (w', Ok out).
Proof.
  intros mexp p r v b o st. assert (I : inv st) by exact (reach_inv mexp p). clearbody st. intros E B P. unfold stathat.
  apply (report_returns mexp st r v b o ps5 false _ I E B P). intros nm i rd _ _. unfold stathat_posts. eauto.
Qed.
(** health checks are not run: whatever they would do, the posts and the state are the same *)
Theorem C61_health : forall v o h w, stathat v (with_health h o) w = stathat v o w.
Proof. intros v o h w. apply hi_report. Qed.
(** a gauge is posted exactly if its value is at most 2^53 in absolute value *)
Theorem C61_gauge : forall mexp p r v b o at_ nm i n w' out, let st := reach mexp p in
  nth_error (snd st) r = Some v -> base v = Some b ->
  (forall nm i, shown st v nm = Some i -> nth_error (snd st) (at_ nm) = Some i) ->
  shown st v nm = Some i -> cls i = CGauge -> snd (step mexp st (OValue (at_ nm), o)) = Some (Ok (RZ n)) ->
  (Z.abs n <= 2 ^ 53)%Z -> stathat v o (fst st) = (w', Ok out) ->
  exists y, In (PostValue nm y) out /\ fis_finite y = true /\ f2r y = IZR n.
Proof.
  intros mexp p r v b o at_ nm i n w' out st E B At Si C A N H.
  destruct (C61_stathat mexp p r v b o at_ w' out E B At H) as (names & posts & V & -> & F). fold st in V, F.
  assert (Hn : In nm names) by (apply V; congruence). destruct (forall2_in_l _ _ _ nm F Hn) as (ps & Hp & i' & Si' & Fp). rewrite Si in Si'. injection Si' as <-. rewrite C in Fp. cbn [hat_table] in Fp.
  inversion Fp as [|q f ps' tl Hq F2]; subst. inversion F2; subst. destruct Hq as (a & Ha & Hq). unfold answer in Ha. cbn [order_free] in Ha. rewrite A in Ha. injection Ha as <-.
  destruct q as [|m y]; [contradiction|]. destruct Hq as (-> & Hy). cbn in Hy. subst y. rewrite app_nil_r' in Hp.
  exists (f_of_int n). split; [apply in_concat; eexists; split; [exact Hp|now left]|]. split.
  - apply f_of_int_finite. assert (2 ^ 53 <= 2 ^ 1000)%Z by (apply Z.pow_le_mono_r; lia). lia.
  - now apply f_of_int_exact.
Qed.
(** above that it need not be *)
Definition vast : list (op * orc) := map (fun c => (c, orc_at 0)) [ONew NGauge; OUpdate 1 (2 ^ 53 + 1); ORegister 0 "g" 1]%Z.
Theorem C61_gauge_refuted : ~ forall mexp p r v b o at_ nm i n w' out, let st := reach mexp p in
  nth_error (snd st) r = Some v -> base v = Some b ->
  (forall nm i, shown st v nm = Some i -> nth_error (snd st) (at_ nm) = Some i) ->
  shown st v nm = Some i -> cls i = CGauge -> snd (step mexp st (OValue (at_ nm), o)) = Some (Ok (RZ n)) ->
  stathat v o (fst st) = (w', Ok out) ->
  exists y, In (PostValue nm y) out /\ f2r y = IZR n.
Proof.
  intros H. set (run := stathat (VReg 0) (orc_at 0) (fst (reach one_exp vast))).
  assert (R : match snd run with Ok [PostValue n y] => Z.eqb (float64bits y) (float64bits (f_of_int (2 ^ 53))) | _ => false end = true) by (vm_compute; reflexivity).
  specialize (H one_exp vast 0 (VReg 0) 0 (orc_at 0) (fun _ => 1) "g" (VGauge 2) (2 ^ 53 + 1)%Z (fst run)). cbv zeta in H. fold run in H.
  destruct run as [w [out|]]; [|discriminate R]. cbn [fst snd] in *. destruct (H out) as (y & Hy & Ey).
  - vm_compute; reflexivity.
  - reflexivity.
  - intros nm i. unfold shown. cbn [base]. change (full (VReg 0) "") with "". assert (P : String.prefix "" nm = true) by (destruct nm; reflexivity). rewrite P. unfold registered.
    replace (nth_error (heap (fst (reach one_exp vast))) 0) with (Some (OReg [("g", VGauge 2)])) by (vm_compute; reflexivity). unfold find. cbn [fst snd].
    destruct (String.eqb "g" nm); [|discriminate]. intros Si. injection Si as <-. vm_compute; reflexivity.
  - vm_compute; reflexivity.
  - reflexivity.
  - vm_compute; reflexivity.
  - reflexivity.
  - destruct out as [|[|n z] [|]]; try discriminate R. destruct Hy as [Hy|[]]. injection Hy as _ ->. apply Z.eqb_eq, f64_eq_bits in R. subst y.
    rewrite (f_of_int_exact (2 ^ 53)) in Ey by lia. apply eq_IZR in Ey. lia.
Qed.
(** two metrics can be posted under one name: a counter named "m.count" and a meter named "m" *)
Definition clash : list (op * orc) := map (fun c => (c, orc_at 0)) [ONew NCounter; OInc 1 5; ORegister 0 "m.count" 1; ONew NMeter; OMark 2 3; ORegister 0 "m" 2]%Z.
Theorem C61_names_refuted : ~ forall mexp p r v b o w' out, let st := reach mexp p in
  nth_error (snd st) r = Some v -> base v = Some b -> stathat v o (fst st) = (w', Ok out) -> NoDup (map post_name out).
Proof.
  intros H. set (run := stathat (VReg 0) (orc_at 0) (fst (reach one_exp clash))).
  assert (R : match snd run with Ok out => existsb (fun k => String.eqb (nth k (map post_name out) "") "m.count" && String.eqb (nth (S k) (map post_name out) "") "m.count" && Nat.ltb (S k) (List.length out)) [0] | Panic _ => false end = true) by (vm_compute; reflexivity).
  specialize (H one_exp clash 0 (VReg 0) 0 (orc_at 0) (fst run)). cbv zeta in H. fold run in H. destruct run as [w [out|]]; [|discriminate R]. cbn [fst snd] in *.
  specialize (H out ltac:(vm_compute; reflexivity) eq_refl eq_refl). cbn [existsb] in R. rewrite orb_false_r in R. apply andb_true_iff in R. destruct R as (R & L). apply andb_true_iff in R. destruct R as (R0 & R1).
  apply String.eqb_eq in R0, R1. apply Nat.ltb_lt in L. rewrite NoDup_nth in H. specialize (H 0 1). rewrite map_length in H. specialize (H ltac:(lia) L). rewrite R0, R1 in H. discriminate (H eq_refl).
Qed.
(** but if no name has a dot, all names posted are distinct *)
Lemma hat_suffixes x k : NoDup (map (fun f => fst (fst f)) (hat_table x k)) /\ Forall (fun f => fst (fst f) = "" \/ exists t, fst (fst f) = String "."%char t) (hat_table x k).
Proof.
  destruct k; unfold hat_table, hat_distribution, hat_rates; cbn [app map fst]; split;
    repeat match goal with
    | |- NoDup [] => constructor
    | |- NoDup (_ :: _) => constructor; [cbn [In]; intros X; repeat (destruct X as [X|X]; [discriminate X|]); contradiction|]
    | |- Forall _ [] => constructor
    | |- Forall _ (_ :: _) => constructor; [cbn [fst]; first [left; reflexivity | right; eexists; reflexivity]|]
    end.
Qed.
Lemma split_stem nm suffix : free "."%char nm = true -> suffix = "" \/ (exists t, suffix = String "."%char t) -> hd "" (split "."%char (nm ++ suffix)) = nm.
Proof.
  intros F S. induction nm as [|a nm IH]; cbn [append].
  - destruct S as [->|(t & ->)]; reflexivity.
  - cbn [free] in F. apply andb_true_iff in F. destruct F as (Fa & F). specialize (IH F). cbn [split]. destruct (Ascii.eqb a "."%char); [discriminate Fa|].
    destruct (split "."%char (nm ++ suffix)) as [|q qs]; cbn [hd] in *; now subst.
Qed.
Theorem C61_distinct : forall mexp p r v b o at_ w' out, let st := reach mexp p in
  nth_error (snd st) r = Some v -> base v = Some b ->
  (forall nm i, shown st v nm = Some i -> nth_error (snd st) (at_ nm) = Some i) ->
  (forall nm i, shown st v nm = Some i -> free "."%char nm = true) ->
  stathat v o (fst st) = (w', Ok out) -> NoDup (map post_name out).
Proof.
  intros mexp p r v b o at_ w' out st E B At Fr H.
  destruct (C61_stathat mexp p r v b o at_ w' out E B At H) as (names & posts & V & -> & F). fold st in V, F. destruct V as (ND & _). clearbody st. clear H.
  assert (Nm : forall nm ps i, shown st v nm = Some i -> Forall2 (hat_says mexp st o (at_ nm) nm) ps (hat_table (at_ nm) (cls i)) -> map post_name ps = map (fun f => nm ++ fst (fst f)) (hat_table (at_ nm) (cls i))).
  { intros nm ps i _ Fp. induction Fp as [|q [[suffix c] s] ps tl Hq Fp IH]; [reflexivity|]. cbn [map fst]. rewrite IH. f_equal. destruct Hq as (a & _ & Hq). destruct s, q; cbn in *; try contradiction; now destruct Hq. }
  assert (St : forall nm ps, (exists i, shown st v nm = Some i /\ Forall2 (hat_says mexp st o (at_ nm) nm) ps (hat_table (at_ nm) (cls i))) -> forall n, In n (map post_name ps) -> hd "" (split "."%char n) = nm).
  { intros nm ps (i & Si & Fp) n Hn. rewrite (Nm _ _ _ Si Fp) in Hn. apply in_map_iff in Hn. destruct Hn as (f & <- & Hf). apply split_stem; [eapply Fr; eauto|].
    destruct (hat_suffixes (at_ nm) (cls i)) as (_ & Sf). rewrite Forall_forall in Sf. now apply Sf. }
  induction F as [|nm ps names posts Hp F IH]; [constructor|]. cbn [List.concat]. rewrite map_app. inversion ND as [|? ? N1 N2]; subst. apply WorldOps.NoDup_app_disj.
  - destruct Hp as (i & Si & Fp). rewrite (Nm _ _ _ Si Fp). destruct (hat_suffixes (at_ nm) (cls i)) as (Ds & _). rewrite <- (map_map (fun f => fst (fst f)) (fun t => nm ++ t)).
    apply FinFun.Injective_map_NoDup; [|exact Ds]. intros a c Hac. clear - Hac. induction nm as [|z nm IH]; cbn in Hac; [exact Hac|]. injection Hac as Hac. auto.
  - apply IH; auto.
  - intros n Hn Hn'. pose proof (St _ _ Hp _ Hn) as S1. apply in_map_iff in Hn'. destruct Hn' as (q & Eq & Hq). apply in_concat in Hq. destruct Hq as (qs & Hqs & Hq).
    destruct (forall2_in _ _ _ qs F Hqs) as (nm' & Hnm & Hs). assert (S2 : hd "" (split "."%char n) = nm') by (apply (St _ _ Hs); rewrite <- Eq; now apply in_map). congruence.
Qed.

(** ** examples *)
Definition logged : list string := map (fun l => l ++ newline)
  ["healthcheck h"; "  error:       on fire";
   "timer b"; "  count:               2"; "  min:                 0.01" ++ micro ++ "s"; "  max:                 0.03" ++ micro ++ "s"; "  mean:                0.02" ++ micro ++ "s"; "  stddev:              0.01" ++ micro ++ "s";
   "  median:              0.02" ++ micro ++ "s"; "  75%:                 0.03" ++ micro ++ "s"; "  95%:                 0.03" ++ micro ++ "s"; "  99%:                 0.03" ++ micro ++ "s"; "  99.9%:               0.03" ++ micro ++ "s";
   "  1-min rate:          0.00"; "  5-min rate:          0.00"; "  15-min rate:         0.00"; "  mean rate:           +Inf";
   "gauge a"; "  value:              -5"].
Definition sysloged : list string :=
  ["healthcheck h: error: on fire";
   "timer b: count: 2 min: 12 max: 30 mean: 21.00 stddev: 9.00 median: 21.00 75%: 30.00 95%: 30.00 99%: 30.00 99.9%: 30.00 1-min: 0.00 5-min: 0.00 15-min: 0.00 mean-rate: +Inf";
   "gauge a: value: -5"].
Definition posted : list (string * option Z * string) :=
  [("b.count", Some 2%Z, ""); ("b.min", None, "12.00"); ("b.max", None, "30.00"); ("b.mean", None, "21.00"); ("b.std-dev", None, "9.00");
   ("b.50-percentile", None, "21.00"); ("b.75-percentile", None, "30.00"); ("b.95-percentile", None, "30.00"); ("b.99-percentile", None, "30.00"); ("b.999-percentile", None, "30.00");
   ("b.one-minute", None, "0.00"); ("b.five-minute", None, "0.00"); ("b.fifteen-minute", None, "0.00"); ("b.mean-rate", None, "+Inf"); ("a", None, "-5.00")].
Definition show_post (p : post) : string * option Z * string := match p with PostCount n k => (n, Some k, "") | PostValue n x => (n, None, fmt_f 2 x) end.
Example C59_example : let st := reach one_exp shop in
  nth_error (snd st) 0 = Some (VReg 0) /\ prepared one_exp st (VReg 0) hurt standard true /\ prepared one_exp st (VReg 0) hurt standard false /\
  (forall nm i, shown st (VReg 0) nm = Some i -> nth_error (snd st) (at_shop nm) = Some i) /\
  snd (log_once (fun _ => "on fire") 1000 (VReg 0) hurt (fst st)) = Ok logged /\
  snd (syslog_once (fun _ => "on fire") (VReg 0) hurt (fst st)) = Ok sysloged /\
  match snd (stathat (VReg 0) hurt (fst st)) with Ok out => map show_post out = posted | Panic _ => False end.
Proof.
  destruct C45_example as (E & _ & P & A & _). cbv zeta. split; [exact E|]. split; [exact P|]. split; [destruct P as (P & _); split; [exact P|discriminate]|]. split; [exact A|].
  split; [vm_compute; reflexivity|]. split; vm_compute; reflexivity.
Qed.
