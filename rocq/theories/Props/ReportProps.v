(** Properties C46 and C47: what the Graphite and OpenTSDB reports say.  The registry is the
    value [v] which the program holds at [r], and it holds the metric registered as [nm] at
    [at_ nm].  [fields st v at_ table names] (Spec/ReportSpec.v) are the fields, with the
    accessor call each of them is to come from, of the metrics named [names]. *)
From Coq Require Import ZArith List String Ascii Bool Lia.
From Verif.Model Require Import GoInt GoFloat GoBase World Fmt Report.
From Verif.Spec Require Import ApiSpec RegistrySpec HealthSpec GetAllSpec TextSpec ReportSpec.
From Verif.Proofs Require Import WorldBase WorldStep GetAllProofs HealthProofs RegistryProofs TextProofs ReportProofs LineProofs.
From Verif.Props Require Import SnapshotProps HealthProps GetAllProps.
Import ListNotations.
Local Open Scope string_scope.

(** ** C46 *)
(** a Graphite report consists of one line per field, which splits at its two blanks into
    path, value and time *)
Theorem C46_graphite : forall mexp p r v b o at_ decimal prefix u ps w' out, let st := reach mexp p in
  nth_error (snd st) r = Some v -> base v = Some b ->
  (forall nm i, shown st v nm = Some i -> nth_error (snd st) (at_ nm) = Some i) ->
  (forall nm i, shown st v nm = Some i -> clean nm = true) -> clean prefix = true ->
  (forall x, clean (decimal x) = true /\ (List.length (split "."%char (decimal x)) <= 2)%nat) ->
  (Z.abs u <= 2 ^ 53)%Z ->
  graphite decimal prefix u ps v o (fst st) = (w', Ok out) ->
  exists names ls, visits st v names /\ lines_of out = Some ls /\
    Forall2 (graphite_says mexp st o ps at_ prefix u) ls (fields st v at_ (fun x => graphite_table x (key_of decimal) ps) names).
Proof.
  intros mexp p r v b o at_ decimal prefix u ps w' out st. assert (I : inv st) by exact (reach_inv mexp p). clearbody st. intros E B At Cn Cp Cd U H.
  unfold graphite in H. rewrite (bind_ok _ _ _ _ _ _ (eq_refl : ask (fun o => unix (o_now o)) o (fst st) = (fst st, Ok (unix (o_now o))))) in H.
  match type of H with bind ?m _ _ _ = _ => destruct (m o (fst st)) as [w1 [ls|msg]] eqn:R; [rewrite (bind_ok _ _ _ _ _ _ R) in H|rewrite (bind_panic _ _ _ _ _ _ R) in H; discriminate] end.
  unfold ret in H. apply pair_ok in H. subst out.
  destruct (report_told mexp st r v b o ps false _ at_ w1 ls I E B At R) as (names & outs & V & -> & T).
  destruct (told_lines mexp st o ps v at_ u (graphite_fields decimal u ps) (fun name => graphite_line prefix name (unix (o_now o))) (fun x => graphite_table x (key_of decimal) ps)
    (graphite_says mexp st o ps at_ prefix u) names outs) as (l & L & F).
  - reflexivity.
  - intros Q x rd fs. apply graphite_agree; auto; intros y; apply Cd.
  - intros nm i [g n] [[f c] s] Si (Ef & Cg & a & Qa & Pa). cbn [fst snd] in *. subst g. unfold graphite_line. cbn [fst snd].
    pose proof (clean_path prefix nm f Cp (Cn _ _ Si) Cg) as Cl.
    exists ((prefix ++ "." ++ nm ++ "." ++ f) ++ " " ++ fmt_num n ++ " " ++ fmt_d (unix (o_now o))). split; [split|].
    + rewrite !app_assoc'. reflexivity.
    + rewrite !free_app. rewrite <- !free_app. apply clean_free in Cl. destruct Cl as [_ Cl]. rewrite free_app, Cl. rewrite !free_app.
      rewrite (proj2 (clean_free _ (clean_num n))), (proj2 (clean_free _ (clean_fmt_d (unix (o_now o))))). reflexivity.
    + exists (fmt_num n), (fmt_d (unix (o_now o))), a. split; [|split; [apply parse_fmt_d|auto]].
      rewrite split_words by apply (clean_free _ Cl). rewrite split_words by apply (clean_free _ (clean_num n)). rewrite split_free by apply (clean_free _ (clean_fmt_d _)). reflexivity.
  - exact T.
  - exists names, l. auto.
Qed.
(** likewise OpenTSDB: "put", path, time, value, host *)
Theorem C46_opentsdb : forall mexp p r v b o at_ host prefix u w' out, let st := reach mexp p in
  nth_error (snd st) r = Some v -> base v = Some b ->
  (forall nm i, shown st v nm = Some i -> nth_error (snd st) (at_ nm) = Some i) ->
  (forall nm i, shown st v nm = Some i -> clean nm = true) -> clean prefix = true -> clean host = true ->
  (Z.abs u <= 2 ^ 53)%Z ->
  opentsdb host prefix u v o (fst st) = (w', Ok out) ->
  exists names ls, visits st v names /\ lines_of out = Some ls /\
    Forall2 (opentsdb_says mexp st o at_ prefix host u) ls (fields st v at_ opentsdb_table names).
Proof.
  intros mexp p r v b o at_ host prefix u w' out st. assert (I : inv st) by exact (reach_inv mexp p). clearbody st. intros E B At Cn Cp Ch U H.
  unfold opentsdb in H. rewrite (bind_ok _ _ _ _ _ _ (eq_refl : ask (fun o => unix (o_now o)) o (fst st) = (fst st, Ok (unix (o_now o))))) in H.
  match type of H with bind ?m _ _ _ = _ => destruct (m o (fst st)) as [w1 [ls|msg]] eqn:R; [rewrite (bind_ok _ _ _ _ _ _ R) in H|rewrite (bind_panic _ _ _ _ _ _ R) in H; discriminate] end.
  unfold ret in H. apply pair_ok in H. subst out.
  destruct (report_told mexp st r v b o ps5 false _ at_ w1 ls I E B At R) as (names & outs & V & -> & T).
  destruct (told_lines mexp st o ps5 v at_ u (opentsdb_fields u) (fun name => opentsdb_line prefix name (short_hostname host) (unix (o_now o))) opentsdb_table
    (opentsdb_says mexp st o at_ prefix host u) names outs) as (l & L & F).
  - reflexivity.
  - intros Q x rd fs. now apply opentsdb_agree.
  - intros nm i [g n] [[f c] s] Si (Ef & Cg & a & Qa & Pa). cbn [fst snd] in *. subst g. unfold opentsdb_line. cbn [fst snd]. rewrite short_hostname_spec.
    pose proof (clean_path prefix nm f Cp (Cn _ _ Si) Cg) as Cl. pose proof (clean_label _ Ch) as Chl. set (h := first_label host) in *.
    exists ("put" ++ " " ++ (prefix ++ "." ++ nm ++ "." ++ f) ++ " " ++ fmt_d (unix (o_now o)) ++ " " ++ fmt_num n ++ " " ++ ("host=" ++ h)). split; [split|].
    + rewrite !app_assoc'. reflexivity.
    + pose proof (proj2 (clean_free _ Cl)) as Cl'. rewrite free_app. rewrite (free_app _ " "). rewrite (free_app _ (prefix ++ _)). rewrite Cl'. rewrite !free_app.
      rewrite (proj2 (clean_free _ (clean_num n))), (proj2 (clean_free _ (clean_fmt_d (unix (o_now o))))), (proj2 (clean_free _ Chl)). reflexivity.
    + exists (fmt_num n), (fmt_d (unix (o_now o))), a. split; [|split; [apply parse_fmt_d|auto]].
      rewrite split_words by reflexivity. rewrite split_words by apply (clean_free _ Cl). rewrite split_words by apply (clean_free _ (clean_fmt_d _)). rewrite split_words by apply (clean_free _ (clean_num n)).
      rewrite split_free; [reflexivity|]. rewrite free_app. rewrite (proj1 (clean_free _ Chl)). reflexivity.
  - exact T.
  - exists names, l. auto.
Qed.

(** the reports are made, unless the unit is 0 and there is a timer *)
Lemma field_ok_graphite decimal u ps rd : (Z.abs u <= 2 ^ 53)%Z -> u <> 0%Z \/ kind_rd rd <> CTimer -> exists fs, graphite_fields decimal u ps rd = Ok fs.
Proof.
  intros U H. destruct rd; cbn [graphite_fields]; eauto. destruct H as [H|H]; [|now elim H]. rewrite unit_back by exact U. unfold go_div. destruct (Z.eqb_spec u 0); [congruence|]. cbn [res_bind]. eauto.
Qed.
Lemma field_ok_opentsdb u rd : (Z.abs u <= 2 ^ 53)%Z -> u <> 0%Z \/ kind_rd rd <> CTimer -> exists fs, opentsdb_fields u rd = Ok fs.
Proof.
  intros U H. destruct rd; cbn [opentsdb_fields]; eauto. destruct H as [H|H]; [|now elim H]. rewrite unit_back by exact U. unfold go_div. destruct (Z.eqb_spec u 0); [congruence|]. cbn [res_bind]. eauto.
Qed.
Lemma report_returns {A} mexp (st : state) r v b o ps health (render : string -> reading -> res (list A)) : inv st -> nth_error (snd st) r = Some v -> base v = Some b -> prepared mexp st v o ps health ->
  (forall nm i rd, shown st v nm = Some i -> kind_rd rd = cls i -> exists a, render nm rd = Ok a) ->
  exists w' out, Report.report health ps render v o (fst st) = (w', Ok out).
Proof.
  intros I E B P R. assert (V : vok (heap (fst st)) v) by (destruct I as [_ F]; rewrite Forall_forall in F; apply F; eapply nth_error_In; eauto).
  destruct (reg_each_run st v b o I V B) as (es & Er & ND & Sh & F). unfold Report.report. rewrite (bind_ok _ _ _ _ _ _ Er). apply each_set_ok.
  - eapply prepared_set; eauto. intros nm i. apply Sh.
  - intros nm i rd Hi. apply R. now apply Sh.
Qed.
Lemma report_panics {A} mexp (st : state) r v b o ps health msg (render : string -> reading -> res (list A)) nm i : inv st -> nth_error (snd st) r = Some v -> base v = Some b -> prepared mexp st v o ps health ->
  (forall nm rd, kind_rd rd = CTimer -> render nm rd = Panic msg) -> (forall nm rd, kind_rd rd <> CTimer -> exists a, render nm rd = Ok a) ->
  shown st v nm = Some i -> cls i = CTimer ->
  exists w', Report.report health ps render v o (fst st) = (w', Panic msg).
Proof.
  intros I E B P T N Si C. assert (V : vok (heap (fst st)) v) by (destruct I as [_ F]; rewrite Forall_forall in F; apply F; eapply nth_error_In; eauto).
  destruct (reg_each_run st v b o I V B) as (es & Er & ND & Sh & F). unfold Report.report. rewrite (bind_ok _ _ _ _ _ _ Er). apply each_set_panic; auto.
  - eapply prepared_set; eauto. intros n j. apply Sh.
  - exists nm, i. split; auto. now apply Sh.
Qed.
Theorem C46_returns : forall mexp p r v b o decimal host prefix u ps, let st := reach mexp p in
  nth_error (snd st) r = Some v -> base v = Some b -> (Z.abs u <= 2 ^ 53)%Z ->
  (u <> 0%Z \/ forall nm i, shown st v nm = Some i -> cls i <> CTimer) ->
  (prepared mexp st v o ps false -> exists w' out, graphite decimal prefix u ps v o (fst st) = (w', Ok out)) /\
  (prepared mexp st v o standard false -> exists w' out, opentsdb host prefix u v o (fst st) = (w', Ok out)).
Proof.
  intros mexp p r v b o decimal host prefix u ps st. assert (I : inv st) by exact (reach_inv mexp p). clearbody st. intros E B U N. split; intros P.
  - unfold graphite. rewrite (bind_ok _ _ _ _ _ _ (eq_refl : ask (fun o => unix (o_now o)) o (fst st) = (fst st, Ok (unix (o_now o))))).
    match goal with |- exists _ _, bind (Report.report _ _ ?f _) _ _ _ = _ => destruct (report_returns mexp st r v b o ps false f I E B P) as (w' & out & R) end.
    + intros nm i rd Si K. destruct (field_ok_graphite decimal u ps rd U) as (fs & Ef). { destruct N as [N|N]; [auto|right; rewrite K; eauto]. } rewrite Ef. cbn [res_bind]. eauto.
    + rewrite (bind_ok _ _ _ _ _ _ R). unfold ret. do 2 eexists; reflexivity.
  - unfold opentsdb. rewrite (bind_ok _ _ _ _ _ _ (eq_refl : ask (fun o => unix (o_now o)) o (fst st) = (fst st, Ok (unix (o_now o))))).
    match goal with |- exists _ _, bind (Report.report _ _ ?f _) _ _ _ = _ => destruct (report_returns mexp st r v b o ps5 false f I E B P) as (w' & out & R) end.
    + intros nm i rd Si K. destruct (field_ok_opentsdb u rd U) as (fs & Ef). { destruct N as [N|N]; [auto|right; rewrite K; eauto]. } rewrite Ef. cbn [res_bind]. eauto.
    + rewrite (bind_ok _ _ _ _ _ _ R). unfold ret. do 2 eexists; reflexivity.
Qed.

(** a blank or line feed in a name makes reports ambiguous: two counters named a and b at 1
    and 2, and a single counter with a strange name at 2 *)
Definition orc_at (now : Z) : orc := MkOrc now now f_zero (fun _ => 0%Z) (fun _ => f_zero) (fun _ _ => []) [].
Definition two_counters : list (op * orc) := map (fun c => (c, orc_at 0))
  [ONew NCounter; OInc 1 1; ORegister 0 "a" 1; ONew NCounter; OInc 2 2; ORegister 0 "b" 2]%Z.
Definition strange : string := "a.count 1 0" ++ newline ++ "p.b".
Definition one_counter : list (op * orc) := map (fun c => (c, orc_at 0)) [ONew NCounter; OInc 1 2; ORegister 0 strange 1]%Z.
Theorem C46_unclean_names_refuted : ~ forall mexp p1 p2 r v decimal prefix u ps o w1 w2 out nm,
  nth_error (snd (reach mexp p1)) r = Some v -> nth_error (snd (reach mexp p2)) r = Some v -> clean prefix = true ->
  graphite decimal prefix u ps v o (fst (reach mexp p1)) = (w1, Ok out) -> graphite decimal prefix u ps v o (fst (reach mexp p2)) = (w2, Ok out) ->
  (shown (reach mexp p1) v nm = None <-> shown (reach mexp p2) v nm = None).
Proof.
  intros H. set (out := "p.a.count 1 0" ++ newline ++ "p.b.count 2 0" ++ newline).
  specialize (H (fun x => x) two_counters one_counter 0%nat (VReg 0) (fun _ => "") "p" 1%Z [] (orc_at 0)
    (fst (graphite (fun _ => "") "p" 1 [] (VReg 0) (orc_at 0) (fst (reach (fun x => x) two_counters))))
    (fst (graphite (fun _ => "") "p" 1 [] (VReg 0) (orc_at 0) (fst (reach (fun x => x) one_counter)))) out "b").
  assert (X : shown (reach (fun x => x) two_counters) (VReg 0) "b" <> None) by (vm_compute; discriminate).
  apply X, H; vm_compute; reflexivity.
Qed.

(** ** C47 *)
(** Graphite prints the duration fields of a timer in time units, but not its percentiles *)
Theorem C47_graphite : forall mexp p r v b o at_ decimal prefix u ps w' out nm i, let st := reach mexp p in
  nth_error (snd st) r = Some v -> base v = Some b ->
  (forall nm i, shown st v nm = Some i -> nth_error (snd st) (at_ nm) = Some i) ->
  (forall nm i, shown st v nm = Some i -> clean nm = true) -> clean prefix = true ->
  (forall x, clean (decimal x) = true /\ (List.length (split "."%char (decimal x)) <= 2)%nat) ->
  (Z.abs u <= 2 ^ 53)%Z ->
  graphite decimal prefix u ps v o (fst st) = (w', Ok out) -> shown st v nm = Some i -> cls i = CTimer ->
  exists ls, lines_of out = Some ls /\
    let says f c s := exists l, In l ls /\ graphite_says mexp st o ps at_ prefix u l (nm, (f, c (at_ nm), s)) in
    says "min" (fun x => OStat x SMin) WholePer /\ says "max" (fun x => OStat x SMax) WholePer /\
    says "mean" (fun x => OStat x SMean) (FixedPer 2) /\ says "std-dev" (fun x => OStat x SStdDev) (FixedPer 2) /\
    forall q, In q ps -> says (key_of decimal q ++ "-percentile") (fun x => OPercentile x q) (Fixed 2).
Proof.
  intros mexp p r v b o at_ decimal prefix u ps w' out nm i st E B At Cn Cp Cd U H Si C.
  destruct (C46_graphite mexp p r v b o at_ decimal prefix u ps w' out E B At Cn Cp Cd U H) as (names & ls & V & L & F). fold st in V, F. exists ls. split; [exact L|]. cbv zeta.
  assert (X : forall f, In f (graphite_table (at_ nm) (key_of decimal) ps CTimer) -> exists l, In l ls /\ graphite_says mexp st o ps at_ prefix u l (nm, f)).
  { intros f Hf. apply (forall2_in _ _ _ (nm, f) F). unfold fields. apply in_flat_map. exists nm. split; [apply V; congruence|]. rewrite Si, C. now apply in_map. }
  repeat match goal with |- _ /\ _ => split end; try (apply X; cbn [graphite_table summary app In]; auto 8; fail).
  intros q Hq. apply X. cbn [graphite_table]. apply in_or_app. right. apply in_or_app. left. apply (in_map (fun p => (key_of decimal p ++ "-percentile", OPercentile (at_ nm) p, Fixed 2))) in Hq. exact Hq.
Qed.
(** OpenTSDB prints all of them in time units *)
Theorem C47_opentsdb : forall mexp p r v b o at_ host prefix u w' out nm i, let st := reach mexp p in
  nth_error (snd st) r = Some v -> base v = Some b ->
  (forall nm i, shown st v nm = Some i -> nth_error (snd st) (at_ nm) = Some i) ->
  (forall nm i, shown st v nm = Some i -> clean nm = true) -> clean prefix = true -> clean host = true ->
  (Z.abs u <= 2 ^ 53)%Z ->
  opentsdb host prefix u v o (fst st) = (w', Ok out) -> shown st v nm = Some i -> cls i = CTimer ->
  exists ls, lines_of out = Some ls /\
    let says f c s := exists l, In l ls /\ opentsdb_says mexp st o at_ prefix host u l (nm, (f, c (at_ nm), s)) in
    says "min" (fun x => OStat x SMin) WholePer /\ says "max" (fun x => OStat x SMax) WholePer /\
    says "mean" (fun x => OStat x SMean) (FixedPer 2) /\ says "std-dev" (fun x => OStat x SStdDev) (FixedPer 2) /\
    says "50-percentile" (fun x => OPercentile x (ratio 1 2)) (FixedPer 2) /\ says "75-percentile" (fun x => OPercentile x (ratio 3 4)) (FixedPer 2) /\
    says "95-percentile" (fun x => OPercentile x (ratio 95 100)) (FixedPer 2) /\ says "99-percentile" (fun x => OPercentile x (ratio 99 100)) (FixedPer 2) /\
    says "999-percentile" (fun x => OPercentile x (ratio 999 1000)) (FixedPer 2).
Proof.
  intros mexp p r v b o at_ host prefix u w' out nm i st E B At Cn Cp Ch U H Si C.
  destruct (C46_opentsdb mexp p r v b o at_ host prefix u w' out E B At Cn Cp Ch U H) as (names & ls & V & L & F). fold st in V, F. exists ls. split; [exact L|]. cbv zeta.
  assert (X : forall f, In f (opentsdb_table (at_ nm) CTimer) -> exists l, In l ls /\ opentsdb_says mexp st o at_ prefix host u l (nm, f)).
  { intros f Hf. apply (forall2_in _ _ _ (nm, f) F). unfold fields. apply in_flat_map. exists nm. split; [apply V; congruence|]. rewrite Si, C. now apply in_map. }
  repeat match goal with |- _ /\ _ => split end; apply X; cbn [opentsdb_table summary ReportSpec.five app In]; auto 20.
Qed.
(** with the unit 0 both panic as soon as a timer is registered *)
Theorem C47_zero : forall mexp p r v b o decimal host prefix ps nm i, let st := reach mexp p in
  nth_error (snd st) r = Some v -> base v = Some b -> shown st v nm = Some i -> cls i = CTimer ->
  (prepared mexp st v o ps false -> exists w', graphite decimal prefix 0 ps v o (fst st) = (w', Panic msg_div0)) /\
  (prepared mexp st v o standard false -> exists w', opentsdb host prefix 0 v o (fst st) = (w', Panic msg_div0)).
Proof.
  intros mexp p r v b o decimal host prefix ps nm i st. assert (I : inv st) by exact (reach_inv mexp p). clearbody st. intros E B Si C. split; intros P.
  - unfold graphite. rewrite (bind_ok _ _ _ _ _ _ (eq_refl : ask (fun o => unix (o_now o)) o (fst st) = (fst st, Ok (unix (o_now o))))).
    match goal with |- exists _, bind (Report.report _ _ ?f _) _ _ _ = _ => destruct (report_panics mexp st r v b o ps false msg_div0 f nm i I E B P) as (w' & R) end; auto.
    + intros n rd K. destruct rd; try discriminate K. cbn [graphite_fields]. rewrite unit_back by lia. reflexivity.
    + intros n rd K. destruct (field_ok_graphite decimal 0 ps rd) as (fs & Ef); [lia|auto|]. rewrite Ef. cbn [res_bind]. eauto.
    + exists w'. now apply bind_panic.
  - unfold opentsdb. rewrite (bind_ok _ _ _ _ _ _ (eq_refl : ask (fun o => unix (o_now o)) o (fst st) = (fst st, Ok (unix (o_now o))))).
    match goal with |- exists _, bind (Report.report _ _ ?f _) _ _ _ = _ => destruct (report_panics mexp st r v b o ps5 false msg_div0 f nm i I E B P) as (w' & R) end; auto.
    + intros n rd K. destruct rd; try discriminate K. cbn [opentsdb_fields]. rewrite unit_back by lia. reflexivity.
    + intros n rd K. destruct (field_ok_opentsdb 0 rd) as (fs & Ef); [lia|auto|]. rewrite Ef. cbn [res_bind]. eauto.
    + exists w'. now apply bind_panic.
Qed.

(** a registry with a gauge and a timer that has timed 30 and 12 milliseconds, reported in
    milliseconds *)
Definition timed : list (op * orc) := map (fun c => (c, orc_at (7 * 10 ^ 9)))
  [ONew NGauge; OUpdate 1 (-5); ORegister 0 "g" 1; ONew NTimer; OUpdate 2 30000000; OUpdate 2 12000000; ORegister 0 "t" 2]%Z.
Definition at_t (nm : string) : nat := if String.eqb nm "g" then 1 else 2.
Definition plain (x : f64) : string := "50".
Definition lines_at (i : nat) (s : string) : string := nth i (split line_feed s) "".
Definition one_exp (x : f64) : f64 := f_of_int 1.
Definition ms_report : string := String.concat newline
  ["p.g.value -5 8"; "p.t.count 2 8"; "p.t.min 12 8"; "p.t.max 30 8"; "p.t.mean 21.00 8"; "p.t.std-dev 9.00 8"; "p.t.50-percentile 21000000.00 8";
   "p.t.one-minute 0.00 8"; "p.t.five-minute 0.00 8"; "p.t.fifteen-minute 0.00 8"; "p.t.mean-rate +Inf 8"; ""].
Definition ms_opentsdb : string := String.concat newline
  ["put p.g.value 8 -5 host=h"; "put p.t.count 8 2 host=h"; "put p.t.min 8 12 host=h"; "put p.t.max 8 30 host=h"; "put p.t.mean 8 21.00 host=h"; "put p.t.std-dev 8 9.00 host=h";
   "put p.t.50-percentile 8 21.00 host=h"; "put p.t.75-percentile 8 30.00 host=h"; "put p.t.95-percentile 8 30.00 host=h"; "put p.t.99-percentile 8 30.00 host=h"; "put p.t.999-percentile 8 30.00 host=h";
   "put p.t.one-minute 8 0.00 host=h"; "put p.t.five-minute 8 0.00 host=h"; "put p.t.fifteen-minute 8 0.00 host=h"; "put p.t.mean-rate 8 +Inf host=h"; ""].
Definition o8 : orc := orc_at (8 * 10 ^ 9).
Lemma timed_shown nm : shown (reach one_exp timed) (VReg 0) nm = if String.eqb "g" nm then Some (VGauge 2) else if String.eqb "t" nm then Some (VTimer 10) else None.
Proof.
  unfold shown. cbn [base]. change (full (VReg 0) "") with "". assert (P : String.prefix "" nm = true) by (destruct nm; reflexivity). rewrite P. unfold registered.
  replace (nth_error (heap (fst (reach one_exp timed))) 0) with (Some (OReg [("g", VGauge 2); ("t", VTimer 10)])) by (vm_compute; reflexivity). unfold find. cbn [fst snd]. destruct (String.eqb "g" nm); [reflexivity|]. destruct (String.eqb "t" nm); reflexivity.
Qed.
Definition returned (r : option (res rv)) : bool := match r with Some (Ok _) => true | _ => false end.
Lemma returned_ok r : returned r = true -> exists a, r = Some (Ok a).
Proof. destruct r as [[a|]|]; try discriminate. eauto. Qed.
Lemma timed_prepared ps : returned (snd (step one_exp (reach one_exp timed) (OPercentiles 2 ps, o8))) = true -> prepared one_exp (reach one_exp timed) (VReg 0) o8 ps false.
Proof.
  intros H. split; [|discriminate]. intros nm i Si C. rewrite timed_shown in Si. destruct (String.eqb "g" nm); [injection Si as <-; destruct C; discriminate|]. destruct (String.eqb "t" nm); [|discriminate]. injection Si as <-.
  apply returned_ok in H. destruct H as (r2 & H).
  assert (S : returned (snd (step one_exp (reach one_exp timed) (OSnapshot 2, o8))) = true) by (vm_compute; reflexivity). apply returned_ok in S. destruct S as (r1 & S).
  exists 2%nat, r1, r2. split; [vm_compute; reflexivity|auto].
Qed.
Example C46_example : let st := reach one_exp timed in
  nth_error (snd st) 0 = Some (VReg 0) /\ prepared one_exp st (VReg 0) o8 [ratio 1 2] false /\ prepared one_exp st (VReg 0) o8 standard false /\
  (forall nm i, shown st (VReg 0) nm = Some i -> clean nm = true /\ nth_error (snd st) (at_t nm) = Some i) /\
  (forall x, clean (plain x) = true /\ (List.length (split "."%char (plain x)) <= 2)%nat) /\
  shown st (VReg 0) "t" = Some (VTimer 10) /\
  snd (graphite plain "p" 1000000 [ratio 1 2] (VReg 0) o8 (fst st)) = Ok ms_report /\
  snd (opentsdb "h.x.org" "p" 1000000 (VReg 0) o8 (fst st)) = Ok ms_opentsdb /\
  snd (graphite plain "p" 0 [ratio 1 2] (VReg 0) o8 (fst st)) = Panic msg_div0.
Proof.
  cbv zeta. repeat match goal with |- _ /\ _ => split end.
  - vm_compute. reflexivity.
  - apply timed_prepared. vm_compute. reflexivity.
  - apply timed_prepared. vm_compute. reflexivity.
  - intros nm i Si. rewrite timed_shown in Si. destruct (String.eqb_spec "g" nm) as [<-|_]; [injection Si as <-; split; vm_compute; reflexivity|].
    destruct (String.eqb_spec "t" nm) as [<-|_]; [injection Si as <-; split; vm_compute; reflexivity|discriminate].
  - intros x. split; vm_compute; [reflexivity|lia].
  - rewrite timed_shown. reflexivity.
  - vm_compute. reflexivity.
  - vm_compute. reflexivity.
  - vm_compute. reflexivity.
Qed.
