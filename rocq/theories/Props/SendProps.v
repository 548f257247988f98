(** Property C63: what reaches a connection or writer that may fail. *)
From Coq Require Import ZArith List String Bool Lia Arith.
From Verif.Model Require Import GoInt GoFloat GoBase World Fmt Report Send.
From Verif.Spec Require Import ApiSpec ReportSpec WriteSpec SendSpec.
From Verif.Proofs Require Import HealthProofs SendProofs.
From Verif.Props Require Import SnapshotProps ReportProps WriteProps.
Import ListNotations.
Local Open Scope Z_scope.
Local Open Scope string_scope.

(** ** Graphite and OpenTSDB *)
(** over a connection that works exactly the report is sent (its text is that of C46), and it
    leaves the metrics as that report does; the error returned is nil *)
Theorem C63_graphite : forall decimal prefix u ps v f o w w' out, works f -> graphite decimal prefix u ps v o w = (w', Ok out) ->
  let r := graphite_once decimal prefix u ps v true f o w in received r = out /\ s_world r = w' /\ s_err r = Ok false.
Proof.
  intros decimal prefix u ps v f o w w' out F H. unfold graphite, bind, ask in H. unfold graphite_once. cbn zeta.
  match goal with |- received (send _ ?R _ _ _ _ _) = _ /\ _ => match type of H with context [Report.report _ _ ?g _ _ _] => pose proof (send_whole ps R g v f o w F) as S; assert (E : forall nm d, rendered R nm d = g nm d) end end.
  { intros nm d. unfold rendered, before_division. destruct (graphite_fields decimal u ps d) as [fs|m]; reflexivity. }
  specialize (S E). destruct (Report.report _ _ _ _ _ _) as [w1 [ls|m]]; [|discriminate H]. unfold ret in H. injection H as <- <-. destruct S as (A & B & C). auto.
Qed.
Theorem C63_opentsdb : forall host prefix u v f o w w' out, works f -> opentsdb host prefix u v o w = (w', Ok out) ->
  let r := opentsdb_once host prefix u v true f o w in received r = out /\ s_world r = w' /\ s_err r = Ok false.
Proof.
  intros host prefix u v f o w w' out F H. unfold opentsdb, bind, ask in H. unfold opentsdb_once. cbn zeta.
  match goal with |- received (send _ ?R _ _ _ _ _) = _ /\ _ => match type of H with context [Report.report _ _ ?g _ _ _] => pose proof (send_whole ps5 R g v f o w F) as S; assert (E : forall nm d, rendered R nm d = g nm d) end end.
  { intros nm d. unfold rendered, before_division. destruct (opentsdb_fields u d) as [fs|m]; reflexivity. }
  specialize (S E). destruct (Report.report _ _ _ _ _ _) as [w1 [ls|m]]; [|discriminate H]. unfold ret in H. injection H as <- <-. destruct S as (A & B & C). auto.
Qed.
(** a report that panics does so whatever the connection does *)
Theorem C63_panics : forall decimal host prefix u ps v f o w w' msg,
  (graphite decimal prefix u ps v o w = (w', Panic msg) -> let r := graphite_once decimal prefix u ps v true f o w in s_world r = w' /\ s_err r = Panic msg) /\
  (opentsdb host prefix u v o w = (w', Panic msg) -> let r := opentsdb_once host prefix u v true f o w in s_world r = w' /\ s_err r = Panic msg).
Proof.
  intros decimal host prefix u ps v f o w w' msg. split; intros H; [unfold graphite, bind, ask in H; unfold graphite_once|unfold opentsdb, bind, ask in H; unfold opentsdb_once]; cbn zeta.
  - match goal with |- s_world (send _ ?R _ _ _ _ _) = _ /\ _ => destruct (send_any ps R v f o w) as (A & B & _); rewrite A, B; match type of H with context [Report.report _ _ ?g _ _ _] => pose proof (send_whole ps R g v [] o w (Forall_nil _)) as S; assert (E : forall nm d, rendered R nm d = g nm d) end end.
    { intros nm d. unfold rendered, before_division. destruct (graphite_fields decimal u ps d) as [fs|m]; reflexivity. }
    specialize (S E). destruct (Report.report _ _ _ _ _ _) as [w1 [ls|m]]; [discriminate H|]. injection H as <- <-. exact S.
  - match goal with |- s_world (send _ ?R _ _ _ _ _) = _ /\ _ => destruct (send_any ps5 R v f o w) as (A & B & _); rewrite A, B; match type of H with context [Report.report _ _ ?g _ _ _] => pose proof (send_whole ps5 R g v [] o w (Forall_nil _)) as S; assert (E : forall nm d, rendered R nm d = g nm d) end end.
    { intros nm d. unfold rendered, before_division. destruct (opentsdb_fields u d) as [fs|m]; reflexivity. }
    specialize (S E). destruct (Report.report _ _ _ _ _ _) as [w1 [ls|m]]; [discriminate H|]. injection H as <- <-. exact S.
Qed.
(** what has arrived over a working connection when a report panics: nothing, or every metric
    before the one it panics at, completely (so their lines are a report by themselves), and of
    that one at most the count of a timer: only when this line is longer than the 4096 bytes
    of the buffer, for the panic goes past Flush *)
Theorem C63_panic_arrives : forall decimal prefix u ps v f o w w' msg, works f -> graphite decimal prefix u ps v o w = (w', Panic msg) ->
  let r := graphite_once decimal prefix u ps v true f o w in
  let now := unix (o_now o) in
  let lines := report_each false ps (fun name d => res_bind (graphite_fields decimal u ps d) (fun fs => Ok (map (graphite_line prefix name now) fs))) in
  reg_each v o w = (w', Panic msg) /\ received r = "" \/
  exists w1 before nm x after w2 ls, reg_each v o w = (w1, Ok (before ++ (nm, x) :: after)%list) /\ lines before o w1 = (w2, Ok ls) /\
    (read_metric false ps x o w2 = (w', Panic msg) /\ received r = text ls \/
     exists n mn mx me sd qs r1 r5 r15 rm, read_metric false ps x o w2 = (w', Ok (Some (RdTimer n mn mx me sd qs r1 r5 r15 rm))) /\
       let first := prefix ++ "." ++ nm ++ ".count " ++ fmt_d n ++ " " ++ fmt_d now ++ newline in
       received r = text ls ++ (if 4096 <? String.length first then first else "")%nat).
Proof.
  intros decimal prefix u ps v f o w w' msg F H. cbv zeta. unfold graphite, bind, ask in H. unfold graphite_once. cbn zeta. unfold Report.report, bind in H. unfold send. cbn [negb].
  destruct (reg_each v o w) as [w1 [es|m]]; [right|left; injection H as -> ->; auto].
  match goal with |- context [send_each _ ?R _ _ _ _] => set (R0 := R) end. match goal with |- context [report_each _ _ ?g _ _ _ = _] => set (g0 := g) in * end.
  assert (E : forall nm d, rendered R0 nm d = g0 nm d).
  { intros nm d. unfold rendered, R0, g0, before_division. destruct (graphite_fields decimal u ps d) as [fs|m]; reflexivity. }
  rewrite <- (report_each_ext false ps (rendered R0) g0 es E) in H.
  destruct (report_each false ps (rendered R0) es o w1) as [w2 [ls|m]] eqn:X; [discriminate H|]. injection H as -> ->.
  destruct (send_stops ps R0 es o msg w' w1 _ (new_sound f F) eq_refl X) as (es1 & nm & x & es2 & w3 & ls & p1 & p' & -> & R1 & -> & S1 & B1 & A1 & L).
  rewrite (report_each_ext false ps (rendered R0) g0 es1 E) in R1. cbn [b_conn new_writer c_accepted] in A1.
  exists w1, es1, nm, x, es2, w3, ls. split; [reflexivity|]. split; [exact R1|]. unfold received. cbn [s_conn].
  destruct L as [[L ->]|(d & L & M & ->)]; [left; auto|right]. unfold R0, before_division in M |- *.
  destruct d as [k|k|y|e|k k1 k2 y y1 l|k y1 y2 y3 y4|k k1 k2 y y1 l z1 z2 z3 z4]; cbn [graphite_fields] in M; try discriminate M.
  exists k, k1, k2, y, y1, l, z1, z2, z3, z4. split; [exact L|]. destruct (graphite_fields decimal u ps _) as [fs|m] eqn:Q.
  - cbn [graphite_fields] in Q. rewrite Q in M. discriminate M.
  - cbn [count_of map fst fold_left]. rewrite write_empty by auto. rewrite A1. reflexivity.
Qed.
Theorem C63_panic_arrives_opentsdb : forall host prefix u v f o w w' msg, works f -> opentsdb host prefix u v o w = (w', Panic msg) ->
  let r := opentsdb_once host prefix u v true f o w in
  let now := unix (o_now o) in
  let lines := report_each false ps5 (fun name d => res_bind (opentsdb_fields u d) (fun fs => Ok (map (opentsdb_line prefix name (short_hostname host) now) fs))) in
  reg_each v o w = (w', Panic msg) /\ received r = "" \/
  exists w1 before nm x after w2 ls, reg_each v o w = (w1, Ok (before ++ (nm, x) :: after)%list) /\ lines before o w1 = (w2, Ok ls) /\
    (read_metric false ps5 x o w2 = (w', Panic msg) /\ received r = text ls \/
     exists n mn mx me sd qs r1 r5 r15 rm, read_metric false ps5 x o w2 = (w', Ok (Some (RdTimer n mn mx me sd qs r1 r5 r15 rm))) /\
       let first := "put " ++ prefix ++ "." ++ nm ++ ".count " ++ fmt_d now ++ " " ++ fmt_d n ++ " host=" ++ short_hostname host ++ newline in
       received r = text ls ++ (if 4096 <? String.length first then first else "")%nat).
Proof.
  intros host prefix u v f o w w' msg F H. cbv zeta. unfold opentsdb, bind, ask in H. unfold opentsdb_once. cbn zeta. unfold Report.report, bind in H. unfold send. cbn [negb].
  destruct (reg_each v o w) as [w1 [es|m]]; [right|left; injection H as -> ->; auto].
  match goal with |- context [send_each _ ?R _ _ _ _] => set (R0 := R) end. match goal with |- context [report_each _ _ ?g _ _ _ = _] => set (g0 := g) in * end.
  assert (E : forall nm d, rendered R0 nm d = g0 nm d).
  { intros nm d. unfold rendered, R0, g0, before_division. destruct (opentsdb_fields u d) as [fs|m]; reflexivity. }
  rewrite <- (report_each_ext false ps5 (rendered R0) g0 es E) in H.
  destruct (report_each false ps5 (rendered R0) es o w1) as [w2 [ls|m]] eqn:X; [discriminate H|]. injection H as -> ->.
  destruct (send_stops ps5 R0 es o msg w' w1 _ (new_sound f F) eq_refl X) as (es1 & nm & x & es2 & w3 & ls & p1 & p' & -> & R1 & -> & S1 & B1 & A1 & L).
  rewrite (report_each_ext false ps5 (rendered R0) g0 es1 E) in R1. cbn [b_conn new_writer c_accepted] in A1.
  exists w1, es1, nm, x, es2, w3, ls. split; [reflexivity|]. split; [exact R1|]. unfold received. cbn [s_conn].
  destruct L as [[L ->]|(d & L & M & ->)]; [left; auto|right]. unfold R0, before_division in M |- *.
  destruct d as [k|k|y|e|k k1 k2 y y1 l|k y1 y2 y3 y4|k k1 k2 y y1 l z1 z2 z3 z4]; cbn [opentsdb_fields] in M; try discriminate M.
  exists k, k1, k2, y, y1, l, z1, z2, z3, z4. split; [exact L|]. destruct (opentsdb_fields u _) as [fs|m] eqn:Q.
  - cbn [opentsdb_fields] in Q. rewrite Q in M. discriminate M.
  - cbn [count_of map fst fold_left]. rewrite write_empty by auto. rewrite A1. reflexivity.
Qed.
(** with the unit 0 the gauge before the timer arrives and the timer's count does not *)
Example C63_panic_example : let st := reach one_exp shop in
  let r := graphite_once (fun _ => "50") "p" 0 [f_half] (VReg 0) true [] (reorder [2; 1; 0]%nat hurt) (fst st) in
  received r = "p.a.value -5 8" ++ newline /\ exists m, s_err r = Panic m.
Proof. cbv zeta. split; [vm_compute; reflexivity|]. eexists. vm_compute. reflexivity. Qed.
(** whatever the connection does, it accepts a prefix of what a working one does, and nothing is
    written to it after a failed call; the metrics, and how the report ends, are the same *)
Theorem C63_prefix : forall decimal prefix u ps v f o w,
  let r := graphite_once decimal prefix u ps v true f o w in let r0 := graphite_once decimal prefix u ps v true [] o w in
  prefix_of (received r) (received r0) /\ stops_at_failure (calls r) /\ s_world r = s_world r0 /\ s_err r = s_err r0.
Proof. intros decimal prefix u ps v f o w. unfold graphite_once. cbn zeta. match goal with |- context [send _ ?R _ _ f _ _] => destruct (send_any ps R v f o w) as (A & B & C & D) end. auto. Qed.
Theorem C63_prefix_opentsdb : forall host prefix u v f o w,
  let r := opentsdb_once host prefix u v true f o w in let r0 := opentsdb_once host prefix u v true [] o w in
  prefix_of (received r) (received r0) /\ stops_at_failure (calls r) /\ s_world r = s_world r0 /\ s_err r = s_err r0.
Proof. intros host prefix u v f o w. unfold opentsdb_once. cbn zeta. match goal with |- context [send _ ?R _ _ f _ _] => destruct (send_any ps5 R v f o w) as (A & B & C & D) end. auto. Qed.
(** when the connection cannot be opened, the error is returned and no metric is touched *)
Theorem C63_dial : forall decimal host prefix u ps v f o w,
  (let r := graphite_once decimal prefix u ps v false f o w in s_err r = Ok true /\ s_world r = w /\ received r = "") /\
  (let r := opentsdb_once host prefix u v false f o w in s_err r = Ok true /\ s_world r = w /\ received r = "").
Proof. intros. unfold graphite_once, opentsdb_once, send. cbn. auto 10. Qed.
(** GraphiteOnce does not return "a non-nil error on failed connections" (graphite.go:49): the
    peer closed it, nothing arrives, and the error is nil *)
Theorem C63_error_refuted : exists u ps v o, let st := reach one_exp shop in
  let r := graphite_once (fun _ => "50") "p" u ps v true [Some 0%nat] o (fst st) in
  s_err r = Ok false /\ received r = "" /\ map snd (calls r) = [true] /\
  exists w' out, graphite (fun _ => "50") "p" u ps v o (fst st) = (w', Ok out) /\ out <> "".
Proof.
  exists 1%Z, [f_half], (VReg 0), hurt. cbv zeta. split; [vm_compute; reflexivity|]. split; [vm_compute; reflexivity|]. split; [vm_compute; reflexivity|].
  set (run := graphite _ _ _ _ _ _ _). assert (X : match snd run with Ok out => negb (String.eqb out "") | _ => false end = true) by (vm_compute; reflexivity). destruct run as [w' [out|m]]; [|discriminate X]. exists w', out. split; [reflexivity|]. cbn [snd] in X. intros ->. discriminate X.
Qed.

(** ** WriteOnce *)
(** every line is given to the writer by one call, in order, whether or not earlier calls
    failed; a writer that accepts everything receives the output of C45 *)
Theorem C63_write : forall error_text sort v f o w w' out, write_once error_text sort v o w = (w', Ok out) ->
  let r := write_to error_text sort v f o w in
  text (map fst (calls r)) = out /\ s_world r = w' /\ (works f -> received r = out).
Proof.
  intros et sort v f o w w' out H. unfold write_once, bind in H. unfold write_to. destruct (reg_each v o w) as [w1 [es|m]]; [|discriminate H]. pose proof (print_each_spec et (sort es) o w1 (MkConn "" [] f)) as S.
  destruct (report_each true ps5 (write_lines et) (sort es) o w1) as [w2 [ls|m]]; [|discriminate H]. unfold ret in H. injection H as <- <-. destruct S as (c' & -> & A & B). cbn zeta. unfold calls, received. cbn [s_conn s_world]. rewrite A. cbn [c_calls map app c_accepted] in *. repeat split; auto.
Qed.
Theorem C63_write_panics : forall error_text sort v f o w w' msg, write_once error_text sort v o w = (w', Panic msg) ->
  let r := write_to error_text sort v f o w in s_world r = w' /\ s_err r = Panic msg.
Proof.
  intros et sort v f o w w' msg H. unfold write_once, bind in H. unfold write_to. destruct (reg_each v o w) as [w1 [es|m]]; [|injection H as <- <-; cbn; auto]. pose proof (print_each_spec et (sort es) o w1 (MkConn "" [] f)) as S.
  destruct (report_each true ps5 (write_lines et) (sort es) o w1) as [w2 [ls|m]]; [discriminate H|]. injection H as <- <-. destruct S as (c' & ->). cbn. auto.
Qed.
(** so a writer that fails once leaves a gap: what arrives is not a prefix *)
Theorem C63_write_prefix_refuted : exists v f o, let st := reach one_exp shop in
  let r := write_to (fun _ => "on fire") put_all v f o (fst st) in let r0 := write_to (fun _ => "on fire") put_all v [] o (fst st) in
  s_err r = Ok false /\ ~ prefix_of (received r) (received r0).
Proof.
  exists (VReg 0), [None; Some 0%nat], hurt. cbv zeta. split; [vm_compute; reflexivity|]. intros (x & H).
  apply (f_equal (String.get 8)) in H.
  assert (E : forall a b, (8 < String.length a)%nat -> String.get 8 (a ++ b) = String.get 8 a).
  { intros a b L. symmetry. now apply append_correct1. }
  rewrite E in H by (apply Nat.ltb_lt; vm_compute; reflexivity). vm_compute in H. discriminate H.
Qed.

(** a connection that takes the first metric and three bytes of the second: the gauge's line has
    arrived, the rest of the timer's lines is never sent *)
Example C63_example : let st := reach one_exp shop in
  let r := graphite_once (fun _ => "50") "p" 1 [f_half] (VReg 0) true [None; Some 3%nat; None] (reorder [2; 1; 0]%nat hurt) (fst st) in
  received r = "p.a.value -5 8" ++ newline ++ "p.b" /\ List.length (calls r) = 2%nat /\ s_err r = Ok false.
Proof. cbv zeta. repeat split; vm_compute; reflexivity. Qed.
