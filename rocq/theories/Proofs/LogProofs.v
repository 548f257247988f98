(** Log, Syslog and Stathat. *)
From Coq Require Import ZArith List String Ascii Bool Lia.
From Verif.Model Require Import GoInt GoFloat GoBase World Fmt Duration Report.
From Verif.Spec Require Import ApiSpec RegistrySpec HealthSpec GetAllSpec TextSpec ReportSpec WriteSpec LogSpec.
From Verif.Proofs Require Import WorldBase WorldStep TextProofs ReportProofs LineProofs WriteProofs.
From Verif.Props Require Import SnapshotProps.
Import ListNotations.
Local Open Scope nat_scope.
Local Open Scope string_scope.

(** ** Log *)
Lemma ended_tz u suffix (Q : op -> rv -> Prop) label c n : Q c (RZ n) -> ended u suffix Q (log_time label suffix (fdiv (f_of_int n) (f_of_int u))) (label, 12, c, FixedPer 2).
Proof. intros H. eexists. split; [|apply (row_pad u suffix Q label 12 c (FixedPer 2) (NFix 2 (fdiv (f_of_int n) (f_of_int u))) (RZ n) H); apply shows_fmt_f]. unfold log_time. cbn [fmt_num]. now rewrite !app_assoc'. Qed.
Ltac logged := first [apply ended_z; solve [eauto] | apply ended_f; solve [eauto] | apply ended_t; solve [eauto] | apply ended_tz; solve [eauto]].
Lemma log_rows_ok error_text scale suffix (Q : op -> rv -> Prop) x nm rd ls : kind_rd rd <> CHealth -> answered Q x ps5 rd -> log_lines error_text scale suffix nm rd = Ok ls ->
  exists rest, ls = ((word (kind_rd rd) ++ " " ++ nm) ++ newline) :: rest /\ Forall2 (ended scale suffix Q) rest (log_rows x (kind_rd rd)).
Proof.
  intros N A E. destruct rd; try (apply (write_rows error_text scale suffix Q x nm _ ls N A E)).
  unfold log_lines in E. injection E as <-. cbn [answered kind_rd word log_rows] in *.
  destruct A as ((A1 & A2 & A3 & A4 & A5 & A6) & R1 & R2 & R3 & R4). apply five_scores in A6. destruct A6 as (a & b & c & d & e & -> & P1 & P2 & P3 & P4 & P5).
  eexists. split; [reflexivity|]. unfold percentile_rows, nth_f, rate_rows, text_rates. cbn [app nth]. do 14 (constructor; [logged|]). constructor.
Qed.

(** ** Syslog *)
Definition part_ok (Q : op -> rv -> Prop) (p : string * string) (f : field) : Prop :=
  let '(label, c, s) := f in fst p = label /\ exists a, Q c a /\ prints 1 s a (snd p).
Lemma part_z (Q : op -> rv -> Prop) label c n : Q c (RZ n) -> part_ok Q (label, fmt_d n) (label, c, Whole).
Proof. intros H. split; [reflexivity|]. exists (RZ n). split; [exact H|]. apply parse_fmt_d. Qed.
Lemma part_f (Q : op -> rv -> Prop) label c k x : Q c (RF x) -> part_ok Q (label, fmt_f k x) (label, c, Fixed k).
Proof. intros H. split; [reflexivity|]. exists (RF x). split; [exact H|]. apply shows_fmt_f. Qed.
Ltac part := first [apply part_z | apply part_f]; solve [eauto].
Lemma sys_ok error_text (Q : op -> rv -> Prop) x nm rd ls : kind_rd rd <> CHealth -> answered Q x ps5 rd -> syslog_lines error_text nm rd = Ok ls ->
  exists parts, ls = [message (kind_rd rd) nm parts] /\ Forall2 (part_ok Q) parts (sys_table x (kind_rd rd)).
Proof.
  assert (C : forall a b c : string, (a ++ b) ++ c = a ++ (b ++ c)) by (intros; apply app_assoc').
  intros N A E. unfold syslog_lines in E. injection E as <-. destruct rd; cbn [answered kind_rd sys_table] in *; try congruence; unfold message, sys_dist; cbn [word].
  - exists [("count", fmt_d n)]. split; [cbn [map String.concat fst snd append]; repeat (rewrite C; cbn [append]); reflexivity|]. repeat (constructor; [part|]). constructor.
  - exists [("value", fmt_d n)]. split; [cbn [map String.concat fst snd append]; repeat (rewrite C; cbn [append]); reflexivity|]. repeat (constructor; [part|]). constructor.
  - exists [("value", fmt_f 6 x0)]. split; [cbn [map String.concat fst snd append]; repeat (rewrite C; cbn [append]); reflexivity|]. repeat (constructor; [part|]). constructor.
  - destruct A as (A1 & A2 & A3 & A4 & A5 & A6). apply five_scores in A6. destruct A6 as (a & b & c & d & e & -> & P1 & P2 & P3 & P4 & P5). unfold nth_f, sys_distribution. cbn [nth].
    exists [("count", fmt_d n); ("min", fmt_d mn); ("max", fmt_d mx); ("mean", fmt_f 2 mean); ("stddev", fmt_f 2 sd); ("median", fmt_f 2 a); ("75%", fmt_f 2 b); ("95%", fmt_f 2 c); ("99%", fmt_f 2 d); ("99.9%", fmt_f 2 e)].
    split; [cbn [map String.concat fst snd append]; repeat (rewrite C; cbn [append]); reflexivity|]. do 10 (constructor; [part|]). constructor.
  - destruct A as (A1 & A2 & A3 & A4 & A5). unfold sys_rates.
    exists [("count", fmt_d n); ("1-min", fmt_f 2 r1); ("5-min", fmt_f 2 r5); ("15-min", fmt_f 2 r15); ("mean", fmt_f 2 mean)].
    split; [cbn [map String.concat fst snd append]; repeat (rewrite C; cbn [append]); reflexivity|]. do 5 (constructor; [part|]). constructor.
  - destruct A as ((A1 & A2 & A3 & A4 & A5 & A6) & R1 & R2 & R3 & R4). apply five_scores in A6. destruct A6 as (a & b & c & d & e & -> & P1 & P2 & P3 & P4 & P5). unfold nth_f, sys_distribution, sys_rates. cbn [nth app].
    exists [("count", fmt_d n); ("min", fmt_d mn); ("max", fmt_d mx); ("mean", fmt_f 2 mean); ("stddev", fmt_f 2 sd); ("median", fmt_f 2 a); ("75%", fmt_f 2 b); ("95%", fmt_f 2 c); ("99%", fmt_f 2 d); ("99.9%", fmt_f 2 e);
      ("1-min", fmt_f 2 r1); ("5-min", fmt_f 2 r5); ("15-min", fmt_f 2 r15); ("mean-rate", fmt_f 2 rate)].
    split; [cbn [map String.concat fst snd append]; repeat (rewrite C; cbn [append]); reflexivity|]. do 14 (constructor; [part|]). constructor.
Qed.
(** one message for each metric *)
Lemma messages_of mexp error_text (st : state) v o at_ names rds outs :
  Forall2 (reads mexp st v o at_) names rds -> Forall2 (fun nr a => syslog_lines error_text (fst nr) (snd nr) = Ok a) rds outs ->
  Forall2 (fun nm l => exists i, shown st v nm = Some i /\ sys_says mexp error_text st v o (at_ nm) nm i l) names (List.concat outs).
Proof.
  intros R. revert outs. induction R as [|nm [n rd] names rds Hn _ IH]; intros outs F; inversion F as [|? a ? outs' Ha F']; subst; [constructor|].
  specialize (IH _ F'). cbn [fst snd] in Ha. destruct Hn as (Hn & i & Si & Hi). cbn [fst snd] in *. subst n.
  assert (X : exists l, a = [l] /\ sys_says mexp error_text st v o (at_ nm) nm i l).
  { unfold sys_says. destruct (class_eqb (cls i) CHealth) eqn:Ch.
    - destruct Hi as (e & -> & Se). unfold syslog_lines in Ha. injection Ha as <-. assert (C : cls i = CHealth) by (destruct (cls i); try discriminate Ch; reflexivity). rewrite C.
      eexists. split; [reflexivity|]. exists [("error", error_says error_text e)]. split; [reflexivity|]. exists e. auto.
    - destruct Hi as (K & An). assert (N : kind_rd rd <> CHealth) by (rewrite K; intros C; rewrite C in Ch; discriminate).
      destruct (sys_ok _ _ _ _ _ _ N An Ha) as (parts & -> & Fr). rewrite <- K. eexists. split; [reflexivity|]. exists parts. split; [reflexivity|].
      eapply forall2_impl; [|exact Fr]. intros p [[label c] s] H. exact H. }
  destruct X as (l & -> & X). cbn [List.concat app]. constructor; eauto.
Qed.

(** ** Stathat *)
Definition hat_ok (Q : op -> rv -> Prop) (nm : string) (p : post) (f : string * op * sort) : Prop :=
  let '(suffix, c, s) := f in
  exists a, Q c a /\ match s, p with ACount, PostCount n k => n = nm ++ suffix /\ a = RZ k | AValue, PostValue n y => n = nm ++ suffix /\ as_float a y | _, _ => False end.
Lemma hat_c (Q : op -> rv -> Prop) nm suffix c n : Q c (RZ n) -> hat_ok Q nm (PostCount (nm ++ suffix) n) (suffix, c, ACount).
Proof. intros H. exists (RZ n). auto. Qed.
Lemma hat_z (Q : op -> rv -> Prop) nm suffix c n : Q c (RZ n) -> hat_ok Q nm (PostValue (nm ++ suffix) (f_of_int n)) (suffix, c, AValue).
Proof. intros H. exists (RZ n). split; [exact H|]. split; reflexivity. Qed.
Lemma hat_f (Q : op -> rv -> Prop) nm suffix c x : Q c (RF x) -> hat_ok Q nm (PostValue (nm ++ suffix) x) (suffix, c, AValue).
Proof. intros H. exists (RF x). split; [exact H|]. split; reflexivity. Qed.
Ltac hat := first [apply hat_c; solve [eauto] | apply hat_z; solve [eauto] | apply hat_f; solve [eauto]].
Lemma hat_all (Q : op -> rv -> Prop) x nm rd ps : kind_rd rd <> CHealth -> answered Q x ps5 rd -> stathat_posts nm rd = Ok ps -> Forall2 (hat_ok Q nm) ps (hat_table x (kind_rd rd)).
Proof.
  intros N A E. unfold stathat_posts in E. injection E as <-. destruct rd; cbn [answered kind_rd hat_table] in *; try congruence.
  - constructor; [|constructor]. rewrite <- (app_nil_r' nm) at 2. hat.
  - constructor; [|constructor]. rewrite <- (app_nil_r' nm) at 2. hat.
  - constructor; [|constructor]. rewrite <- (app_nil_r' nm) at 2. hat.
  - destruct A as (A1 & A2 & A3 & A4 & A5 & A6). apply five_scores in A6. destruct A6 as (a & b & c & d & e & -> & P1 & P2 & P3 & P4 & P5). unfold post_dist, nth_f, hat_distribution. cbn [nth].
    do 10 (constructor; [hat|]). constructor.
  - destruct A as (A1 & A2 & A3 & A4 & A5). unfold post_rates, hat_rates. do 5 (constructor; [hat|]). constructor.
  - destruct A as ((A1 & A2 & A3 & A4 & A5 & A6) & R1 & R2 & R3 & R4). apply five_scores in A6. destruct A6 as (a & b & c & d & e & -> & P1 & P2 & P3 & P4 & P5). unfold post_dist, post_rates, nth_f, hat_distribution, hat_rates. cbn [nth app].
    do 14 (constructor; [hat|]). constructor.
Qed.
