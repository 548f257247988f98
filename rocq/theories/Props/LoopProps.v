(** Property C67: the loops around reports, and histories with reports in them.  [h] is what the
    process did before the loop was started, the loop's cues are [before], [c], [rest]. *)
From Coq Require Import ZArith List String Bool Lia.
From Verif.Model Require Import GoInt GoFloat GoBase World Fmt Report Json Send Runtime Loops.
From Verif.Spec Require Import ApiSpec RegistrySpec TextSpec WriteSpec ReadOnlySpec SendSpec HistorySpec.
From Verif.Proofs Require Import WorldBase WorldStep SendProofs ReportProgProofs HistoryProofs LoopProofs.
From Verif.Props Require Import SnapshotProps HealthProps ReportProps WriteProps SendProps.
Import ListNotations.
Local Open Scope nat_scope.
Local Open Scope string_scope.

(** whatever a process does, calls, captures and reports in any order: a program that only calls
    the API reaches the same state, up to the places at which it holds its values *)
Theorem C67_history : forall mexp s, history mexp s -> exists p f, same_up_to f (p_state s) (reach mexp p).
Proof. exact history_program. Qed.
(** and these places do not matter: every call gives the same answer there *)
Theorem C67_answers : forall mexp f st st' c o, same_up_to f st st' -> snd (step mexp st' (move f c, o)) = snd (step mexp st (c, o)).
Proof. exact step_move. Qed.

(** ** one turn *)
Lemma conn_world once report v o (s : proc) (a : bool * fate) : 
  (forall f w, s_world (once false f o w) = w /\ s_err (once false f o w) = Ok true) ->
  (forall f w, s_world (once true f o w) = fst (report o w)) ->
  (forall w, reported false v o w (fst (report o w : world * res string))) ->
  fst (on_conn once a o s) = set_world s (fst (p_state s)) \/ exists runs w', fst (on_conn once a o s) = set_world s w' /\ reported runs v o (fst (p_state s)) w'.
Proof.
  intros Hf Ht R. destruct a as [[|] f]; unfold on_conn; cbn [fst snd].
  - right. exists false. eexists. split; [reflexivity|]. rewrite Ht. apply R.
  - left. now rewrite (proj1 (Hf f _)).
Qed.
Lemma graphite_world decimal prefix u ps v f o w : s_world (graphite_once decimal prefix u ps v true f o w) = fst (graphite decimal prefix u ps v o w).
Proof.
  destruct (C63_prefix decimal prefix u ps v f o w) as (_ & _ & W & _). rewrite W. destruct (graphite decimal prefix u ps v o w) as [w' [out|m]] eqn:E.
  - now destruct (C63_graphite decimal prefix u ps v [] o w w' out (Forall_nil _) E) as (_ & -> & _).
  - now destruct (proj1 (C63_panics decimal "" prefix u ps v [] o w w' m) E) as (-> & _).
Qed.
Lemma opentsdb_world host prefix u v f o w : s_world (opentsdb_once host prefix u v true f o w) = fst (opentsdb host prefix u v o w).
Proof.
  destruct (C63_prefix_opentsdb host prefix u v f o w) as (_ & _ & W & _). rewrite W. destruct (opentsdb host prefix u v o w) as [w' [out|m]] eqn:E.
  - now destruct (C63_opentsdb host prefix u v [] o w w' out (Forall_nil _) E) as (_ & -> & _).
  - now destruct (proj2 (C63_panics (fun _ => "") host prefix u [] v [] o w w' m) E) as (-> & _).
Qed.
Lemma write_world et sort v f o w : s_world (write_to et sort v f o w) = fst (write_once et sort v o w).
Proof.
  destruct (write_once et sort v o w) as [w' [out|m]] eqn:E; [now destruct (C63_write et sort v f o w w' out E) as (_ & -> & _)|now destruct (C63_write_panics et sort v f o w w' m E) as (-> & _)].
Qed.
Lemma steady_graphite mexp decimal prefix u ps v b : base v = Some b -> steady mexp (on_conn (graphite_once decimal prefix u ps v)) v.
Proof. intros B. apply (steady_or mexp _ v b B). intros a o s. apply (conn_world _ (graphite decimal prefix u ps v)); [intros f w; destruct (C63_dial decimal "" prefix u ps v f o w) as ((H1 & H2 & _) & _); auto|intros; apply graphite_world|intros; apply r_graphite]. Qed.
Lemma steady_opentsdb mexp host prefix u v b : base v = Some b -> steady mexp (on_conn (opentsdb_once host prefix u v)) v.
Proof. intros B. apply (steady_or mexp _ v b B). intros a o s. apply (conn_world _ (opentsdb host prefix u v)); [intros f w; destruct (C63_dial (fun _ => "") host prefix u [] v f o w) as (_ & (H1 & H2 & _)); auto|intros; apply opentsdb_world|intros; apply r_opentsdb]. Qed.
Lemma steady_write mexp et sort v b : base v = Some b -> sorts sort -> steady mexp (write_turn et sort v) v.
Proof. intros B S. apply (steady_reported mexp _ v b B). intros f o s. exists true. eexists. split; [reflexivity|]. rewrite write_world. now apply r_write. Qed.
Lemma steady_world {A C} mexp (m : M C) v b runs : base v = Some b -> (forall o w, reported runs v o w (fst (m o w))) -> steady mexp (fun _ : A => on_world m) v.
Proof. intros B R. apply (steady_reported mexp _ v b B). intros a o s. exists runs, (fst (m o (fst (p_state s)))). unfold on_world. specialize (R o (fst (p_state s))). destruct (m o (fst (p_state s))) as [w r]. split; [reflexivity|exact R]. Qed.

Section Loops.
Variable mexp : f64 -> f64.
Variables (h : list (pop * (nat -> orc))) (v : val) (b : nat).
Notation s := (prun mexp proc_init h).
Lemma at_cue {A C} (turn : A -> orc -> proc -> proc * res C) before c rest : In v (snd (p_state s)) -> steady mexp turn v ->
  let out := loop mexp turn s (before ++ c :: rest) in let s1 := prun mexp (fst (fst (loop mexp turn s before))) (q_before c) in
  came (List.length before) out -> exists p f, same_up_to f (p_state s1) (reach mexp p) /\ fst (fst (loop mexp turn s (before ++ [c]))) = fst (turn (q_in c) (q_orc c) s1) /\ answered (List.length before) out (snd (turn (q_in c) (q_orc c) s1)).
Proof.
  intros V St out s1 L. destruct (loop_program mexp turn v St s before c rest) as ((p & f & S) & N & X); [apply prun_history, h_init|exact V|exact L|]. exists p, f. split; [exact S|]. split; [exact N|]. unfold answered. fold s1 out in X. destruct (turn (q_in c) (q_orc c) s1) as [s' [y|m]]; exact X.
Qed.
End Loops.
Lemma ticks_on {A C} mexp (turn : A -> orc -> proc -> proc * res C) d s cues : (0 < d)%Z -> on_ticks mexp turn d s cues = loop mexp turn s cues.
Proof. intros H. unfold on_ticks. now rewrite (proj2 (Z.leb_gt _ _)) by exact H. Qed.
Lemma world_res {C} (m : M C) o s : snd (on_world m o s) = snd (m o (fst (p_state s))).
Proof. unfold on_world. destruct (m o (fst (p_state s))). reflexivity. Qed.

Lemma world_left {C} (m : M C) o s : fst (on_world m o s) = with_state s (fst (m o (fst (p_state s))), snd (p_state s)).
Proof. unfold on_world. destruct (m o (fst (p_state s))). reflexivity. Qed.

(** ** the loops: at every cue they come to, they do what one report does in the state that the
    process is in then, and that state is one that a program without reports reaches *)
Theorem C67_graphite : forall mexp h v b decimal prefix u ps d before c rest, let s := prun mexp proc_init h in
  let run := graphite_loop mexp decimal prefix u ps v d s in let s1 := prun mexp (fst (fst (run before))) (q_before c) in
  (0 < d)%Z -> In v (snd (p_state s)) -> base v = Some b -> came (List.length before) (run (before ++ c :: rest)%list) ->
  exists p f, same_up_to f (p_state s1) (reach mexp p) /\
    let r := graphite_once decimal prefix u ps v (fst (q_in c)) (snd (q_in c)) (q_orc c) (fst (reach mexp p)) in
    leaves s1 (run (before ++ [c])%list) (s_world r) /\ answered (List.length before) (run (before ++ c :: rest)%list) (match s_err r with Ok e => Ok (received r, e) | Panic m => Panic m end).
Proof.
  intros mexp h v b decimal prefix u ps d before c rest s run s1 D V B. unfold s1, run, graphite_loop. rewrite !ticks_on by exact D. intros L.
  destruct (at_cue mexp h v _ before c rest V (steady_graphite mexp decimal prefix u ps v b B) L) as (p & f & S & N & X). exists p, f. split; [exact S|]. cbv zeta. destruct S as (W & _). rewrite W. split; [exact N|exact X].
Qed.
Theorem C67_opentsdb : forall mexp h v b host prefix u d before c rest, let s := prun mexp proc_init h in
  let run := opentsdb_loop mexp host prefix u v d s in let s1 := prun mexp (fst (fst (run before))) (q_before c) in
  (0 < d)%Z -> In v (snd (p_state s)) -> base v = Some b -> came (List.length before) (run (before ++ c :: rest)%list) ->
  exists p f, same_up_to f (p_state s1) (reach mexp p) /\
    let r := opentsdb_once host prefix u v (fst (q_in c)) (snd (q_in c)) (q_orc c) (fst (reach mexp p)) in
    leaves s1 (run (before ++ [c])%list) (s_world r) /\ answered (List.length before) (run (before ++ c :: rest)%list) (match s_err r with Ok e => Ok (received r, e) | Panic m => Panic m end).
Proof.
  intros mexp h v b host prefix u d before c rest s run s1 D V B. unfold s1, run, opentsdb_loop. rewrite !ticks_on by exact D. intros L.
  destruct (at_cue mexp h v _ before c rest V (steady_opentsdb mexp host prefix u v b B) L) as (p & f & S & N & X). exists p, f. split; [exact S|]. cbv zeta. destruct S as (W & _). rewrite W. split; [exact N|exact X].
Qed.
Theorem C67_write : forall mexp h v b error_text sort d before c rest, let s := prun mexp proc_init h in
  let run := write_loop mexp error_text sort v d s in let s1 := prun mexp (fst (fst (run before))) (q_before c) in
  (0 < d)%Z -> In v (snd (p_state s)) -> base v = Some b -> sorts sort -> came (List.length before) (run (before ++ c :: rest)%list) ->
  exists p f, same_up_to f (p_state s1) (reach mexp p) /\
    let r := write_to error_text sort v (q_in c) (q_orc c) (fst (reach mexp p)) in
    leaves s1 (run (before ++ [c])%list) (s_world r) /\ answered (List.length before) (run (before ++ c :: rest)%list) (match s_err r with Ok _ => Ok (received r) | Panic m => Panic m end).
Proof.
  intros mexp h v b error_text sort d before c rest s run s1 D V B Sr. unfold s1, run, write_loop. rewrite !ticks_on by exact D. intros L.
  destruct (at_cue mexp h v _ before c rest V (steady_write mexp error_text sort v b B Sr) L) as (p & f & S & N & X). exists p, f. split; [exact S|]. cbv zeta. destruct S as (W & _). rewrite W. split; [exact N|exact X].
Qed.
Theorem C67_json : forall mexp h v b quote number error_text d before c rest, let s := prun mexp proc_init h in
  let run := json_loop mexp quote number error_text v d s in let s1 := prun mexp (fst (fst (run before))) (q_before c) in
  (0 < d)%Z -> In v (snd (p_state s)) -> base v = Some b -> came (List.length before) (run (before ++ c :: rest)%list) ->
  exists p f, same_up_to f (p_state s1) (reach mexp p) /\
    let r := write_json_once quote number error_text v (q_orc c) (fst (reach mexp p)) in
    leaves s1 (run (before ++ [c])%list) (fst r) /\ answered (List.length before) (run (before ++ c :: rest)%list) (snd r).
Proof.
  intros mexp h v b quote number error_text d before c rest s run s1 D V B. unfold s1, run, json_loop. rewrite !ticks_on by exact D. intros L.
  destruct (at_cue mexp h v _ before c rest V (steady_world mexp _ v b true B (fun o w => r_json v o w quote number error_text)) L) as (p & f & S & N & X). exists p, f. split; [exact S|]. cbv zeta. destruct S as (W & _). rewrite W. rewrite world_res in X. rewrite world_left in N. split; [exact N|exact X].
Qed.
Theorem C67_syslog : forall mexp h v b error_text d before c rest, let s := prun mexp proc_init h in
  let run := syslog_loop mexp error_text v d s in let s1 := prun mexp (fst (fst (run before))) (q_before c) in
  (0 < d)%Z -> In v (snd (p_state s)) -> base v = Some b -> came (List.length before) (run (before ++ c :: rest)%list) ->
  exists p f, same_up_to f (p_state s1) (reach mexp p) /\
    let r := syslog_once error_text v (q_orc c) (fst (reach mexp p)) in
    leaves s1 (run (before ++ [c])%list) (fst r) /\ answered (List.length before) (run (before ++ c :: rest)%list) (snd r).
Proof.
  intros mexp h v b error_text d before c rest s run s1 D V B. unfold s1, run, syslog_loop. rewrite !ticks_on by exact D. intros L.
  destruct (at_cue mexp h v _ before c rest V (steady_world mexp _ v b true B (fun o w => r_syslog v o w error_text)) L) as (p & f & S & N & X). exists p, f. split; [exact S|]. cbv zeta. destruct S as (W & _). rewrite W. rewrite world_res in X. rewrite world_left in N. split; [exact N|exact X].
Qed.
(** LogScaledOnCue; LogScaled with an interval that is positive is that on ticks *)
Theorem C67_log : forall mexp h v b error_text scale before c rest, let s := prun mexp proc_init h in
  let run := log_on_cue mexp error_text scale v s in let s1 := prun mexp (fst (fst (run before))) (q_before c) in
  In v (snd (p_state s)) -> base v = Some b -> came (List.length before) (run (before ++ c :: rest)%list) ->
  exists p f, same_up_to f (p_state s1) (reach mexp p) /\
    let r := log_once error_text scale v (q_orc c) (fst (reach mexp p)) in
    leaves s1 (run (before ++ [c])%list) (fst r) /\ answered (List.length before) (run (before ++ c :: rest)%list) (snd r).
Proof.
  intros mexp h v b error_text scale before c rest s run s1 V B L. unfold s1, run, log_on_cue in *.
  destruct (at_cue mexp h v _ before c rest V (steady_world mexp _ v b true B (fun o w => r_log v o w error_text scale)) L) as (p & f & S & N & X). exists p, f. split; [exact S|]. cbv zeta. destruct S as (W & _). rewrite W. rewrite world_res in X. rewrite world_left in N. split; [exact N|exact X].
Qed.
Theorem C67_stathat : forall mexp h v b before c rest, let s := prun mexp proc_init h in
  let run := stathat_loop mexp v s in let s1 := prun mexp (fst (fst (run before))) (q_before c) in
  In v (snd (p_state s)) -> base v = Some b -> came (List.length before) (run (before ++ c :: rest)%list) ->
  exists p f, same_up_to f (p_state s1) (reach mexp p) /\
    let r := stathat v (q_orc c) (fst (reach mexp p)) in
    leaves s1 (run (before ++ [c])%list) (fst r) /\ answered (List.length before) (run (before ++ c :: rest)%list) (snd r).
Proof.
  intros mexp h v b before c rest s run s1 V B L. unfold s1, run, stathat_loop in *.
  destruct (at_cue mexp h v _ before c rest V (steady_world mexp _ v b false B (fun o w => r_stathat v o w)) L) as (p & f & S & N & X). exists p, f. split; [exact S|]. cbv zeta. destruct S as (W & _). rewrite W. rewrite world_res in X. rewrite world_left in N. split; [exact N|exact X].
Qed.

(** ** when the loops end, and when they never begin *)
(** a turn for every cue, unless one of them panics *)
Theorem C67_every_cue : forall A B mexp (turn : A -> orc -> proc -> proc * res B) s cues,
  List.length (snd (fst (loop mexp turn s cues))) = List.length cues <-> snd (loop mexp turn s cues) = None.
Proof. intros. apply loop_length. Qed.
(** with an interval that is not positive nothing is ever reported, except to StatHat *)
Theorem C67_not_positive : forall mexp v d s, (d <= 0)%Z ->
  (forall decimal prefix u ps cues, graphite_loop mexp decimal prefix u ps v d s cues = (s, [], None)) /\
  (forall host prefix u cues, opentsdb_loop mexp host prefix u v d s cues = (s, [], None)) /\
  (forall error_text sort cues, write_loop mexp error_text sort v d s cues = (s, [], None)) /\
  (forall quote number error_text cues, json_loop mexp quote number error_text v d s cues = (s, [], None)) /\
  (forall error_text scale cues, log_loop mexp error_text scale v d s cues = (s, [], None)) /\
  (forall error_text cues, syslog_loop mexp error_text v d s cues = (s, [], None)) /\
  (forall r cues, capture_runtime_loop mexp r d s cues = (s, [], None)) /\ (forall r cues, capture_debug_loop mexp r d s cues = (s, [], None)).
Proof. intros mexp v d s H. apply Z.leb_le in H. unfold graphite_loop, opentsdb_loop, write_loop, json_loop, log_loop, syslog_loop, capture_runtime_loop, capture_debug_loop, on_ticks. rewrite H. repeat split. Qed.
Theorem C67_positive : forall mexp v d s error_text scale cues, (0 < d)%Z -> log_loop mexp error_text scale v d s cues = log_on_cue mexp error_text scale v s cues.
Proof. intros. unfold log_loop. now apply ticks_on. Qed.
(** the capture loops are the captures, one at every tick: what holds of histories with captures
    (C50, C51, C53, C57) holds of them *)
Theorem C67_captures : forall mexp d h, (0 < d)%Z -> let s := prun mexp proc_init h in
  (forall r cues s' l, capture_runtime_loop mexp r d s cues = (s', l, None) ->
    s' = prun mexp proc_init (h ++ flat_map (fun c => q_before c ++ [(PCaptureRuntime r (fst (q_in c)), snd (q_in c))]) cues)%list) /\
  (forall r cues s' l, capture_debug_loop mexp r d s cues = (s', l, None) ->
    s' = prun mexp proc_init (h ++ flat_map (fun c => q_before c ++ [(PCaptureDebug r (fst (q_in c)), snd (q_in c))]) cues)%list).
Proof.
  intros mexp d h D s. unfold s, capture_runtime_loop, capture_debug_loop.
  assert (G : forall A (g : A -> pop) (cues : list (cue (A * (nat -> orc)))) h s' l, loop mexp (fun (a : A * (nat -> orc)) (_ : orc) => capture_turn mexp (g (fst a)) (snd a)) (prun mexp proc_init h) cues = (s', l, None) ->
    s' = prun mexp proc_init (h ++ flat_map (fun c => q_before c ++ [(g (fst (q_in c)), snd (q_in c))]) cues)%list).
  { intros A g. induction cues as [|c cues IH]; intros h0 s' l H; cbn [loop flat_map] in *; [injection H as <- <-; now rewrite app_nil_r|].
    unfold capture_turn in H at 1. replace (prun mexp (prun mexp proc_init h0) (q_before c)) with (prun mexp proc_init (h0 ++ q_before c)) in H by (unfold prun; apply fold_left_app).
    destruct (pstep mexp (prun mexp proc_init (h0 ++ q_before c)) (g (fst (q_in c)), snd (q_in c))) as [s1 r1] eqn:E.
    assert (E1 : s1 = prun mexp proc_init (h0 ++ q_before c ++ [(g (fst (q_in c)), snd (q_in c))])) by (rewrite app_assoc; unfold prun at 1; rewrite fold_left_app; cbn [fold_left]; fold (prun mexp proc_init (h0 ++ q_before c)); now rewrite E).
    destruct r1 as [[y|m]|]; try discriminate H; rewrite E1 in H; destruct (loop _ _ _ cues) as [[s2 l2] e2] eqn:El; injection H as <- <- ->; apply IH in El; rewrite El, <- !app_assoc; reflexivity. }
  split; intros r cues s' l H; rewrite ticks_on in H by exact D; eapply G; eauto.
Qed.

(** ** example: a gauge, and a loop to Graphite; the second connection cannot be opened, before the
    third report the gauge is updated, and the third one arrives *)
Definition one_gauge : list (pop * (nat -> orc)) := map (fun c => (PApi c, fun _ => hurt)) [ONew NGauge; ORegister 0 "a" 1; OUpdate 1 (-5)]%Z.
Definition three_cues : list (cue (bool * fate)) := [MkCue [] hurt (true, []); MkCue [] hurt (false, []); MkCue [(PApi (OUpdate 1 7), fun _ => hurt)] hurt (true, [])].
Definition to_graphite (d : Z) : proc * list (string * bool) * option string := graphite_loop one_exp (fun _ => "50") "p" 1 [f_half] (VReg 0) d (prun one_exp proc_init one_gauge) three_cues.
Definition post_bits (x : post) : string * Z := match x with PostCount nm n => (nm, n) | PostValue nm x => (nm, float64bits x) end.
Example C67_example : let s := prun one_exp proc_init one_gauge in
  In (VReg 0) (snd (p_state s)) /\ base (VReg 0) = Some 0 /\
  snd (fst (to_graphite 1)) = [("p.a.value -5 8" ++ newline, false); ("", true); ("p.a.value 7 8" ++ newline, false)] /\ snd (to_graphite 1) = None /\ came 2 (to_graphite 1) /\
  snd (fst (to_graphite 0)) = [] /\
  map (map post_bits) (snd (fst (stathat_loop one_exp (VReg 0) s [MkCue [] hurt tt; MkCue [(PApi (OUpdate 1 7), fun _ => hurt)] hurt tt]))) = [[("a", float64bits (f_of_int (-5)))]; [("a", float64bits (f_of_int 7))]].
Proof.
  cbv zeta. split; [left; reflexivity|]. split; [reflexivity|]. split; [vm_compute; reflexivity|]. split; [vm_compute; reflexivity|]. split; [apply Nat.leb_le; vm_compute; reflexivity|]. split; [vm_compute; reflexivity|].
  vm_compute. reflexivity.
Qed.
