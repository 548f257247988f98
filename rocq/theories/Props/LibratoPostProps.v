(** Property C66: what the Librato reporter posts.  Of the notation of strings is assumed that
    [quote s] is a JSON string, with the characters [chars s] (C56_quote shows it of that of
    encoding/json), and of finite floats that [number x] is a JSON number. *)
From Coq Require Import ZArith List String Ascii Bool Lia.
From Verif.Model Require Import GoInt GoFloat GoBase World Fmt Report Json JsonQuote Librato LibratoPost.
From Verif.Spec Require Import ApiSpec RegistrySpec GetAllSpec TextSpec ReportSpec ReadOnlySpec LibratoSpec JsonText JsonReadSpec LibratoPostSpec.
From Verif.Proofs Require Import IntFacts WorldBase WorldStep GetAllProofs HealthProofs RegistryProofs LibratoProofs LibratoPostProofs ReportProgProofs.
From Verif.Props Require Import SnapshotProps HealthProps GetAllProps ReportProps WriteProps JsonProps LibratoProps JsonReadProps.
Import ListNotations.
Local Open Scope nat_scope.
Local Open Scope string_scope.

(** ** one batch *)
(** a request is made if and only if there is something to report and all of it is finite: one NaN
    keeps the whole batch from being sent *)
Theorem C66_sent_iff : forall quote number unsupported email token http b,
  (exists req, In (Do req) (fst (post_metrics quote number unsupported email token http b))) <-> has_measurement b /\ all_finite b.
Proof.
  intros. destruct (post_cases quote number unsupported email token http b) as [(E & ->)|[(M & F & ->)|(M & F & js & _ & P)]].
  - split; [intros (req & [])|]. intros (M & _). now apply empty_no in E.
  - split; [intros (req & [])|]. intros (_ & F'). contradiction.
  - split; [auto|]. intros _. cbv zeta in P. rewrite P. destruct (http _) as [e|code status body]; [|destruct (Z.eqb code 200)]; eexists; left; reflexivity.
Qed.
(** it is one request, with the credentials, and its body is the JSON text of the batch *)
Theorem C66_request : forall quote chars number unsupported email token http b req,
  (forall s, is_json (quote s) (JStr (chars s))) -> (forall x, fis_finite x = true -> is_number (number x) = true) ->
  In (Do req) (fst (post_metrics quote number unsupported email token http b)) ->
  requests (fst (post_metrics quote number unsupported email token http b)) = [req] /\
  h_method req = "POST" /\ h_url req = "https://metrics-api.librato.com/v1/metrics" /\ h_content_type req = "application/json" /\ h_user req = email /\ h_password req = token /\
  exists j, is_json (h_body req) j /\ batch_reads chars number b j.
Proof.
  intros quote chars number unsupported email token http b req Hq Hn H.
  destruct (post_cases quote number unsupported email token http b) as [(E & P)|[(M & F & P)|(M & F & js & Ej & P)]]; cbv zeta in P; rewrite P in *; [contradiction|contradiction|].
  assert (X : In (Do req) (fst (post_metrics quote number unsupported email token http b)) /\ req = MkHttp "POST" metrics_post_url "application/json" email token js /\ requests (fst (post_metrics quote number unsupported email token http b)) = [req]).
  { rewrite P. destruct (http _) as [e|code status body]; [|destruct (Z.eqb code 200)]; cbn [fst In] in H; (split; [exact H|]).
    - destruct H as [H|[]]. injection H as <-. auto.
    - destruct H as [H|[]]. injection H as <-. auto.
    - destruct H as [H|[H|[]]]; [injection H as <-; auto|discriminate]. }
  destruct X as (_ & -> & X). rewrite P in X. split; [exact X|]. repeat split; try reflexivity. now apply (batch_json_reads quote chars number Hq Hn).
Qed.
(** the error is nil if and only if there was nothing to send, or the answer had status 200 *)
Theorem C66_nil_iff : forall quote number unsupported email token http b,
  snd (post_metrics quote number unsupported email token http b) = None <->
  ~ has_measurement b \/ exists req, In (Do req) (fst (post_metrics quote number unsupported email token http b)) /\ accepts http req.
Proof.
  intros. destruct (post_cases quote number unsupported email token http b) as [(E & ->)|[(M & F & ->)|(M & F & js & _ & P)]]; cbv zeta in *.
  - split; [|reflexivity]. intros _. left. now apply empty_no.
  - split; [discriminate|]. intros [N|(req & [] & _)]. contradiction.
  - rewrite P. set (req := MkHttp _ _ _ _ _ _) in *. destruct (http req) as [e|code status body] eqn:H; [|destruct (Z.eqb_spec code 200) as [->|N]]; cbn [fst snd].
    + split; [discriminate|]. intros [N|(r & [X|[]] & s & y & A)]; [contradiction|]. injection X as <-. congruence.
    + split; [|reflexivity]. intros _. right. exists req. split; [now left|]. exists status, body. exact H.
    + split; [discriminate|]. intros [X|(r & [X|[X|[]]] & s & y & A)]; [contradiction| |discriminate]. injection X as <-. congruence.
Qed.
(** otherwise it says what the server answered *)
Theorem C66_error : forall quote number unsupported email token http b req code status,
  In (Do req) (fst (post_metrics quote number unsupported email token http b)) -> code <> 200%Z ->
  (forall body, http req = Answer code status (Body body) -> snd (post_metrics quote number unsupported email token http b) = Some ("Unable to post to Librato: " ++ fmt_d code ++ " " ++ status ++ " " ++ body)) /\
  (forall e, http req = Answer code status (BodyError e) ->
    snd (post_metrics quote number unsupported email token http b) = Some ("Unable to post to Librato: " ++ fmt_d code ++ " " ++ status ++ " (could not fetch response body for error: " ++ e ++ ")")) /\
  (forall e, http req = NoAnswer e -> snd (post_metrics quote number unsupported email token http b) = Some e).
Proof.
  intros quote number unsupported email token http b req code status H N. apply Z.eqb_neq in N.
  destruct (post_cases quote number unsupported email token http b) as [(E & P)|[(M & F & P)|(M & F & js & _ & P)]]; cbv zeta in *; rewrite P in *; [contradiction|contradiction|].
  set (q := MkHttp _ _ _ _ _ _) in *. assert (req = q). { destruct (http q) as [e|c s y]; [|destruct (Z.eqb c 200)]; cbn [fst In] in H; [| |destruct H as [H|H]]; try (destruct H as [H|[]]); try discriminate; now injection H as <-. }
  subst req. repeat split; intros y E; rewrite E; [rewrite N; reflexivity|rewrite N; reflexivity|reflexivity].
Qed.
(** the response's body is never closed, and it is not read if the status is 200: each answered
    request leaves a connection that cannot be used again *)
Theorem C66_left_open : forall quote number unsupported email token http b,
  ~ In CloseBody (fst (post_metrics quote number unsupported email token http b)) /\
  (forall req, In (Do req) (fst (post_metrics quote number unsupported email token http b)) -> accepts http req -> ~ In ReadAll (fst (post_metrics quote number unsupported email token http b))).
Proof.
  intros. destruct (post_cases quote number unsupported email token http b) as [(E & ->)|[(M & F & ->)|(M & F & js & _ & P)]]; cbv zeta in *; [split; [intros []|intros ? []]|split; [intros []|intros ? []]|].
  rewrite P. set (q := MkHttp _ _ _ _ _ _) in *. destruct (http q) as [e|c s y] eqn:H; [|destruct (Z.eqb_spec c 200) as [->|N]]; cbn [fst In].
  - split; [intros [X|[]]; discriminate|]. intros req _ _ [X|[]]; discriminate.
  - split; [intros [X|[]]; discriminate|]. intros req _ _ [X|[]]; discriminate.
  - split; [intros [X|[X|[]]]; discriminate|]. intros req [X|[X|[]]] (s' & y' & A); [|discriminate]. injection X as <-. congruence.
Qed.

(** ** the loop *)
Section Loop.
Variables (quote : string -> string) (number : f64 -> string) (unsupported : string) (email token : string) (mexp : f64 -> f64) (sq : f64 -> f64) (self : reporter) (v : val).
Notation turn := (turn quote number unsupported email token mexp sq self v).
Notation turns := (turns quote number unsupported email token mexp sq self v).
Notation after_ticks := (after_ticks quote number unsupported email token mexp sq self v).
Lemma turn_state st tk : fst (turn st tk) = (fst (build_request sq self (t_now tk) v (t_orc tk) (fst (run mexp st (t_calls tk)))), snd (run mexp st (t_calls tk))).
Proof. unfold LibratoPost.turn. destruct (build_request _ _ _ _ _ _) as [w' [b|m]]; [destruct (post_metrics _ _ _ _ _ _ _)|]; reflexivity. Qed.
Lemma turn_inv st tk r b : inv st -> nth_error (snd st) r = Some v -> base v = Some b -> inv (fst (turn st tk)) /\ nth_error (snd (fst (turn st tk))) r = Some v.
Proof.
  intros I E B. rewrite turn_state. assert (I1 : inv (run mexp st (t_calls tk))) by now apply inv_run. assert (E1 : nth_error (snd (run mexp st (t_calls tk))) r = Some v) by now apply run_env.
  set (st1 := run mexp st (t_calls tk)) in *. clearbody st1. split; [|exact E1]. destruct (reported_moves mexp false v b (t_orc tk) st1 _ I1 (nth_error_In _ _ E1) B (r_librato v (t_orc tk) (fst st1) sq self (t_now tk))) as (q & _ & Eq & more & G).
  pose proof (inv_run mexp q st1 I1) as (W & F). rewrite Eq in *. rewrite G in F. apply Forall_app in F. split; [exact W|apply F].
Qed.
Lemma after_inv ticks r b : base v = Some b -> forall st, inv st -> nth_error (snd st) r = Some v -> inv (after_ticks st ticks) /\ nth_error (snd (after_ticks st ticks)) r = Some v.
Proof. intros B. induction ticks as [|tk ticks IH]; intros st I E; cbn [LibratoPost.after_ticks]; [auto|]. destruct (turn_inv st tk r b I E B). now apply IH. Qed.
(** the turns before a tick, and that tick *)
Lemma turns_at before : forall st tk rest, List.length before <= List.length (fst (turns st (before ++ tk :: rest))) ->
  match turn (after_ticks st before) tk with
  | (_, Ok a) => nth_error (fst (turns st (before ++ tk :: rest))) (List.length before) = Some a
  | (_, Panic m) => turns st (before ++ tk :: rest) = (firstn (List.length before) (fst (turns st (before ++ tk :: rest))), Some m) /\ List.length (fst (turns st (before ++ tk :: rest))) = List.length before
  end.
Proof.
  induction before as [|a before IH]; intros st tk rest L; cbn [app LibratoPost.turns LibratoPost.after_ticks List.length] in *.
  - destruct (turn st tk) as [st' [x|m]]; [destruct (turns st' rest); reflexivity|auto].
  - destruct (turn st a) as [st' [x|m]]; cbn [fst]; [|cbn in L; lia]. specialize (IH st' tk rest). destruct (turns st' (before ++ tk :: rest)) as [l e]. cbn [fst List.length] in *. specialize (IH ltac:(lia)).
    destruct (turn (after_ticks st' before) tk) as [st2 [y|m]]; [exact IH|]. destruct IH as (H & H'). split; [|lia]. injection H as H1 H2. cbn [firstn]. now rewrite H2, <- H1.
Qed.
Lemma turn_panic st tk r b at_ : inv st -> nth_error (snd st) r = Some v -> base v = Some b -> interval_sec self <> 0%Z ->
  let st1 := run mexp st (t_calls tk) in (forall nm i, shown st1 v nm = Some i -> nth_error (snd st1) (at_ nm) = Some i) ->
  match snd (turn st tk) with
  | Ok (acts, logs) => exists w' bt, build_request sq self (t_now tk) v (t_orc tk) (fst st1) = (w', Ok bt) /\ ~ percentile_panics mexp st1 (t_orc tk) self at_ v /\
      (exists names, visits st1 v names /\ Forall2 (fun xe m => fits sq mexp st1 (t_orc tk) self (fst xe) (snd xe) m) (gauges_of mexp st1 (t_orc tk) self at_ v names) (b_gauges bt) /\
         Forall2 (fun xe m => fits sq mexp st1 (t_orc tk) self (fst xe) (snd xe) m) (counters_of mexp st1 (t_orc tk) self at_ v names) (b_counters bt)) /\ b_source bt = source self /\
      acts = fst (post_metrics quote number unsupported email token (t_http tk) bt) /\
      logs = match snd (post_metrics quote number unsupported email token (t_http tk) bt) with Some e => ["ERROR sending metrics to librato " ++ e] | None => [] end
  | Panic _ => percentile_panics mexp st1 (t_orc tk) self at_ v
  end.
Proof.
  intros I E B K st1 At. assert (I1 : inv st1) by now apply inv_run. assert (E1 : nth_error (snd st1) r = Some v) by now apply run_env.
  destruct (librato_run mexp st1 r v b (t_orc tk) sq self at_ (t_now tk) I1 E1 B At K) as (w' & res & H & X). unfold LibratoPost.turn. fold st1. rewrite H. destruct res as [bt|m]; [|exact X].
  destruct (post_metrics quote number unsupported email token (t_http tk) bt) as [acts err] eqn:P. cbn [snd]. exists w', bt. rewrite P. destruct X as (X & S & N). auto 8.
Qed.
End Loop.

(** Run, at a tick which it reaches: it fails if and only if a percentile cannot be computed then;
    otherwise it sends the measurements of the metrics at that time, as far as C66_sent_iff says,
    whatever became of the batches before, and logs an error *)
Theorem C66_tick : forall quote chars number unsupported email token mexp sq p r v b self at_ before tk rest,
  let st := reach mexp p in
  let out := turns quote number unsupported email token mexp sq self v st (before ++ tk :: rest) in
  let st1 := run mexp (after_ticks quote number unsupported email token mexp sq self v st before) (t_calls tk) in
  (forall s, is_json (quote s) (JStr (chars s))) -> (forall x, fis_finite x = true -> is_number (number x) = true) ->
  interval_sec self <> 0%Z -> nth_error (snd st) r = Some v -> base v = Some b ->
  (forall nm i, shown st1 v nm = Some i -> nth_error (snd st1) (at_ nm) = Some i) ->
  List.length before <= List.length (fst out) ->
  (percentile_panics mexp st1 (t_orc tk) self at_ v /\ List.length (fst out) = List.length before /\ snd out <> None) \/
  (~ percentile_panics mexp st1 (t_orc tk) self at_ v /\ exists acts logs bt, nth_error (fst out) (List.length before) = Some (acts, logs) /\
    b_source bt = source self /\
    (0 < interval_sec self -> 0 <= t_now tk / 10 ^ 9 <= max_int64 -> (interval_sec self | b_time bt) /\ b_time bt <= t_now tk / 10 ^ 9 < b_time bt + interval_sec self)%Z /\
    (exists names, visits st1 v names /\ Forall2 (fun xe m => fits sq mexp st1 (t_orc tk) self (fst xe) (snd xe) m) (gauges_of mexp st1 (t_orc tk) self at_ v names) (b_gauges bt) /\
       Forall2 (fun xe m => fits sq mexp st1 (t_orc tk) self (fst xe) (snd xe) m) (counters_of mexp st1 (t_orc tk) self at_ v names) (b_counters bt)) /\
    ((has_measurement bt /\ all_finite bt /\ exists req j, requests acts = [req] /\ h_user req = email /\ h_password req = token /\ is_json (h_body req) j /\ batch_reads chars number bt j /\ (logs = [] <-> accepts (t_http tk) req)) \/
     (has_measurement bt /\ ~ all_finite bt /\ acts = [] /\ logs <> []) \/ (~ has_measurement bt /\ acts = [] /\ logs = []))).
Proof.
  intros quote chars number unsupported email token mexp sq p r v b self at_ before tk rest st out st1 Hq Hn K E B At L. assert (I : inv st) by exact (reach_inv mexp p).
  destruct (after_inv quote number unsupported email token mexp sq self v before r b B st I E) as (I0 & E0).
  pose proof (turn_panic quote number unsupported email token mexp sq self v _ tk r b at_ I0 E0 B K At) as T. pose proof (turns_at quote number unsupported email token mexp sq self v before st tk rest L) as N. fold out in N. fold st1 in T.
  destruct (turn quote number unsupported email token mexp sq self v (after_ticks quote number unsupported email token mexp sq self v st before) tk) as [st2 [[acts logs]|m]]; cbn [snd] in T.
  - right. destruct T as (w' & bt & Hb & NP & Ns & Sr & Ea & El). split; [exact NP|]. exists acts, logs, bt. split; [exact N|]. split; [exact Sr|]. split; [|split; [exact Ns|]].
    + intros K1 K2. clear - Hb K1 K2 st1. unfold build_request in Hb. unfold go_div, unix in Hb. set (k := interval_sec self) in *. set (t := (t_now tk / 10 ^ 9)%Z) in *. clearbody st1.
      replace (k =? 0)%Z with false in Hb by (symmetry; apply Z.eqb_neq; lia). rewrite (bind_ok _ _ _ _ _ _ (eq_refl : lift (Ok (wrap64 (t ÷ k))) (t_orc tk) (fst st1) = (fst st1, Ok (wrap64 (t ÷ k))))) in Hb.
      assert (Q : (t ÷ k = t / k)%Z) by (apply Z.quot_div_nonneg; lia). pose proof (Z.div_mod t k). pose proof (Z.mod_pos_bound t k K1). assert (Bd : (0 <= t / k <= t)%Z) by (split; [apply Z.div_pos; lia|apply Z.div_le_upper_bound; nia]).
      unfold max_int64 in K2. rewrite Q, (wrap64_id (t / k)) in Hb by (unfold is_int64, min_int64, max_int64; lia). rewrite wrap64_id in Hb by (unfold is_int64, min_int64, max_int64; nia).
      destruct (reg_each v (t_orc tk) (fst st1)) as [w1 [es|msg]] eqn:E1; [rewrite (bind_ok _ _ _ _ _ _ E1) in Hb|rewrite (bind_panic _ _ _ _ _ _ E1) in Hb; discriminate].
      destruct (measure_each sq self es (t_orc tk) w1) as [w2 [[gs cs]|msg]] eqn:E2; [rewrite (bind_ok _ _ _ _ _ _ E2) in Hb|rewrite (bind_panic _ _ _ _ _ _ E2) in Hb; discriminate]. unfold ret in Hb. injection Hb as <- <-. cbn [b_time].
      split; [exists (t / k)%Z; reflexivity|]. nia.
    + pose proof (C66_nil_iff quote number unsupported email token (t_http tk) bt) as Nil. pose proof (C66_sent_iff quote number unsupported email token (t_http tk) bt) as Sent. rewrite <- Ea in Nil, Sent.
      assert (Lg : logs = [] <-> snd (post_metrics quote number unsupported email token (t_http tk) bt) = None) by (rewrite El; destruct (snd (post_metrics quote number unsupported email token (t_http tk) bt)); split; congruence).
      destruct (post_cases quote number unsupported email token (t_http tk) bt) as [(Em & P)|[(M & F & P)|(M & F & js & _ & P)]].
      * right. right. rewrite P in Ea, El. cbn in Ea, El. split; [now apply empty_no|auto].
      * right. left. rewrite P in Ea, El. cbn [fst snd] in Ea, El. repeat split; auto. rewrite El. discriminate.
      * left. split; [exact M|]. split; [exact F|]. destruct (proj2 Sent (conj M F)) as (req & Hr). rewrite Ea in Hr. destruct (C66_request quote chars number unsupported email token (t_http tk) bt req Hq Hn Hr) as (R1 & _ & _ & _ & R2 & R3 & j & J & Rj). rewrite <- Ea in R1, Hr.
        exists req, j. repeat split; auto; intros X.
        -- apply Lg, Nil in X. destruct X as [X|(req' & Hi & X)]; [contradiction|]. assert (In req' (requests acts)) by (unfold requests; apply in_flat_map; exists (Do req'); split; [exact Hi|now left]). rewrite R1 in H. destruct H as [<-|[]]. exact X.
        -- apply Lg, Nil. right. eauto.
  - left. destruct N as (N1 & N2). split; [exact T|]. split; [exact N2|]. rewrite N1. discriminate.
Qed.

(** what is sent does not depend on what the network answered before: nothing is sent again and
    nothing is held back *)
Theorem C66_independent : forall quote number unsupported email token mexp sq self v st ticks ticks', Forall2 same_tick ticks ticks' ->
  map (fun a => requests (fst a)) (fst (turns quote number unsupported email token mexp sq self v st ticks)) = map (fun a => requests (fst a)) (fst (turns quote number unsupported email token mexp sq self v st ticks')) /\
  snd (turns quote number unsupported email token mexp sq self v st ticks) = snd (turns quote number unsupported email token mexp sq self v st ticks').
Proof.
  intros quote number unsupported email token mexp sq self v st ticks ticks' F. revert st. induction F as [|a b l l' (H1 & H2 & H3) _ IH]; intros st; [auto|]. cbn [turns]. unfold turn. rewrite H1, H2, H3.
  destruct (build_request sq self (t_now b) v (t_orc b) (fst (run mexp st (t_calls b)))) as [w' [bt|m]]; [|auto].
  assert (R : requests (fst (post_metrics quote number unsupported email token (t_http a) bt)) = requests (fst (post_metrics quote number unsupported email token (t_http b) bt))).
  { destruct (post_cases quote number unsupported email token (t_http a) bt) as [(Ea & Pa)|[(Ma & Fa & Pa)|(Ma & Fa & ja & Ja & Pa)]]; destruct (post_cases quote number unsupported email token (t_http b) bt) as [(Eb & Pb)|[(Mb & Fb & Pb)|(Mb & Fb & jb & Jb & Pb)]];
    cbv zeta in *; rewrite Pa, Pb; try reflexivity; try contradiction; try (now apply empty_no in Ea); try (now apply empty_no in Eb).
    assert (ja = jb) by congruence. subst jb. set (q := MkHttp _ _ _ _ _ _). destruct (t_http a q) as [|c ? ?], (t_http b q) as [|c' ? ?]; try destruct (Z.eqb c 200); try destruct (Z.eqb c' 200); reflexivity. }
  destruct (post_metrics quote number unsupported email token (t_http a) bt) as [aa ea]. destruct (post_metrics quote number unsupported email token (t_http b) bt) as [ab eb]. cbn [fst] in R.
  destruct (IH (w', snd (run mexp st (t_calls b)))) as (IH1 & IH2). destruct (turns quote number unsupported email token mexp sq self v (w', snd (run mexp st (t_calls b))) l) as [la xa]. destruct (turns quote number unsupported email token mexp sq self v (w', snd (run mexp st (t_calls b))) l') as [lb xb].
  cbn [fst snd map] in *. now rewrite R, IH1, IH2.
Qed.
(** an interval that is not positive: nothing is ever sent; one below a second: the first tick ends
    the process *)
Theorem C66_interval : forall quote number unsupported email token mexp sq d s ps u v st ticks, let self := new_reporter d s ps u in
  ((d <= 0)%Z -> run_reporter quote number unsupported email token mexp sq self v st ticks = ([], None)) /\
  ((0 < d < 10 ^ 9)%Z -> ticks <> [] -> run_reporter quote number unsupported email token mexp sq self v st ticks = ([], Some msg_div0)) /\
  ((10 ^ 9 <= d)%Z -> run_reporter quote number unsupported email token mexp sq self v st ticks = turns quote number unsupported email token mexp sq self v st ticks /\ interval_sec self <> 0%Z).
Proof.
  intros quote number unsupported email token mexp sq d s ps u v st ticks self. unfold run_reporter. change (interval self) with d. split; [|split].
  - intros H. now rewrite (proj2 (Z.leb_le _ _) H).
  - intros H N. rewrite (proj2 (Z.leb_gt _ _)) by lia. destruct ticks as [|tk ticks]; [congruence|]. cbn [turns]. unfold turn, build_request. change (interval_sec self) with (d ÷ 10 ^ 9)%Z.
    assert (Q : (d ÷ 10 ^ 9 = 0)%Z) by (apply Z.quot_small_iff; lia). rewrite Q. reflexivity.
  - intros H. rewrite (proj2 (Z.leb_gt _ _)) by lia. split; [reflexivity|]. pose proof (C49_interval d s ps u H) as (X & _). fold self in X. lia.
Qed.

(** ** examples: the registry of C49_example; at the first tick the network is down, before the
    second the program counts, at the third the server refuses *)
Definition half (x : f64) : string := "0.5".
Definition down (r : http_request) : http_answer := NoAnswer "no route".
Definition up (r : http_request) : http_answer := Answer 200 "OK" (Body "").
Definition refuses (r : http_request) : http_answer := Answer 401 "Unauthorized" (Body "who?").
Definition at_time (s : Z) (cs : list (op * orc)) (http : http_request -> http_answer) : tick := MkTick cs (s * 10 ^ 9) hurt http.
Definition three : list tick := [at_time 123 [] down; at_time 133 [(OInc 1 2%Z, hurt)] up; at_time 143 [] refuses].
Definition posted (p : list (op * orc)) (ps : list f64) (l : list tick) : list (list action * list string) * option string :=
  turns json_quote half "unsupported" "me" "secret" one_exp (fun x => fmul x x) (ten ps) (VReg 0) (reach one_exp p) l.
Definition ops_text : string := "{" ++ quoted "display_min" ++ ":" ++ quoted "0" ++ "," ++ quoted "display_units_long" ++ ":" ++ quoted "operations" ++ "," ++ quoted "display_units_short" ++ ":" ++ quoted "ops" ++ "}".
Definition one_count : list (op * orc) := map (fun c => (c, hurt)) [ONew NCounter; ORegister 0 "c" 1].
Definition body_text : string := "{" ++ quoted "counters" ++ ":[{" ++ quoted "attributes" ++ ":" ++ ops_text ++ "," ++ quoted "name" ++ ":" ++ quoted "ns.c.count" ++ "," ++ quoted "period" ++ ":0.5," ++ quoted "value" ++ ":0.5}]," ++
  quoted "measure_time" ++ ":130," ++ quoted "source" ++ ":" ++ quoted "src" ++ "}".
Example C66_example :
  map (fun a => (List.length (requests (fst a)), snd a)) (fst (posted sold [ratio 1 2] three)) =
    [(1, ["ERROR sending metrics to librato no route"]); (1, []); (1, ["ERROR sending metrics to librato Unable to post to Librato: 401 Unauthorized who?"])] /\
  snd (posted sold [ratio 1 2] three) = None /\
  map (fun a => map h_body (requests (fst a))) (fst (posted one_count [] (firstn 2 three))) = [[]; [body_text]] /\
  is_json body_text (json_object json_units [("counters", JArr [json_object json_units
    [("attributes", json_object json_units [("display_min", JStr (json_units "0")); ("display_units_long", JStr (json_units "operations")); ("display_units_short", JStr (json_units "ops"))]);
     ("name", JStr (json_units "ns.c.count")); ("period", JNum "0.5"); ("value", JNum "0.5")]]); ("measure_time", JNum "130"); ("source", JStr (json_units "src"))]) /\
  (exists m, posted sold [f_nan] three = ([], Some m)).
Proof.
  split; [vm_compute; reflexivity|]. split; [vm_compute; reflexivity|]. split; [vm_compute; reflexivity|]. split; [exists 20, ""; split; vm_compute; reflexivity|]. eexists. vm_compute. reflexivity.
Qed.
(** a gauge with the value NaN keeps the counter from being reported, at every tick *)
Definition nan_gauge : list (op * orc) := one_count ++ map (fun c => (c, hurt)) [OInc 1 5%Z; ONew NGaugeF; OUpdateF 2 f_nan; ORegister 0 "g" 2].
Example C66_nan_example : posted nan_gauge [] three = ([([], ["ERROR sending metrics to librato unsupported"]); ([], ["ERROR sending metrics to librato unsupported"]); ([], ["ERROR sending metrics to librato unsupported"])], None).
Proof. vm_compute. reflexivity. Qed.
