(** Property C72, what the OpenTSDB, textual and StatHat reports say while the rest of the
    process goes on. *)
From Coq Require Import ZArith List String Ascii Bool Lia Permutation Sorted.
From Verif.Model Require Import GoInt GoFloat GoBase World Fmt Duration Report Live.
From Verif.Spec Require Import ApiSpec RegistrySpec HealthSpec GetAllSpec TextSpec ReportSpec ReadOnlySpec WriteSpec LogSpec LiveSpec LiveLinesSpec.
From Verif.Proofs Require Import WorldBase WorldStep GetAllProofs TextProofs ReportProofs LineProofs WriteProofs LogProofs LiveProofs.
From Verif.Props Require Import SnapshotProps HealthProps GetAllProps ReportProps LiveProps.
Import ListNotations.
Local Open Scope nat_scope.
Local Open Scope string_scope.

(** ** What is said of each metric, from the readings *)
Lemma blocks_live {A B} mexp health ps (render : string -> reading -> res (list A)) (P : string * val -> list state -> B -> Prop) (J : list A -> B -> Prop) en segs outs :
  List.length segs = List.length outs ->
  Forall2 (fun ni so => covered mexp health ps render (fst ni) (snd ni) (fst so) (snd so)) en (combine segs outs) ->
  (forall ni seg out, In ni en -> covered mexp health ps render (fst ni) (snd ni) seg out -> exists b, J out b /\ P ni seg b) ->
  exists blocks, Forall2 J outs blocks /\ List.length segs = List.length blocks /\ Forall2 (fun ni sb => P ni (fst sb) (snd sb)) en (combine segs blocks).
Proof.
  revert segs outs. induction en as [|ni en IH]; intros segs outs L F H; destruct segs as [|sg segs], outs as [|ou outs]; try discriminate L; cbn [combine] in F; inversion F as [|? ? ? ? F1 F2]; subst.
  - exists []. cbn. auto.
  - injection L as L. destruct (IH _ _ L F2 (fun ni' seg out Hn => H ni' seg out (or_intror Hn))) as (bl & B1 & B2 & B3).
    destruct (H _ _ _ (or_introl eq_refl) F1) as (b & J1 & P1). exists (b :: bl). cbn. split; [now constructor|]. split; [congruence|]. now constructor.
Qed.
(** the reading of a metric that is not a health check *)
Lemma covered_reading {A} mexp health ps (render : string -> reading -> res (list A)) nm i seg out : class_eqb (cls i) CHealth = false -> covered mexp health ps render nm i seg out ->
  exists d x s o, kind_rd d = cls i /\ kind_rd d <> CHealth /\ In s seg /\ nth_error (snd s) x = Some i /\ answered (fun c a => answer mexp s o ps x c = Some (Ok a)) x ps d /\ render nm d = Ok out.
Proof.
  intros Ch H. unfold covered in H. rewrite Ch in H. cbn [andb] in H. destruct H as (d & (Ab & Fd) & Rd).
  assert (Fd' : exists x s o, In s seg /\ nth_error (snd s) x = Some i /\ tells (fun c a => answer mexp s o ps x c = Some (Ok a)) x ps d) by (destruct (cls i); try discriminate Ch; exact Fd).
  destruct Fd' as (x & s & o & Hs & Ex & T). assert (K : kind_rd d = cls i) by (pose proof (about_kind d); congruence).
  exists d, x, s, o. split; [exact K|]. split; [rewrite K; intros C; rewrite C in Ch; discriminate|]. split; [exact Hs|]. split; [exact Ex|]. split; [now apply tells_answered|exact Rd].
Qed.
(** that of a health check *)
Lemma covered_error {A} mexp ps (render : string -> reading -> res (list A)) nm i seg out : cls i = CHealth -> covered mexp true ps render nm i seg out ->
  exists e, error_told mexp i seg e /\ render nm (RdHealth e) = Ok out.
Proof.
  intros C H. unfold covered in H. rewrite C in H. cbn [class_eqb andb negb] in H. destruct H as (d & (Ab & Fd) & Rd). rewrite C in Ab, Fd.
  destruct Fd as (x & s1 & s2 & o1 & o2 & q & Es & Ex & E2 & T). destruct d; try discriminate Ab. cbn [tells] in T. exists e. split; [|exact Rd]. exists x, s1, s2, o1, o2, q. auto.
Qed.
Lemma not_covered {A} mexp ps (render : string -> reading -> res (list A)) nm i seg out : class_eqb (cls i) CHealth = true -> covered mexp false ps render nm i seg out -> out = [].
Proof. intros C H. unfold covered in H. rewrite C in H. cbn [andb negb] in H. apply H. Qed.
Lemma is_health i : class_eqb (cls i) CHealth = true -> cls i = CHealth.
Proof. destruct (cls i); try discriminate; reflexivity. Qed.
Lemma concat_map_ended (outs blocks : list (list string)) : Forall2 (fun o b => o = map (fun l => l ++ newline) b) outs blocks -> List.concat outs = map (fun l => l ++ newline) (List.concat blocks).
Proof. intros F. induction F as [|o b outs blocks E F IH]; [reflexivity|]. cbn [List.concat]. now rewrite E, IH, map_app. Qed.

(** ** OpenTSDB *)
Lemma put_line_tells mexp s o x prefix nm host now u g f : clean prefix = true -> clean nm = true -> clean host = true ->
  agrees u (fun c a => answer mexp s o ps5 x c = Some (Ok a)) g f ->
  exists a, (opentsdb_line prefix nm (short_hostname host) now g = a ++ newline /\ free line_feed a = true) /\ put_tells mexp s o x (prefix ++ "." ++ nm) host now u a f.
Proof.
  intros Cp Cn Ch. destruct g as [g n], f as [[f c] sty]. intros (Ef & Cg & a & Qa & Pa). cbn [fst snd] in *. subst g. unfold opentsdb_line. cbn [fst snd]. rewrite short_hostname_spec.
  pose proof (clean_path prefix nm f Cp Cn Cg) as Cl. pose proof (clean_label _ Ch) as Chl. unfold put_tells. set (h := first_label host) in *.
  exists ("put" ++ " " ++ (prefix ++ "." ++ nm ++ "." ++ f) ++ " " ++ fmt_d now ++ " " ++ fmt_num n ++ " " ++ ("host=" ++ h)). split; [split|].
  - rewrite !app_assoc'. reflexivity.
  - pose proof (proj2 (clean_free _ Cl)) as Cl'. rewrite free_app. rewrite (free_app _ " "). rewrite (free_app _ (prefix ++ _)). rewrite Cl'. rewrite !free_app.
    rewrite (proj2 (clean_free _ (clean_num n))), (proj2 (clean_free _ (clean_fmt_d now))), (proj2 (clean_free _ Chl)). reflexivity.
  - exists (fmt_num n), (fmt_d now), a. split; [|split; [apply parse_fmt_d|auto]].
    rewrite split_words by reflexivity. rewrite split_words by apply (clean_free _ Cl). rewrite split_words by apply (clean_free _ (clean_fmt_d _)). rewrite split_words by apply (clean_free _ (clean_num n)).
    rewrite split_free; [now rewrite !app_assoc'|]. rewrite free_app. rewrite (proj1 (clean_free _ Chl)). reflexivity.
Qed.
Theorem C72_opentsdb : forall mexp p r v b gaps host prefix u now out, let st := reach mexp p in
  no_NewSampleSnapshot p -> Forall (fun g => no_NewSampleSnapshot (fst g)) gaps ->
  nth_error (snd st) r = Some v -> base v = Some b ->
  let e := live_opentsdb mexp host prefix u now r gaps st in
  (forall s nm i, In s (acted e) -> shown s v nm = Some i -> clean nm = true) -> clean prefix = true -> clean host = true -> (Z.abs u <= 2 ^ 53)%Z ->
  outcome e = Some (Ok out) ->
  exists s0 entries segs blocks, acted e = s0 :: List.concat segs /\ lines_of out = Some (List.concat blocks) /\ List.length segs = List.length blocks /\
    visits s0 v (map fst entries) /\ Forall (fun ni => shown s0 v (fst ni) = Some (snd ni)) entries /\
    Forall2 (fun ni sb => puts_tell mexp (prefix ++ "." ++ fst ni) host now u (snd ni) (fst sb) (snd sb)) entries (combine segs blocks).
Proof.
  intros mexp p r v b gaps host prefix u now out st N G Er B e Cn Cp Chs U H.
  unfold live_opentsdb, live_text in e. pose proof (ends_of _ _ _ _ H) as E. unfold e in E. destruct (ends_bind _ _ _ _ _ _ _ _ E) as (ls & ss1 & g1 & st1 & ss2 & E1 & E2 & Ea).
  destruct (ends_ret _ _ _ _ _ _ _ E2) as (-> & -> & _). rewrite app_nil_r in Ea. fold e in Ea. clear E E2 H.
  red in E1. match type of E1 with ?m _ _ = _ => assert (H1 : outcome (m gaps st) = Some (Ok ls)) by (now rewrite E1) end.
  destruct (C72_report _ mexp p r v b gaps false ps5 _ as_it_is ls N G Er B (fun l => Permutation_refl l) H1) as (s0 & en & segs & outs & A1 & A2 & A3 & A4 & A5 & A6 & _).
  fold st in A1. rewrite E1 in A1. cbn [acted] in A1. rewrite A1 in Ea.
  destruct (blocks_live _ _ _ _ (fun ni => puts_tell mexp (prefix ++ "." ++ fst ni) host now u (snd ni)) (Forall2 (fun l a => l = a ++ newline /\ free line_feed a = true)) en segs outs A3 A6) as (blocks & X1 & X2 & X3).
  { intros [n i] seg out Hn Cv. cbn [fst snd] in *. assert (Cl : clean n = true). { rewrite Forall_forall in A5. eapply (Cn s0); [rewrite Ea; now left|]. exact (A5 _ Hn). }
    unfold puts_tell. destruct (class_eqb (cls i) CHealth) eqn:Ch.
    - apply not_covered in Cv; [|exact Ch]. subst out. exists []. auto.
    - destruct (covered_reading _ _ _ _ _ _ _ _ Ch Cv) as (d & x & s & o & K & _ & Hs & Ex & An & Rd). destruct (opentsdb_fields u d) as [fs|] eqn:Ef; [|discriminate]. cbn [res_bind] in Rd. injection Rd as <-.
      pose proof (opentsdb_agree u _ x d fs U An Ef) as Ag.
      assert (Fm : Forall2 (fun l0 f => exists a, (l0 = a ++ newline /\ free line_feed a = true) /\ put_tells mexp s o x (prefix ++ "." ++ n) host now u a f) (map (opentsdb_line prefix n (short_hostname host) now) fs) (opentsdb_table x (kind_rd d))).
      { apply map_forall2. eapply forall2_impl; [|exact Ag]. cbv beta. intros g f. now apply put_line_tells. }
      apply forall2_choice in Fm. destruct Fm as (bs & F1 & F2). exists bs. split; [exact F1|]. exists x, s, o. rewrite <- K. auto. }
  exists s0, en, segs, blocks. split; [exact Ea|]. rewrite A2. split; [|auto]. apply lines_text. clear - X1. induction X1; cbn [List.concat]; [constructor|now apply Forall2_app].
Qed.

(** ** WriteOnce, Log *)
Lemma block_live mexp error_text (render : string -> reading -> res (list string)) rows u suffix nm i seg out :
  (forall nm e ls, render nm (RdHealth e) = Ok ls -> ls = [("healthcheck " ++ nm) ++ newline; ("  error:       " ++ fmt_err error_text e) ++ newline]) ->
  (forall (Q : op -> rv -> Prop) x nm rd ls, kind_rd rd <> CHealth -> answered Q x ps5 rd -> render nm rd = Ok ls ->
     exists rest, ls = ((word (kind_rd rd) ++ " " ++ nm) ++ newline) :: rest /\ Forall2 (ended u suffix Q) rest (rows x (kind_rd rd))) ->
  covered mexp true ps5 render nm i seg out ->
  exists b, out = map (fun l => l ++ newline) b /\ block_tells mexp error_text rows u suffix nm i seg b.
Proof.
  intros Hh Hr Cv. unfold block_tells. destruct (class_eqb (cls i) CHealth) eqn:Ch.
  - apply is_health in Ch. destruct (covered_error _ _ _ _ _ _ _ Ch Cv) as (e & T & Rd). apply Hh in Rd. subst out. rewrite Ch. cbn [word].
    eexists [_; _]. split; [reflexivity|]. eexists [_]. split; [reflexivity|]. exists e. auto.
  - destruct (covered_reading _ _ _ _ _ _ _ _ Ch Cv) as (d & x & s & o & K & Nh & Hs & Ex & An & Rd).
    destruct (Hr _ _ _ _ _ Nh An Rd) as (rest & -> & Fr). apply forall2_choice in Fr. destruct Fr as (ls & F1 & F2). exists ((word (kind_rd d) ++ " " ++ nm) :: ls). split.
    + cbn [map]. f_equal. clear - F1. induction F1; cbn [map]; [reflexivity|]. subst. now f_equal.
    + exists ls. rewrite <- K. split; [reflexivity|]. exists x, s, o. split; [exact Hs|]. split; [exact Ex|]. eapply forall2_impl; [|exact F2]. intros l [[[label w] c] sty] X. exact X.
Qed.
Lemma sorted_by_names (R : string -> string -> Prop) {A B} (l : list (string * A)) (m : list (string * B)) : map fst m = map fst l ->
  Sorted (fun a b => R (fst a) (fst b)) l -> Sorted (fun a b => R (fst a) (fst b)) m.
Proof.
  intros E S. revert m E. induction S as [|a l S IH Hd]; intros [|b m] E; try discriminate; constructor; injection E as E1 E2; [now apply IH|].
  destruct Hd as [|c l Hd]; destruct m as [|d m]; try discriminate; constructor. injection E2 as E2 _. now rewrite E1, E2.
Qed.
(** in ascending order of the names *)
Theorem C72_write : forall mexp p r v b gaps error_text sort out, let st := reach mexp p in
  no_NewSampleSnapshot p -> Forall (fun g => no_NewSampleSnapshot (fst g)) gaps ->
  nth_error (snd st) r = Some v -> base v = Some b -> sorts_places sort ->
  let e := live_write mexp error_text sort r gaps st in outcome e = Some (Ok out) ->
  exists s0 entries segs blocks, acted e = s0 :: List.concat segs /\ out = String.concat "" (map (fun l => l ++ newline) (List.concat blocks)) /\ List.length segs = List.length blocks /\
    visits s0 v (map fst entries) /\ ascending (map fst entries) /\ Forall (fun ni => shown s0 v (fst ni) = Some (snd ni)) entries /\
    Forall2 (fun ni sb => block_tells mexp error_text text_rows 1 "" (fst ni) (snd ni) (fst sb) (snd sb)) entries (combine segs blocks).
Proof.
  intros mexp p r v b gaps error_text sort out st N G Er B So e H.
  unfold live_write, live_text in e. pose proof (ends_of _ _ _ _ H) as E. unfold e in E. destruct (ends_bind _ _ _ _ _ _ _ _ E) as (ls & ss1 & g1 & st1 & ss2 & E1 & E2 & Ea).
  destruct (ends_ret _ _ _ _ _ _ _ E2) as (-> & -> & _). rewrite app_nil_r in Ea. fold e in Ea. clear E E2 H.
  red in E1. match type of E1 with ?m _ _ = _ => assert (H1 : outcome (m gaps st) = Some (Ok ls)) by (now rewrite E1) end.
  destruct (C72_report _ mexp p r v b gaps true ps5 _ sort ls N G Er B (fun l => proj1 (So l)) H1) as (s0 & en & segs & outs & A1 & A2 & A3 & A4 & A5 & A6 & l0 & A7).
  fold st in A1. rewrite E1 in A1. cbn [acted] in A1. rewrite A1 in Ea.
  destruct (blocks_live _ _ _ _ (fun ni => block_tells mexp error_text text_rows 1 "" (fst ni) (snd ni)) (fun o b => o = map (fun l => l ++ newline) b) en segs outs A3 A6) as (blocks & X1 & X2 & X3).
  { intros [n i] seg o Hn Cv. cbn [fst snd] in *. revert Cv. apply block_live.
    - intros nm er l Hl. unfold write_lines in Hl. injection Hl as <-. now rewrite !app_assoc'.
    - intros Q x nm rd l. apply write_rows. }
  exists s0, en, segs, blocks. split; [exact Ea|]. split; [unfold text; now rewrite A2, (concat_map_ended _ _ X1)|]. split; [exact X2|]. split; [exact A4|]. split; [|auto].
  apply StronglySorted_Sorted, sorted_names; [apply A4|]. exact (sorted_by_names (fun a b => String.ltb b a = false) _ _ A7 (proj2 (So l0))).
Qed.
Theorem C72_log : forall mexp p r v b gaps error_text scale out, let st := reach mexp p in
  no_NewSampleSnapshot p -> Forall (fun g => no_NewSampleSnapshot (fst g)) gaps ->
  nth_error (snd st) r = Some v -> base v = Some b ->
  let e := live_log mexp error_text scale r gaps st in outcome e = Some (Ok out) ->
  exists s0 entries segs blocks, acted e = s0 :: List.concat segs /\ out = map (fun l => l ++ newline) (List.concat blocks) /\ List.length segs = List.length blocks /\
    visits s0 v (map fst entries) /\ Forall (fun ni => shown s0 v (fst ni) = Some (snd ni)) entries /\
    Forall2 (fun ni sb => block_tells mexp error_text log_rows scale (log_suffix scale) (fst ni) (snd ni) (fst sb) (snd sb)) entries (combine segs blocks).
Proof.
  intros mexp p r v b gaps error_text scale out st N G Er B e H.
  destruct (C72_report _ mexp p r v b gaps true ps5 _ as_it_is out N G Er B (fun l => Permutation_refl l) H) as (s0 & en & segs & outs & A1 & A2 & A3 & A4 & A5 & A6 & _).
  destruct (blocks_live _ _ _ _ (fun ni => block_tells mexp error_text log_rows scale (log_suffix scale) (fst ni) (snd ni)) (fun o b => o = map (fun l => l ++ newline) b) en segs outs A3 A6) as (blocks & X1 & X2 & X3).
  { intros [n i] seg o Hn Cv. cbn [fst snd] in *. revert Cv. apply block_live.
    - intros nm er l Hl. unfold log_lines, write_lines in Hl. injection Hl as <-. now rewrite !app_assoc'.
    - intros Q x nm rd l. apply log_rows_ok. }
  exists s0, en, segs, blocks. split; [exact A1|]. split; [now rewrite A2, (concat_map_ended _ _ X1)|]. auto.
Qed.

(** ** Syslog, Stathat *)
Theorem C72_syslog : forall mexp p r v b gaps error_text out, let st := reach mexp p in
  no_NewSampleSnapshot p -> Forall (fun g => no_NewSampleSnapshot (fst g)) gaps ->
  nth_error (snd st) r = Some v -> base v = Some b ->
  let e := live_syslog mexp error_text r gaps st in outcome e = Some (Ok out) ->
  exists s0 entries segs, acted e = s0 :: List.concat segs /\ List.length segs = List.length out /\
    visits s0 v (map fst entries) /\ Forall (fun ni => shown s0 v (fst ni) = Some (snd ni)) entries /\
    Forall2 (fun ni sl => message_tells mexp error_text (fst ni) (snd ni) (fst sl) (snd sl)) entries (combine segs out).
Proof.
  intros mexp p r v b gaps error_text out st N G Er B e H.
  destruct (C72_report _ mexp p r v b gaps true ps5 _ as_it_is out N G Er B (fun l => Permutation_refl l) H) as (s0 & en & segs & outs & A1 & A2 & A3 & A4 & A5 & A6 & _).
  destruct (blocks_live _ _ _ _ (fun ni => message_tells mexp error_text (fst ni) (snd ni)) (fun o m => o = [m]) en segs outs A3 A6) as (ms & X1 & X2 & X3).
  { intros [n i] seg o Hn Cv. cbn [fst snd] in *. unfold message_tells. destruct (class_eqb (cls i) CHealth) eqn:Ch.
    - apply is_health in Ch. destruct (covered_error _ _ _ _ _ _ _ Ch Cv) as (er & T & Rd). unfold syslog_lines in Rd. injection Rd as <-.
      exists (message CHealth n [("error", error_says error_text er)]). split; [|exists [("error", error_says error_text er)]; rewrite Ch; split; [reflexivity|exists er; auto]].
      reflexivity.
    - destruct (covered_reading _ _ _ _ _ _ _ _ Ch Cv) as (d & x & s & oo & K & Nh & Hs & Ex & An & Rd). destruct (sys_ok _ _ _ _ _ _ Nh An Rd) as (parts & -> & Fp).
      eexists. split; [reflexivity|]. exists parts. rewrite <- K. split; [reflexivity|]. exists x, s, oo. split; [exact Hs|]. split; [exact Ex|]. eapply forall2_impl; [|exact Fp]. intros q [[label c] sty] X. exact X. }
  assert (Eo : out = ms). { rewrite A2. clear - X1. induction X1 as [|o m outs ms E X IH]; [reflexivity|]. cbn [List.concat]. now rewrite E, IH. }
  exists s0, en, segs. rewrite Eo. auto.
Qed.
Theorem C72_stathat : forall mexp p r v b gaps out, let st := reach mexp p in
  no_NewSampleSnapshot p -> Forall (fun g => no_NewSampleSnapshot (fst g)) gaps ->
  nth_error (snd st) r = Some v -> base v = Some b ->
  let e := live_stathat mexp r gaps st in outcome e = Some (Ok out) ->
  exists s0 entries segs posts, acted e = s0 :: List.concat segs /\ out = List.concat posts /\ List.length segs = List.length posts /\
    visits s0 v (map fst entries) /\ Forall (fun ni => shown s0 v (fst ni) = Some (snd ni)) entries /\
    Forall2 (fun ni sp => posts_tell mexp (fst ni) (snd ni) (fst sp) (snd sp)) entries (combine segs posts).
Proof.
  intros mexp p r v b gaps out st N G Er B e H.
  destruct (C72_report _ mexp p r v b gaps false ps5 _ as_it_is out N G Er B (fun l => Permutation_refl l) H) as (s0 & en & segs & outs & A1 & A2 & A3 & A4 & A5 & A6 & _).
  destruct (blocks_live _ _ _ _ (fun ni => posts_tell mexp (fst ni) (snd ni)) eq en segs outs A3 A6) as (ms & X1 & X2 & X3).
  { intros [n i] seg o Hn Cv. cbn [fst snd] in *. exists o. split; [reflexivity|]. unfold posts_tell. destruct (class_eqb (cls i) CHealth) eqn:Ch.
    - now apply not_covered in Cv.
    - destruct (covered_reading _ _ _ _ _ _ _ _ Ch Cv) as (d & x & s & oo & K & Nh & Hs & Ex & An & Rd). exists x, s, oo. split; [exact Hs|]. split; [exact Ex|]. rewrite <- K.
      eapply forall2_impl; [|exact (hat_all _ _ _ _ _ Nh An Rd)]. intros q [[sf c] sty] X. exact X. }
  assert (Eo : outs = ms). { clear - X1. induction X1; congruence. } subst ms. exists s0, en, segs, outs. auto 10.
Qed.

(** ** Example: the process and its calls are those of [C72_example] *)
(** insertion sort by name *)
Fixpoint insert_place (a : string * nat) (l : list (string * nat)) : list (string * nat) :=
  match l with [] => [a] | b :: r => if String.ltb (fst b) (fst a) then b :: insert_place a r else a :: l end.
Definition sort_places (l : list (string * nat)) : list (string * nat) := fold_right insert_place [] l.
Lemma insert_place_ok a l : Sorted (fun a b => String.ltb (fst b) (fst a) = false) l ->
  Permutation (insert_place a l) (a :: l) /\ Sorted (fun a b => String.ltb (fst b) (fst a) = false) (insert_place a l).
Proof.
  assert (As : forall x y, String.ltb x y = true -> String.ltb y x = false).
  { intros x y. unfold String.ltb. rewrite (String.compare_antisym x y). destruct (String.compare y x); cbn; congruence. }
  induction l as [|b l IH]; intros S; cbn [insert_place]; [auto|]. inversion S as [|? ? S1 Hd]; subst. destruct (IH S1) as (P & S2). destruct (String.ltb (fst b) (fst a)) eqn:L.
  - split; [rewrite P; apply perm_swap|]. constructor; [exact S2|]. destruct l as [|c l]; cbn [insert_place]; [constructor; now apply As|]. inversion Hd; subst. destruct (String.ltb (fst c) (fst a)); constructor; auto.
  - split; [reflexivity|]. constructor; [exact S|]. now constructor.
Qed.
Lemma sort_places_ok : sorts_places sort_places.
Proof.
  intros l. induction l as [|a l (P & S)]; cbn [sort_places fold_right]; [auto|]. destruct (insert_place_ok a _ S) as (P' & S'). split; [|exact S']. rewrite P'. now constructor.
Qed.
Definition an_error (k : Z) : string := "error " ++ fmt_d k.
Example C72_lines_example : let st := reach one_exp running in
  no_NewSampleSnapshot running /\ Forall (fun g => no_NewSampleSnapshot (fst g)) busy /\ nth_error (snd st) 0 = Some (VReg 0) /\ sorts_places sort_places /\
  outcome (live_opentsdb one_exp "h.org" "p" 1 9 0 busy st) = Some (Ok (String.concat newline
    ["put p.h.count 9 1 host=h"; "put p.h.min 9 7 host=h"; "put p.h.max 9 7 host=h"; "put p.h.mean 9 7.00 host=h"; "put p.h.std-dev 9 0.00 host=h"; "put p.h.50-percentile 9 7.00 host=h";
     "put p.h.75-percentile 9 7.00 host=h"; "put p.h.95-percentile 9 7.00 host=h"; "put p.h.99-percentile 9 7.00 host=h"; "put p.h.999-percentile 9 7.00 host=h"; "put p.c.count 9 3 host=h"; ""])) /\
  outcome (live_write one_exp an_error sort_places 0 (idle 20) st) = Some (Ok (String.concat newline
    ["counter c"; "  count:               0"; "histogram h"; "  count:               1"; "  min:                 7"; "  max:                 7"; "  mean:                7.00"; "  stddev:              0.00";
     "  median:              7.00"; "  75%:                 7.00"; "  95%:                 7.00"; "  99%:                 7.00"; "  99.9%:               7.00"; "healthcheck k"; "  error:       error 5"; ""])) /\
  outcome (live_syslog one_exp an_error 0 busy st) = Some (Ok
    ["histogram h: count: 1 min: 7 max: 7 mean: 7.00 stddev: 0.00 median: 7.00 75%: 7.00 95%: 7.00 99%: 7.00 99.9%: 7.00"; "counter c: count: 3"; "healthcheck k: error: error 5"]).
Proof.
  cbv zeta. repeat match goal with |- _ /\ _ => split end.
  - repeat constructor.
  - repeat constructor.
  - vm_compute. reflexivity.
  - exact sort_places_ok.
  - vm_compute. reflexivity.
  - vm_compute. reflexivity.
  - vm_compute. reflexivity.
Qed.
