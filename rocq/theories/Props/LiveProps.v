(** Property C72: reports while the rest of the process goes on.  [gaps] is what the rest of
    the process does before each call of the report (Model/Live.v); [acted] are the states in
    which the report made its calls.  The registry is the value [v] which the program holds
    at [r]. *)
From Coq Require Import ZArith List String Ascii Bool Lia Permutation.
From Verif.Model Require Import GoInt GoFloat GoBase World Fmt Report.
From Verif.Spec Require Import ApiSpec RegistrySpec HealthSpec GetAllSpec TextSpec ReportSpec ReadOnlySpec.
From Verif.Proofs Require Import WorldBase WorldStep GetAllProofs HealthProofs RegistryProofs TextProofs ReportProofs LineProofs LiveProofs.
From Verif.Props Require Import SnapshotProps HealthProps GetAllProps ReportProps.
From Verif.Model Require Import Live.
From Verif.Spec Require Import LiveSpec.
Import ListNotations.
Local Open Scope string_scope.
Local Open Scope list_scope.

Lemma start_fine mexp p : no_NewSampleSnapshot p -> fine (reach mexp p).
Proof. intros N. split; [exact (reach_inv mexp p)|exact (snaps_quiet_run mexp p N state_init inv_init snaps_quiet_init)]. Qed.

Lemma weaves_woven {A} mexp runs (m : L A) g st : weaves mexp (ReadOnlySpec.reading_call runs) m -> woven mexp runs st g (m g st).
Proof. intros W. destruct (W g st) as (cs & F & Ln & Lf & En & Ac). exists cs. auto. Qed.
(** A report makes reading calls only: what happens is the program of the rest of the process
    with these calls woven in, whether the report returns, panics or is still under way. *)
Theorem C72_program : forall mexp st gaps r x ps,
  (forall A health (render : string -> reading -> res (list A)) arrange, woven mexp health st gaps (live_report mexp health ps render arrange r gaps st)) /\
  woven mexp true st gaps (live_get_all mexp r gaps st) /\
  woven mexp false st gaps (live_librato_hist mexp ps x gaps st).
Proof.
  intros. split; [|split].
  - intros. apply weaves_woven, weaves_report.
  - apply weaves_woven, weaves_get_all.
  - apply weaves_woven, weaves_hist.
Qed.

(** A report that returns visits the metrics registered at its first call, each of them once,
    in the order in which it arranges them;
    what it tells of each comes from one instant while it was about that metric. *)
Theorem C72_report : forall A mexp p r v b gaps health ps (render : string -> reading -> res (list A)) arrange out, let st := reach mexp p in
  no_NewSampleSnapshot p -> Forall (fun g => no_NewSampleSnapshot (fst g)) gaps ->
  nth_error (snd st) r = Some v -> base v = Some b -> (forall l, Permutation (arrange l) l) ->
  let e := live_report mexp health ps render arrange r gaps st in outcome e = Some (Ok out) ->
  exists s0 entries segs outs, acted e = s0 :: List.concat segs /\ out = List.concat outs /\ List.length segs = List.length outs /\
    visits s0 v (map fst entries) /\ Forall (fun ni => shown s0 v (fst ni) = Some (snd ni)) entries /\
    Forall2 (fun ni so => covered mexp health ps render (fst ni) (snd ni) (fst so) (snd so)) entries (combine segs outs) /\
    exists l0, map fst entries = map fst (arrange l0).
Proof.
  intros A mexp p r v b gaps health ps render arrange out st N G. pose proof (start_fine mexp p N) as F. fold st in F. clearbody st. intros Er B Ar e H.
  destruct (visit_live mexp _ _ arrange r v b gaps st out (report_visiting mexp health ps render) Ar F G Er B H) as (s0 & en & segs & outs & H1 & H2 & H3 & H4 & H5 & H6 & H7).
  exists s0, en, segs, outs. auto 10.
Qed.
(** likewise GetAll of a StandardRegistry *)
Theorem C72_get_all : forall mexp p r l gaps out, let st := reach mexp p in
  no_NewSampleSnapshot p -> Forall (fun g => no_NewSampleSnapshot (fst g)) gaps ->
  nth_error (snd st) r = Some (VReg l) ->
  let e := live_get_all mexp r gaps st in outcome e = Some (Ok out) ->
  exists s0 is_ segs, acted e = s0 :: List.concat segs /\ List.length segs = List.length out /\
    visits s0 (VReg l) (map fst out) /\ Forall2 (fun nf i => shown s0 (VReg l) (fst nf) = Some i) out is_ /\
    Forall2 (fun i sf => listed mexp i (fst sf) (snd sf)) is_ (combine segs (map snd out)).
Proof.
  intros mexp p r l gaps out st N G. pose proof (start_fine mexp p N) as F. fold st in F. clearbody st. intros Er e H.
  destruct (visit_live mexp _ _ as_it_is r (VReg l) l gaps st out (get_all_visiting mexp) (fun l => Permutation_refl l) F G Er eq_refl H) as (s0 & en & segs & outs & H1 & H2 & H3 & H4 & H5 & H6 & _).
  exists s0, (map snd en), segs. split; [exact H1|].
  assert (X : map fst out = map fst en /\ List.length segs = List.length out /\ Forall2 (fun i sf => listed mexp i (fst sf) (snd sf)) (map snd en) (combine segs (map snd out))).
  { subst out. clear - H5 H6. revert segs outs H5 H6. induction en as [|[n i] en IH]; intros segs outs H5 H6; destruct segs as [|sg segs], outs as [|ou outs]; try discriminate H6; cbn [combine] in H5; inversion H5 as [|? ? ? ? P Q]; subst; [cbn; auto|]. cbn in P. destruct P as (fs & -> & P). injection H6 as H6. destruct (IH _ _ Q H6) as (E1 & E2 & E3). cbn. split; [congruence|]. split; [congruence|]. constructor; auto. }
  destruct X as (X1 & X2 & X3). rewrite X1. split; [exact X2|]. split; [exact H3|]. split; [|exact X3].
  clear - X1 H4. revert out X1. induction H4 as [|[n i] en H4 _ IH]; intros [|[n' f] out] X1; try discriminate; cbn in *; constructor; [cbn; injection X1 as -> _; exact H4|apply IH; congruence].
Qed.

(** the lines of a Graphite report *)
Lemma graphite_line_tells mexp s o ps x prefix nm now u g f : clean prefix = true -> clean nm = true ->
  agrees u (fun c a => answer mexp s o ps x c = Some (Ok a)) g f ->
  exists a, (graphite_line prefix nm now g = (a ++ newline)%string /\ free line_feed a = true) /\ line_tells mexp s o ps x (prefix ++ "." ++ nm) now u a f.
Proof.
  intros Cp Cn. destruct g as [g n], f as [[f c] sty]. intros (Ef & Cg & a & Qa & Pa). cbn [fst snd] in *. subst g. unfold graphite_line. cbn [fst snd].
  pose proof (clean_path prefix nm f Cp Cn Cg) as Cl.
  exists (((prefix ++ "." ++ nm ++ "." ++ f) ++ " " ++ fmt_num n ++ " " ++ fmt_d now)%string). split; [split|].
  - rewrite !app_assoc'. reflexivity.
  - rewrite !free_app. rewrite <- !free_app. apply clean_free in Cl. destruct Cl as [_ Cl]. rewrite free_app, Cl. rewrite !free_app.
    rewrite (proj2 (clean_free _ (clean_num n))), (proj2 (clean_free _ (clean_fmt_d now))). reflexivity.
  - exists (fmt_num n), (fmt_d now), a. split; [|split; [apply parse_fmt_d|auto]].
    rewrite split_words by apply (clean_free _ Cl). rewrite split_words by apply (clean_free _ (clean_num n)). rewrite split_free by apply (clean_free _ (clean_fmt_d _)). now rewrite !app_assoc'.
Qed.
Lemma tells_answered Q x ps rd : tells Q x ps rd -> ReportProofs.answered Q x ps rd.
Proof. destruct rd; cbn; auto. Qed.
Theorem C72_graphite : forall mexp p r v b gaps decimal prefix u ps now out, let st := reach mexp p in
  no_NewSampleSnapshot p -> Forall (fun g => no_NewSampleSnapshot (fst g)) gaps ->
  nth_error (snd st) r = Some v -> base v = Some b ->
  let e := live_graphite mexp decimal prefix u ps now r gaps st in
  (forall s nm i, In s (acted e) -> shown s v nm = Some i -> clean nm = true) -> clean prefix = true ->
  (forall x, clean (decimal x) = true /\ (List.length (split "."%char (decimal x)) <= 2)%nat) -> (Z.abs u <= 2 ^ 53)%Z ->
  outcome e = Some (Ok out) ->
  exists s0 entries segs blocks, acted e = s0 :: List.concat segs /\ lines_of out = Some (List.concat blocks) /\ List.length segs = List.length blocks /\
    visits s0 v (map fst entries) /\ Forall (fun ni => shown s0 v (fst ni) = Some (snd ni)) entries /\
    Forall2 (fun ni sb => lines_tell mexp (fun x => graphite_table x (key_of decimal) ps) ps (prefix ++ "." ++ fst ni) now u (snd ni) (fst sb) (snd sb)) entries (combine segs blocks).
Proof.
  intros mexp p r v b gaps decimal prefix u ps now out st N G Er B e Cn Cp Cd U H.
  unfold live_graphite, live_text in e. pose proof (ends_of _ _ _ _ H) as E. unfold e in E. destruct (ends_bind _ _ _ _ _ _ _ _ E) as (ls & ss1 & g1 & st1 & ss2 & E1 & E2 & Ea).
  destruct (ends_ret _ _ _ _ _ _ _ E2) as (-> & -> & _). rewrite app_nil_r in Ea. fold e in Ea. clear E E2 H.
  assert (H1 : outcome (live_report mexp false ps (fun name d => res_bind (graphite_fields decimal u ps d) (fun fs => Ok (map (graphite_line prefix name now) fs))) as_it_is r gaps st) = Some (Ok ls)) by (now rewrite E1).
  destruct (C72_report _ mexp p r v b gaps false ps _ as_it_is ls N G Er B (fun l => Permutation_refl l) H1) as (s0 & en & segs & outs & A1 & A2 & A3 & A4 & A5 & A6 & _).
  fold st in A1. rewrite E1 in A1. cbn [acted] in A1. rewrite A1 in Ea.
  assert (X : exists blocks, Forall2 (fun l a => l = (a ++ newline)%string /\ free line_feed a = true) (List.concat outs) (List.concat blocks) /\ List.length segs = List.length blocks /\
    Forall2 (fun ni sb => lines_tell mexp (fun x => graphite_table x (key_of decimal) ps) ps (prefix ++ "." ++ fst ni) now u (snd ni) (fst sb) (snd sb)) en (combine segs blocks)).
  { assert (Cl : Forall (fun ni => clean (fst ni) = true) en). { rewrite Forall_forall in A5 |- *. intros ni Hn. eapply (Cn s0); [rewrite Ea; now left|]. exact (A5 _ Hn). }
    clear - A3 A6 Cl Cp Cd U. revert segs outs A3 A6. induction en as [|[n i] en IH]; intros segs outs A3 A6; destruct segs as [|l segs], outs as [|l0 outs]; try discriminate A3; cbn [combine] in A6; inversion A6 as [|? ? ? ? P Q]; subst.
    - exists []. cbn. auto.
    - inversion Cl as [|? ? Cl1 Cl2]; subst. injection A3 as A3. destruct (IH Cl2 _ _ A3 Q) as (bl & B1 & B2 & B3). cbn [fst snd] in P, Cl1.
      assert (Y : exists b, Forall2 (fun l a => l = (a ++ newline)%string /\ free line_feed a = true) l0 b /\ lines_tell mexp (fun x => graphite_table x (key_of decimal) ps) ps (prefix ++ "." ++ n) now u i l b).
      { unfold covered in P. unfold lines_tell. destruct (class_eqb (cls i) CHealth) eqn:Ch; cbn [andb negb] in P.
        - destruct P as (-> & _). exists []. auto.
        - destruct P as (d & (Ab & Fd) & Rd). assert (Fd' : exists x s o, In s l /\ nth_error (snd s) x = Some i /\ tells (fun c a => answer mexp s o ps x c = Some (Ok a)) x ps d) by (destruct (cls i); try discriminate Ch; exact Fd).
          destruct Fd' as (x & s & o & Hs & Ex & T). destruct (graphite_fields decimal u ps d) as [fs|] eqn:Ef; [|discriminate]. cbn [res_bind] in Rd. injection Rd as <-.
          pose proof (graphite_agree decimal ltac:(intros; apply Cd) ltac:(intros; apply Cd) u _ x ps d fs U (tells_answered _ _ _ _ T) Ef) as Ag.
          assert (Fm : Forall2 (fun l0 f => exists a, (l0 = (a ++ newline)%string /\ free line_feed a = true) /\ line_tells mexp s o ps x (prefix ++ "." ++ n) now u a f) (map (graphite_line prefix n now) fs) (graphite_table x (key_of decimal) ps (kind_rd d))).
          { apply map_forall2. eapply forall2_impl; [|exact Ag]. cbv beta. intros g f. now apply graphite_line_tells. }
          apply forall2_choice in Fm. destruct Fm as (bs & F1 & F2). exists bs. split; [exact F1|]. exists x, s, o. split; [exact Hs|]. split; [exact Ex|]. rewrite <- Ab, about_kind. exact F2. }
      destruct Y as (bk & Y1 & Y2). exists (bk :: bl). cbn. split; [now apply Forall2_app|]. split; [congruence|]. constructor; auto. }
  destruct X as (blocks & X1 & X2 & X3). exists s0, en, segs, blocks. split; [exact Ea|]. rewrite A2. split; [now apply lines_text|]. auto.
Qed.

(** ** Examples *)
(** a histogram that has recorded 7, a counter, and a health check that has been told error 5
    and does not change that by itself *)
Definition running : list (op * orc) := map (fun c => (c, o8))
  [ONew (NUniform 3); ONew (NHist 1); OUpdate 2 7; ORegister 0 "h" 2; ONew NCounter; ORegister 0 "c" 3; ONew (NHealth 0); OUnhealthy 4 (Some (EUser 5)); ORegister 0 "k" 4]%Z.
Definition idle (n : nat) : list gap := repeat ([], o8) n.
(** the rest of the process records 100 and counts 3 just after the report has taken its
    snapshot of the histogram, and changes the registry *)
Definition busy : list gap := idle 2 ++ [([(OUpdate 2 100, o8); (OInc 3 3, o8); (OUnregister 0 "c", o8)], o8)]%Z ++ idle 9.
Definition live_text_h : string := String.concat newline
  ["p.h.count 1 9"; "p.h.min 7 9"; "p.h.max 7 9"; "p.h.mean 7.00 9"; "p.h.std-dev 0.00 9"; "p.h.50-percentile 7.00 9"; "p.c.count 3 9"; ""].
Example C72_example : let st := reach one_exp running in
  no_NewSampleSnapshot running /\ Forall (fun g => no_NewSampleSnapshot (fst g)) busy /\ nth_error (snd st) 0 = Some (VReg 0) /\
  outcome (live_graphite one_exp plain "p" 1 [ratio 1 2] 9 0 busy st) = Some (Ok live_text_h) /\
  snd (step one_exp (at_end (live_graphite one_exp plain "p" 1 [ratio 1 2] 9 0 busy st)) (OCount 2, o8)) = Some (Ok (RZ 2)) /\
  outcome (live_graphite one_exp plain "p" 1 [ratio 1 2] 9 0 (idle 4) st) = None /\
  option_map (fun r => match r with Ok l => map fst l | Panic _ => [] end) (outcome (live_get_all one_exp 0 busy st)) = Some ["h"; "c"; "k"].
Proof.
  cbv zeta. repeat match goal with |- _ /\ _ => split end.
  - repeat constructor.
  - repeat constructor.
  - vm_compute. reflexivity.
  - vm_compute. reflexivity.
  - vm_compute. reflexivity.
  - vm_compute. reflexivity.
  - vm_compute. reflexivity.
Qed.

(** GetAll asks a health check for its error twice.  If the check becomes healthy in between,
    it panics, though in each of the states in which it made a call GetAll would have
    returned. *)
Theorem C72_get_all_returns_refuted : exists p r l gaps, let st := reach one_exp p in
  nth_error (snd st) r = Some (VReg l) /\
  let e := live_get_all one_exp r gaps st in
  (forall s, In s (acted e) -> exists a, snd (step one_exp s (OGetAll r, o8)) = Some (Ok a)) /\
  outcome e = Some (Panic msg_nil).
Proof.
  exists running, 0%nat, 0%nat, (idle 11 ++ [([(OHealthy 4, o8)], o8)]). cbv zeta. split; [vm_compute; reflexivity|]. split; [|vm_compute; reflexivity].
  intros s Hs. apply returned_ok.
  assert (F : forallb (fun s => returned (snd (step one_exp s (OGetAll 0, o8)))) (acted (live_get_all one_exp 0 (idle 11 ++ [([(OHealthy 4, o8)], o8)]) (reach one_exp running))) = true) by (vm_compute; reflexivity).
  rewrite forallb_forall in F. exact (F s Hs).
Qed.
(** The Librato reporter reads a histogram without a snapshot: what it sends may be of no
    instant at all, with a minimum above the maximum, or a count of zero, which it means to
    leave out. *)
Theorem C72_librato_refuted : exists p x ps,  let st := reach one_exp p in
  (exists gaps m, outcome (live_librato_hist one_exp ps x gaps st) = Some (Ok (Some m)) /\ (hm_max m < hm_min m)%Z) /\
  (exists gaps m, outcome (live_librato_hist one_exp ps x gaps st) = Some (Ok (Some m)) /\ hm_count m = 0%Z).
Proof.
  exists running, 2%nat, []. cbv zeta. split.
  - exists (idle 4 ++ [([(OClear 2, o8); (OUpdate 2 50, o8)], o8)] ++ idle 4), (MkHM 1 7 50 50 []). split; [vm_compute; reflexivity|reflexivity].
  - exists (idle 1 ++ [([(OClear 2, o8)], o8)] ++ idle 7), (MkHM 0 0 0 0 []). split; [vm_compute; reflexivity|reflexivity].
Qed.
