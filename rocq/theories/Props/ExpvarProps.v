(** Property C48: the expvar handler.  The registry is the value [v] which the program holds at
    [r], and it holds the metric registered as [nm] at [at_ nm]; [e] is any state of the
    variables of package expvar, so any history of publications. *)
From Coq Require Import ZArith List String Bool Lia.
From Verif.Model Require Import GoInt GoFloat GoBase World Report Expvar.
From Verif.Spec Require Import ApiSpec RegistrySpec GetAllSpec ReportSpec ExpvarSpec.
From Verif.Proofs Require Import WorldBase WorldStep GetAllProofs RegistryProofs ReportProofs ExpvarProofs.
From Verif.Props Require Import SnapshotProps HealthProps GetAllProps ReportProps WriteProps.
Import ListNotations.
Local Open Scope string_scope.

Lemma sync_acts mexp (st : state) r v b o at_ : inv st -> nth_error (snd st) r = Some v -> base v = Some b -> prepared mexp st v o standard false ->
  (forall nm i, shown st v nm = Some i -> nth_error (snd st) (at_ nm) = Some i) ->
  exists l, (forall e, exists w', exp_sync v o (fst st) e = (w', acts l e)) /\ (In Meet l <-> has_check st v) /\
    (forall name x, In (Put name x) l -> numeric x /\ exists nm c a, exports st v at_ nm c name (type_of x) /\ answer mexp st o standard (at_ nm) c = Some (Ok a) /\ carries a (type_of x) x) /\
    (forall nm c name t, exports st v at_ nm c name t -> exists x, In (Put name x) l /\ type_of x = t) /\
    (l = [] <-> forall nm, shown st v nm = None).
Proof.
  intros I E B P At. pose proof (held_vok st r v I E) as V. destruct (reg_each_run st v b o I V B) as (es & R & ND & Sh & F).
  destruct (sync_steps o es (fst st)) as (rds & F2 & S). { eapply prepared_set; eauto. intros nm i. apply Sh. }
  exists (List.concat (map (fun nr => acts_of (fst nr) (snd nr)) (combine (map fst es) rds))).
  split; [intros e; unfold exp_sync; rewrite R; apply S|]. clear S R.
  assert (T : Forall2 (fun kv ro => shown st v (fst kv) = Some (snd kv) /\ is_metric (snd kv) = true /\
    match ro with None => cls (snd kv) = CHealth | Some rd => kind_rd rd = cls (snd kv) /\ cls (snd kv) <> CHealth /\
      Forall2 (varies (fun c a => answer mexp st o standard (at_ (fst kv)) c = Some (Ok a)) (fst kv)) (exp_vars (fst kv) rd) (variables (at_ (fst kv)) (cls (snd kv))) end) es rds).
  { assert (F' : Forall (fun kv => (is_metric (snd kv) = true /\ vok (heap (fst st)) (snd kv)) /\ shown st v (fst kv) = Some (snd kv)) es).
    { rewrite Forall_forall in F |- *. intros [nm i] Hk. split; [exact (F _ Hk)|]. apply Sh. exact Hk. }
    eapply forall2_impl; [|exact (forall2_with _ _ _ _ F' F2)]. cbv beta. intros [nm i] ro (((Mt & Vi) & Si) & w1 & w2 & G & Er). cbn [fst snd] in *. split; [exact Si|]. split; [exact Mt|].
    pose proof (read_told mexp st v o ps5 at_ nm i w1 w2 ro I Si Mt Vi (At _ _ Si) G Er) as H. destruct ro as [rd|]; [|exact H]. destruct H as (K & N & A). split; [exact K|]. split; [exact N|]. rewrite <- K.
    apply vars_of. exact A. }
  assert (Ex : forall nm, shown st v nm <> None <-> In nm (map fst es)).
  { intros nm. split.
    - intros Hn. destruct (shown st v nm) as [i|] eqn:Si; [|congruence]. apply Sh in Si. apply (in_map fst) in Si. exact Si.
    - intros Hn. apply in_map_iff in Hn. destruct Hn as ([n i] & <- & Hn). apply Sh in Hn. cbn. congruence. }
  assert (Hin : forall nm i, shown st v nm = Some i -> In (nm, i) es) by (intros nm i; apply Sh). clear Sh F F2 ND.
  assert (Q1 : forall a, In a (List.concat (map (fun nr => acts_of (fst nr) (snd nr)) (combine (map fst es) rds))) -> exists nm i, shown st v nm = Some i /\
     ((a = Meet /\ cls i = CHealth) \/ exists name x suffix c t y, a = Put name x /\ In (suffix, c, t) (variables (at_ nm) (cls i)) /\ name = nm ++ suffix /\ answer mexp st o standard (at_ nm) c = Some (Ok y) /\ carries y t x /\ type_of x = t)).
  { clear - T. induction T as [|[nm i] ro es rds (Si & Mt & H) _ IH]; cbn [map fst snd combine List.concat]; intros a Ha; [contradiction|]. apply in_app_or in Ha. destruct Ha as [Ha|Ha]; [|auto].
    cbn [fst snd] in *. exists nm, i. split; [exact Si|]. destruct ro as [rd|]; cbn [acts_of] in Ha.
    - right. destruct H as (_ & _ & H). apply in_map_iff in Ha. destruct Ha as ([name x] & <- & Ha). cbn [fst snd].
      clear - H Ha. induction H as [|kx [[suffix c] t] l m (y & Hn & Hq & Hc & Ht) _ IH]; [contradiction|]. destruct Ha as [->|Ha].
      + cbn [fst snd] in *. exists name, x, suffix, c, t, y. repeat split; auto. now left.
      + destruct (IH Ha) as (n' & x' & s' & c' & t' & y' & H1 & H2 & H3). exists n', x', s', c', t', y'. split; [exact H1|]. split; [now right|exact H3].
    - left. destruct Ha as [<-|[]]. auto. }
  assert (Q2 : forall nm i, In (nm, i) es -> (cls i = CHealth -> In Meet (List.concat (map (fun nr => acts_of (fst nr) (snd nr)) (combine (map fst es) rds)))) /\
     forall suffix c t, In (suffix, c, t) (variables (at_ nm) (cls i)) -> exists x, In (Put (nm ++ suffix) x) (List.concat (map (fun nr => acts_of (fst nr) (snd nr)) (combine (map fst es) rds))) /\ type_of x = t).
  { clear - T. induction T as [|[nm i] ro es rds (Si & Mt & H) _ IH]; cbn [map fst snd combine List.concat]; intros nm' i' Hi; [contradiction|]. cbn [fst snd] in *. destruct Hi as [Hi|Hi].
    - injection Hi as <- <-. split.
      + intros C. apply in_or_app. left. destruct ro as [rd|]; [destruct H as (_ & N & _); contradiction|now left].
      + intros suffix c t Hv. destruct ro as [rd|].
        * destruct H as (_ & _ & H). assert (X : exists x, In ((nm ++ suffix)%string, x) (exp_vars nm rd) /\ type_of x = t).
          { clear - H Hv. induction H as [|kx [[s' c'] t'] l m (y & Hn & Hq & Hc & Ht) _ IH]; [contradiction|]. destruct Hv as [Hv|Hv].
            - injection Hv as -> -> ->. exists (snd kx). split; [left; rewrite <- Hn; apply surjective_pairing|exact Ht].
            - destruct (IH Hv) as (x & H1 & H2). exists x. split; [now right|exact H2]. }
          destruct X as (x & H1 & H2). exists x. split; [|exact H2]. apply in_or_app. left. cbn [acts_of]. apply (in_map (fun kx => Put (fst kx) (snd kx))) in H1. exact H1.
        * rewrite H in Hv. contradiction.
    - destruct (IH _ _ Hi) as (H1 & H2). split; [intros C; apply in_or_app; auto|]. intros suffix c t Hv. destruct (H2 _ _ _ Hv) as (x & Hx & Tx). exists x. split; [apply in_or_app; auto|exact Tx]. }
  repeat match goal with |- _ /\ _ => split end.
  - split.
    + intros H. destruct (Q1 _ H) as (nm & i & Si & [(_ & C)|(? & ? & ? & ? & ? & ? & X & _)]); [exists nm, i; auto|discriminate X].
    + intros (nm & i & Si & C). apply (Q2 nm i); auto.
  - intros name x H. destruct (Q1 _ H) as (nm & i & Si & [(X & _)|(name' & x' & suffix & c & t & y & X & Hv & Hn & Ha & Hc & Ht)]); [discriminate X|]. injection X as <- <-. subst t. split.
    + destruct x; [exact Logic.I|exact Logic.I|]. cbn in Hc. contradiction.
    + exists nm, c, y. split; [|auto]. exists i, suffix. auto.
  - intros nm c name t (i & suffix & Si & Hv & ->). apply (Q2 nm i (Hin _ _ Si)) with (c := c). exact Hv.
  - split.
    + intros El nm. destruct (shown st v nm) as [i|] eqn:Si; [|reflexivity]. exfalso. destruct (Q2 nm i (Hin _ _ Si)) as (H1 & H2). rewrite El in H1, H2.
      assert (Mt : is_metric i = true). { pose proof (Hin _ _ Si) as Hi. clear - T Hi. induction T as [|kv ro l m (_ & Mt & _) _ IH]; [contradiction|]. destruct Hi as [->|Hi]; auto. }
      unfold is_metric in Mt. destruct (cls i) eqn:C; try discriminate Mt;
        (destruct (H2 _ _ _ (or_introl eq_refl)) as (? & [] & _) || (destruct (H1 eq_refl))).
    + intros N. destruct es as [|[nm i] es]; [reflexivity|]. exfalso. assert (In nm (map fst ((nm, i) :: es))) by now left. apply Ex in H. apply H, N.
Qed.

(** ** requests while the lock is free *)
(** No variable is unpublished or changes its type.  Variables which the registry does not
    export do not change.  The request is answered, and then the lock is free and every exported
    variable has been set to what an accessor of a metric that exports it returns; or it panics at a
    health check, and the lock is free; or it panics because there is a clash, and the lock stays
    held. *)
Theorem C48_request : forall mexp p r v b o at_ e, let st := reach mexp p in
  nth_error (snd st) r = Some v -> base v = Some b -> prepared mexp st v o standard false ->
  (forall nm i, shown st v nm = Some i -> nth_error (snd st) (at_ nm) = Some i) -> locked e = false ->
  exists w' e' out, exp_sync v o (fst st) e = (w', (e', out)) /\
    (forall name t, published_as e name t -> published_as e' name t) /\
    (forall name, (forall nm c t, ~ exports st v at_ nm c name t) -> published (pub e') name = published (pub e) name) /\
    ((out = Done /\ locked e' = false /\ forall nm c name t, exports st v at_ nm c name t ->
        exists nm' c' a z, exports st v at_ nm' c' name t /\ answer mexp st o standard (at_ nm') c' = Some (Ok a) /\ carries a t z /\ published (pub e') name = Some z) \/
     (out = Panicked msg_unsupported /\ locked e' = false /\ has_check st v) \/
     (out = Panicked msg_assert /\ locked e' = true /\ clash st v at_ e)).
Proof.
  intros mexp p r v b o at_ e st. assert (I : inv st) by exact (reach_inv mexp p). clearbody st. intros E B P At L.
  destruct (sync_acts mexp st r v b o at_ I E B P At) as (l & S & M & A & X & _). destruct (S e) as (w' & Es). exists w', (fst (acts l e)), (snd (acts l e)). split; [rewrite Es; f_equal; apply surjective_pairing|].
  pose proof (acts_run l e (fun name x H => proj1 (A name x H)) L) as R. destruct (acts l e) as [e' out]. cbn [fst snd]. destruct R as (Ty & K & C). unfold vget in *.
  split; [|split].
  - intros name t (x & Hx & Tx). destruct (Ty name x Hx) as (y & Hy & Q). exists y. split; [exact Hy|congruence].
  - intros name N. destruct (K name) as [Kn|(x & Hx & _)]; [exact Kn|]. exfalso. destruct (A name x Hx) as (_ & nm & c & a & Hex & _). eapply N; eauto.
  - destruct C as [(-> & L' & NM & D & T)|[(-> & L' & Me)|(-> & L' & name & x & Hx & D)]].
    + left. split; [reflexivity|]. split; [exact L'|]. intros nm c name t Hex. destruct (X _ _ _ _ Hex) as (x & Hx & Tx). destruct (D name x Hx) as (z & Hz & Pz).
      destruct (A name z Hz) as (_ & nm' & c' & a & H1 & H2 & H3). assert (Tz : type_of z = t) by (rewrite <- Tx; apply (T name x Hx); exact Hz). rewrite Tz in H1, H3. exists nm', c', a, z. auto.
    + right. left. repeat split; auto. now apply M.
    + right. right. repeat split; auto. destruct (A name x Hx) as (_ & nm & c & a & Hex & _). exists nm, c, name, (type_of x). split; [exact Hex|]. destruct D as [(y & Hy & Ty')|(y & Hy & Ty')].
      * left. exists (type_of y). split; [exists y; auto|exact Ty'].
      * right. destruct (A name y Hy) as (_ & nm' & c' & a' & Hex' & _). exists nm', c', (type_of y). auto.
Qed.
(** it panics exactly when a health check is shown or there is a clash *)
Theorem C48_panics_iff : forall mexp p r v b o at_ e, let st := reach mexp p in
  nth_error (snd st) r = Some v -> base v = Some b -> prepared mexp st v o standard false ->
  (forall nm i, shown st v nm = Some i -> nth_error (snd st) (at_ nm) = Some i) -> locked e = false ->
  ((exists msg, snd (snd (exp_sync v o (fst st) e)) = Panicked msg) <-> has_check st v \/ clash st v at_ e).
Proof.
  intros mexp p r v b o at_ e st. assert (I : inv st) by exact (reach_inv mexp p). clearbody st. intros E B P At L.
  destruct (sync_acts mexp st r v b o at_ I E B P At) as (l & S & M & A & X & _). destruct (S e) as (w' & Es). rewrite Es. cbn [snd].
  pose proof (acts_run l e (fun name x H => proj1 (A name x H)) L) as R. destruct (acts l e) as [e' out]. cbn [snd]. destruct R as (Ty & K & C). unfold vget in *. split.
  - intros (msg & Hm). destruct C as [(-> & _)|[(-> & _ & Me)|(-> & _ & name & x & Hx & D)]]; [discriminate|left; now apply M|].
    right. destruct (A name x Hx) as (_ & nm & c & a & Hex & _). exists nm, c, name, (type_of x). split; [exact Hex|]. destruct D as [(y & Hy & Ty')|(y & Hy & Ty')].
    + left. exists (type_of y). split; [exists y; auto|exact Ty'].
    + right. destruct (A name y Hy) as (_ & nm' & c' & a' & Hex' & _). exists nm', c', (type_of y). auto.
  - intros H. destruct C as [(-> & _ & NM & _ & T)|[(-> & _)|(-> & _)]]; [|eauto|eauto]. exfalso. destruct H as [H|(nm & c & name & t & Hex & D)]; [apply NM, M, H|].
    destruct (X _ _ _ _ Hex) as (x & Hx & <-). destruct (T name x Hx) as (T1 & T2). destruct D as [(t' & (y & Hy & <-) & N)|(nm' & c' & t' & Hex' & N)].
    + apply N, T1, Hy.
    + destruct (X _ _ _ _ Hex') as (y & Hy & <-). apply N, T2, Hy.
Qed.

(** ** requests while the lock is held *)
(** none is answered as long as there is anything to export; without a health check it blocks *)
Theorem C48_blocks : forall mexp p r v b o at_ e nm, let st := reach mexp p in
  nth_error (snd st) r = Some v -> base v = Some b -> prepared mexp st v o standard false ->
  (forall nm i, shown st v nm = Some i -> nth_error (snd st) (at_ nm) = Some i) -> locked e = true -> shown st v nm <> None ->
  exists w' out, exp_sync v o (fst st) e = (w', (e, out)) /\ out <> Done /\ (~ has_check st v -> out = Stuck).
Proof.
  intros mexp p r v b o at_ e nm st. assert (I : inv st) by exact (reach_inv mexp p). clearbody st. intros E B P At L N.
  destruct (sync_acts mexp st r v b o at_ I E B P At) as (l & S & M & A & X & Em). destruct (S e) as (w' & Es). rewrite Es, (acts_locked l e L (fun name x H => proj1 (A name x H))).
  destruct l as [|[name x|] l].
  - exfalso. apply N. apply Em. reflexivity.
  - do 2 eexists. split; [reflexivity|]. split; [discriminate|auto].
  - do 2 eexists. split; [reflexivity|]. split; [discriminate|]. intros H. exfalso. apply H, M. now left.
Qed.
(** however many requests follow, whatever the program does between them and whatever the metrics
    are: the lock is never released, nothing is published, and no request is answered that finds a
    metric in the registry.  A request comes when the program has run [p]; it finds the environment
    [o]. *)
Fixpoint serve (mexp : f64 -> f64) (r : nat) (reqs : list (list (op * orc) * orc)) (e : expst) : expst * list Expvar.outcome :=
  match reqs with
  | [] => (e, [])
  | (p, o) :: reqs' =>
    match nth_error (snd (reach mexp p)) r with
    | Some v => let '(_, (e1, out)) := exp_sync v o (fst (reach mexp p)) e in let '(e2, outs) := serve mexp r reqs' e1 in (e2, out :: outs)
    | None => (e, [])
    end
  end.
Lemma publish_locked l e : locked e = true -> (forall name x, In (name, x) l -> numeric x) -> publish l e = match l with [] => (e, Done) | _ => (e, Stuck) end.
Proof.
  intros L N. rewrite acts_publish, acts_locked; auto; [destruct l as [|[n x] l]; reflexivity|]. intros name x H. apply in_map_iff in H. destruct H as ([n y] & H & Hi). cbn in H. injection H as -> ->. eauto.
Qed.
Lemma exp_vars_numeric nm rd name x : In (name, x) (exp_vars nm rd) -> numeric x.
Proof. destruct rd; cbn; intros H; repeat (destruct H as [H|H]; [injection H as <- <-; exact Logic.I|]); contradiction. Qed.
Lemma sync_locked es o w e : locked e = true -> Forall (fun kv => is_metric (snd kv) = true) es -> exists w' out, sync_each es o w e = (w', (e, out)) /\ (es <> [] -> out <> Done).
Proof.
  intros L F. destruct es as [|[nm v] es]; cbn [sync_each]; [do 2 eexists; split; [reflexivity|congruence]|]. inversion F as [|? ? M _]; subst. cbn [snd] in M.
  destruct (read_metric false ps5 v o w) as [w1 [[rd|]|msg]] eqn:R.
  - rewrite publish_locked; auto; [|apply exp_vars_numeric]. destruct (exp_vars nm rd) eqn:V; [|do 2 eexists; split; [reflexivity|discriminate]].
    exfalso. destruct rd; try discriminate V. unfold is_metric in M. unfold read_metric in R. destruct (cls v); try discriminate M;
      repeat match type of R with bind ?m _ ?o ?w = _ => let X := fresh "X" in destruct (m o w) as [? [?|?]] eqn:X; [rewrite (HealthProofs.bind_ok _ _ _ _ _ _ X) in R|rewrite (HealthProofs.bind_panic _ _ _ _ _ _ X) in R; discriminate R] end; unfold ret in R; discriminate R.
  - do 2 eexists. split; [reflexivity|discriminate].
  - do 2 eexists. split; [reflexivity|discriminate].
Qed.
Theorem C48_forever : forall mexp r reqs e,
  (forall p o, In (p, o) reqs -> exists v b, nth_error (snd (reach mexp p)) r = Some v /\ base v = Some b) -> locked e = true ->
  exists outs, serve mexp r reqs e = (e, outs) /\
    Forall2 (fun po out => forall v nm, nth_error (snd (reach mexp (fst po))) r = Some v -> shown (reach mexp (fst po)) v nm <> None -> out <> Done) reqs outs.
Proof.
  intros mexp r reqs e H L. induction reqs as [|[p o] reqs IH]; [exists []; split; [reflexivity|constructor]|].
  destruct (H p o (or_introl eq_refl)) as (v & b & E & B). destruct IH as (outs & Es & F); [intros; apply H with (o := o0); now right|]. cbn [serve]. rewrite E.
  pose proof (reach_inv mexp p) as I. destruct (reg_each_run (reach mexp p) v b o I (held_vok _ r v I E) B) as (es & R & ND & Sh & Fm). unfold exp_sync. rewrite R.
  destruct (sync_locked es o (fst (reach mexp p)) e L) as (w' & out & S & N). { eapply Forall_impl; [|exact Fm]. cbn. tauto. }
  rewrite S, Es. exists (out :: outs). split; [reflexivity|]. constructor; [|exact F]. cbn [fst]. intros v' nm E' Sn. rewrite E in E'. injection E' as <-. apply N. intros ->. apply Sn.
  destruct (shown (reach mexp p) v nm) as [i|] eqn:Si; [|reflexivity]. apply Sh in Si. destruct Si.
Qed.

(** ** example: a counter "a" is exported, then removed, and a float gauge takes its name *)
Definition counted : list (op * orc) := map (fun c => (c, orc_at 0)) [ONew NCounter; OInc 1 3; ORegister 0 "a" 1]%Z.
Definition replaced : list (op * orc) := (counted ++ map (fun c => (c, orc_at 0)) [OUnregister 0 "a"; ONew NGaugeF; ORegister 0 "a" 2; ONew NGauge; ORegister 0 "b" 3])%list.
Definition after (p : list (op * orc)) (e : expst) : expst * Expvar.outcome := snd (exp_sync (VReg 0) (orc_at 0) (fst (reach one_exp p)) e).
Definition with_a : expst := MkExp [("cmdline", EOther); ("memstats", EOther); ("a", EInt 3)] false.
Definition at_a (nm : string) : nat := if String.eqb nm "a" then 2 else 3.
Lemma replaced_shown nm : shown (reach one_exp replaced) (VReg 0) nm = if String.eqb "a" nm then Some (VGaugeF 3) else if String.eqb "b" nm then Some (VGauge 4) else None.
Proof.
  unfold shown. cbn [base]. change (full (VReg 0) "") with "". assert (P : String.prefix "" nm = true) by (destruct nm; reflexivity). rewrite P. unfold registered.
  replace (nth_error (heap (fst (reach one_exp replaced))) 0) with (Some (OReg [("a", VGaugeF 3); ("b", VGauge 4)])) by (vm_compute; reflexivity). unfold find. cbn [fst snd].
  destruct (String.eqb "a" nm); [reflexivity|]. destruct (String.eqb "b" nm); reflexivity.
Qed.
Example C48_example : let st := reach one_exp replaced in
  after counted exp_start = (with_a, Done) /\
  nth_error (snd st) 0 = Some (VReg 0) /\ prepared one_exp st (VReg 0) (orc_at 0) standard false /\
  (forall nm i, shown st (VReg 0) nm = Some i -> nth_error (snd st) (at_a nm) = Some i) /\ clash st (VReg 0) at_a with_a /\ ~ has_check st (VReg 0) /\
  after replaced with_a = (MkExp (pub with_a) true, Panicked msg_assert) /\
  after replaced (MkExp (pub with_a) true) = (MkExp (pub with_a) true, Stuck).
Proof.
  cbv zeta. repeat match goal with |- _ /\ _ => split end.
  - vm_compute. reflexivity.
  - vm_compute. reflexivity.
  - split; [|discriminate]. intros nm i Si C. rewrite replaced_shown in Si. destruct (String.eqb "a" nm); [injection Si as <-; destruct C; discriminate|]. destruct (String.eqb "b" nm); [injection Si as <-; destruct C; discriminate|discriminate].
  - intros nm i Si. rewrite replaced_shown in Si. destruct (String.eqb_spec "a" nm) as [<-|_]; [injection Si as <-; vm_compute; reflexivity|]. destruct (String.eqb_spec "b" nm) as [<-|_]; [injection Si as <-; vm_compute; reflexivity|discriminate].
  - exists "a", (OValue 2), "a", TFloat. split.
    + exists (VGaugeF 3), "". rewrite replaced_shown. split; [reflexivity|]. split; [now left|reflexivity].
    + left. exists TInt. split; [exists (EInt 3); split; reflexivity|discriminate].
  - intros (nm & i & Si & C). rewrite replaced_shown in Si. destruct (String.eqb "a" nm); [injection Si as <-; discriminate|]. destruct (String.eqb "b" nm); [injection Si as <-; discriminate|discriminate].
  - vm_compute. reflexivity.
  - vm_compute. reflexivity.
Qed.
