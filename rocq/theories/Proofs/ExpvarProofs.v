(** What a run of syncToExpvar does. *)
From Coq Require Import ZArith List String Bool Lia.
From Verif.Model Require Import GoInt GoFloat GoBase World Report Expvar.
From Verif.Spec Require Import ApiSpec RegistrySpec GetAllSpec ReportSpec ExpvarSpec.
From Verif.Proofs Require Import WorldBase WorldCalls WorldStep WorldReads GetAllProofs HealthProofs RegistryProofs ReportProofs LineProofs.
From Verif.Props Require Import SnapshotProps HealthProps GetAllProps.
Import ListNotations.
Local Open Scope list_scope.

(** ** variables *)
Lemma published_get l name : published l name = var_get name l.
Proof. induction l as [|[k x] l IH]; cbn; auto. rewrite String.eqb_sym, IH. reflexivity. Qed.
Lemma put_get l name x name' : published (var_put name x l) name' = if String.eqb name' name then Some x else published l name'.
Proof.
  induction l as [|[k y] l IH]; cbn [var_put published]; [destruct (String.eqb_spec name' name); auto|].
  destruct (String.eqb_spec k name) as [->|N]; cbn [published]; [destruct (String.eqb_spec name' name); auto|].
  rewrite IH. destruct (String.eqb_spec name' k) as [->|]; auto. destruct (String.eqb_spec k name); [contradiction|reflexivity].
Qed.
Definition vget (e : expst) (name : string) : option evar := published (pub e) name.
Definition fits (e : expst) (name : string) (x : evar) : bool :=
  match vget e name, x with None, _ => true | Some (EInt _), EInt _ => true | Some (EFloat _), EFloat _ => true | _, _ => false end.
Definition numeric (x : evar) : Prop := match x with EOther => False | _ => True end.
Lemma one_fits e name x : numeric x -> locked e = false -> fits e name x = true ->
  exists e', publish_one name x e = (e', Done) /\ locked e' = false /\ forall k, vget e' k = if String.eqb k name then Some x else vget e k.
Proof.
  intros Nx L F. unfold fits in F. destruct x; try contradiction; cbn [publish_one]; unfold get_int, get_float, expvar_get; rewrite L; cbn [lock_ pub]; rewrite <- published_get; fold (vget e name); (destruct (vget e name) as [[]|] eqn:G; try discriminate F);
    (eexists; split; [reflexivity|]; split; [reflexivity|]; intros k; unfold vget, expvar_put; cbn [pub lock_]; rewrite ?put_get; destruct (String.eqb k name); reflexivity).
Qed.
Lemma one_clashes e name x : numeric x -> locked e = false -> fits e name x = false ->
  publish_one name x e = (lock_ true e, Panicked msg_assert) /\ exists y, vget e name = Some y /\ type_of y <> type_of x.
Proof.
  intros Nx L F. unfold fits in F. destruct x; try contradiction; cbn [publish_one]; unfold get_int, get_float, expvar_get; rewrite L; cbn [lock_ pub]; rewrite <- published_get; fold (vget e name); (destruct (vget e name) as [[]|] eqn:G; try discriminate F);
    (split; [reflexivity|]; eexists; split; [reflexivity|discriminate]).
Qed.

(** ** the actions of a run: setting variables, and meeting a health check *)
Inductive act := Put (name : string) (x : evar) | Meet.
Fixpoint acts (l : list act) (e : expst) : expst * Expvar.outcome :=
  match l with
  | [] => (e, Done)
  | Put name x :: l' => match publish_one name x e with (e1, Done) => acts l' e1 | r => r end
  | Meet :: _ => (e, Panicked msg_unsupported)
  end.
Lemma acts_app l m e : acts (l ++ m) e = match acts l e with (e1, Done) => acts m e1 | r => r end.
Proof.
  revert e. induction l as [|[name x|] l IH]; intros e; cbn [acts app]; auto. destruct (publish_one name x e) as [e1 []]; auto.
Qed.
Lemma acts_publish l e : publish l e = acts (map (fun kx => Put (fst kx) (snd kx)) l) e.
Proof. revert e. induction l as [|[name x] l IH]; intros e; cbn [publish map acts fst snd]; auto. destruct (publish_one name x e) as [e1 []]; auto. Qed.
Definition acts_of (name : string) (r : option reading) : list act :=
  match r with Some d => map (fun kx => Put (fst kx) (snd kx)) (exp_vars name d) | None => [Meet] end.
(** the outcome of a sequence of actions *)
Lemma acts_run l : forall e, (forall name x, In (Put name x) l -> numeric x) -> locked e = false ->
  let '(e', r) := acts l e in
  (forall name y, vget e name = Some y -> exists y', vget e' name = Some y' /\ type_of y' = type_of y) /\
  (forall name, vget e' name = vget e name \/ exists x, In (Put name x) l /\ vget e' name = Some x) /\
  ((r = Done /\ locked e' = false /\ ~ In Meet l /\ (forall name x, In (Put name x) l -> exists x', In (Put name x') l /\ vget e' name = Some x') /\
      (forall name x, In (Put name x) l -> (forall y, vget e name = Some y -> type_of y = type_of x) /\ forall y, In (Put name y) l -> type_of y = type_of x)) \/
   (r = Panicked msg_unsupported /\ locked e' = false /\ In Meet l) \/
   (r = Panicked msg_assert /\ locked e' = true /\ exists name x, In (Put name x) l /\
      ((exists y, vget e name = Some y /\ type_of y <> type_of x) \/ exists y, In (Put name y) l /\ type_of y <> type_of x))).
Proof.
  induction l as [|[name x|] l IH]; intros e N L; cbn [acts].
  - split; [eauto|]. split; [auto|]. left. repeat split; auto; contradiction.
  - assert (Nx : numeric x) by (eapply N; now left). destruct (fits e name x) eqn:F.
    + destruct (one_fits e name x Nx L F) as (e1 & E & L1 & G). rewrite E. specialize (IH e1 (fun n y H => N n y (or_intror H)) L1).
      destruct (acts l e1) as [e' r]. destruct IH as (P & K & C).
      assert (T1 : forall n y, vget e n = Some y -> exists y', vget e1 n = Some y' /\ type_of y' = type_of y).
      { intros n y Hy. rewrite G. destruct (String.eqb_spec n name) as [->|]; [|eauto]. exists x. split; [reflexivity|]. unfold fits in F. rewrite Hy in F. destruct y, x; try discriminate F; reflexivity. }
      split; [|split].
      * intros n y Hy. destruct (T1 n y Hy) as (y1 & H1 & Q1). destruct (P n y1 H1) as (y2 & H2 & Q2). exists y2. split; [exact H2|congruence].
      * intros n. destruct (K n) as [Kn|(z & Hz & Kz)]; [|right; exists z; split; [now right|exact Kz]]. rewrite G in Kn. destruct (String.eqb_spec n name) as [Hn|]; [subst n; right; exists x; split; [now left|exact Kn]|auto].
      * destruct C as [(-> & L' & NM & A & T)|[(-> & L' & M)|(-> & L' & n & z & Hz & D)]].
        -- left. split; [reflexivity|]. split; [exact L'|]. split; [intros [H|H]; [discriminate|contradiction]|]. split.
           ++ intros n z [H|H].
              ** injection H as <- <-. destruct (K name) as [Kn|(z & Hz & Kz)]; [|exists z; split; [now right|exact Kz]]. exists x. split; [now left|]. rewrite Kn, G, String.eqb_refl. reflexivity.
              ** destruct (A n z H) as (z' & H1 & H2). exists z'. split; [now right|exact H2].
           ++ assert (Tx : forall y, In (Put name y) l -> type_of y = type_of x).
              { intros y Hy. destruct (T name y Hy) as (T2 & _). symmetry. apply T2. rewrite G, String.eqb_refl. reflexivity. }
              assert (Te : forall y, vget e name = Some y -> type_of y = type_of x).
              { intros y Hy. unfold fits in F. rewrite Hy in F. destruct y, x; try discriminate F; reflexivity. }
              intros n z [H|H].
              ** injection H as <- <-. split; [exact Te|]. intros y [Hy|Hy]; [now injection Hy as <-|auto].
              ** destruct (T n z H) as (T2 & T3). split.
                 --- intros y Hy. destruct (T1 n y Hy) as (y1 & H1 & Q1). rewrite <- Q1. now apply T2.
                 --- intros y [Hy|Hy]; [|auto]. injection Hy as <- <-. symmetry. auto.
        -- right. left. repeat split; auto. now right.
        -- right. right. repeat split; auto. exists n, z. split; [now right|]. destruct D as [(y & Hy & Ty)|(y & Hy & Ty)].
           ++ rewrite G in Hy. destruct (String.eqb_spec n name) as [Hn|]; [subst n|].
              ** injection Hy as <-. right. exists x. split; [now left|exact Ty].
              ** left. eauto.
           ++ right. exists y. split; [now right|exact Ty].
    + destruct (one_clashes e name x Nx L F) as (E & y & Hy & Ty). rewrite E. split; [eauto|]. split; [auto|]. right. right. repeat split; auto. exists name, x. split; [now left|]. left. eauto.
  - split; [eauto|]. split; [auto|]. right. left. repeat split; auto. now left.
Qed.
Lemma acts_locked l e : locked e = true -> (forall name x, In (Put name x) l -> numeric x) -> acts l e = match l with [] => (e, Done) | Put _ _ :: _ => (e, Stuck) | Meet :: _ => (e, Panicked msg_unsupported) end.
Proof.
  intros L N. destruct l as [|[name x|] l]; cbn [acts]; auto. assert (Nx : numeric x) by (eapply N; now left). destruct x; try contradiction; cbn [publish_one]; unfold get_int, get_float; rewrite L; reflexivity.
Qed.

(** ** the readings *)
Lemma read_told mexp (st : state) v o ps at_ nm i w1 w2 r : inv st -> shown st v nm = Some i -> is_metric i = true -> vok (heap (fst st)) i -> nth_error (snd st) (at_ nm) = Some i ->
  gentle (heap (fst st)) (heap w1) -> read_metric false ps i o w1 = (w2, Ok r) ->
  match r with
  | None => cls i = CHealth
  | Some rd => kind_rd rd = cls i /\ cls i <> CHealth /\ answered (fun c a => answer mexp st o ps (at_ nm) c = Some (Ok a)) (at_ nm) ps rd
  end.
Proof.
  intros I Si Mt Vi At G E. destruct (class_eqb (cls i) CHealth) eqn:Ch.
  - assert (C : cls i = CHealth) by (destruct (cls i); try discriminate Ch; reflexivity). pose proof (health_reading false ps i o w1 w2 r C E) as Hr. cbv iota in Hr. subst r. exact C.
  - assert (Rd : readable i = true). { unfold is_metric in Mt. unfold readable. destruct (cls i); try discriminate Mt; try discriminate Ch; reflexivity. }
    destruct (vdata_ok o (fst st) i (proj1 I) Vi Rd) as (d & D). destruct (gentle_vdata _ _ _ _ _ G D) as (d' & D' & Q).
    destruct (one_reading false ps i o w1 d' D' Mt w2 r E) as (rd & -> & Hrd & Sn).
    assert (Sn0 : snappable (heap (fst st)) i). { eapply gentle_snappable_back; eauto. intros k hi m Ek. destruct (wf_obj _ (proj1 I) _ _ Ek) as [[_ X] _]. exact X. }
    destruct (reading_answers mexp st (at_ nm) i o ps d d' rd I At D Q Hrd Sn0) as (K & A'). split; [exact K|]. split; [intros C; rewrite C in Ch; discriminate|exact A'].
Qed.
Lemma sync_steps o es : forall w, Forall (fun kv => set false ps5 o (heap w) (snd kv)) es ->
  exists rds, Forall2 (fun kv r => exists w1 w2, gentle (heap w) (heap w1) /\ read_metric false ps5 (snd kv) o w1 = (w2, Ok r)) es rds /\
    forall e, exists w', sync_each es o w e = (w', acts (List.concat (map (fun nr => acts_of (fst nr) (snd nr)) (combine (map fst es) rds))) e).
Proof.
  induction es as [|[nm v] es IH]; intros w F; [exists []; split; [constructor|]; intros e; exists w; reflexivity|].
  inversion F as [|? ? S1 S2]; subst. cbn [snd] in S1. destruct (one_set false ps5 o w v S1) as (w1 & r & E & G & K).
  destruct (IH w1) as (rds & F2 & R). { eapply Forall_impl; [|exact S2]. intros kv. apply set_gentle. exact G. }
  exists (r :: rds). split.
  - constructor; [exists w, w1; cbn [snd]; auto using gentle_refl|]. eapply forall2_impl; [|exact F2]. cbv beta. intros kv b (u1 & u2 & Gu & Eu). exists u1, u2. split; [eapply gentle_trans; eauto|auto].
  - intros e. cbn [map fst combine List.concat sync_each snd]. rewrite E. rewrite acts_app. destruct r as [rd|].
    + cbn [acts_of]. rewrite <- acts_publish. destruct (publish (exp_vars nm rd) e) as [e1 []]; [|eexists; reflexivity|eexists; reflexivity]. apply R.
    + cbn [acts_of acts]. eexists; reflexivity.
Qed.

(** ** the variables of a reading *)
Definition varies (Q : op -> rv -> Prop) (nm : string) (kx : string * evar) (f : variable) : Prop :=
  let '(suffix, c, t) := f in exists a, fst kx = (nm ++ suffix)%string /\ Q c a /\ carries a t (snd kx) /\ type_of (snd kx) = t.
Lemma app_nil_string s : (s ++ "")%string = s.
Proof. induction s; cbn; congruence. Qed.
Ltac vary := eexists; split; [first [reflexivity|symmetry; apply app_nil_string]|]; split; [eassumption|split; reflexivity].
Lemma vars_of (Q : op -> rv -> Prop) x nm rd : answered Q x ps5 rd -> Forall2 (varies Q nm) (exp_vars nm rd) (variables x (kind_rd rd)).
Proof.
  intros A. destruct rd; cbn [answered exp_vars kind_rd variables] in *.
  - constructor; [vary|constructor].
  - constructor; [vary|constructor].
  - constructor; [vary|constructor].
  - constructor.
  - destruct A as (A1 & A2 & A3 & A4 & A5 & A6). apply five_scores in A6. destruct A6 as (a & b & c & d & e & -> & P1 & P2 & P3 & P4 & P5).
    unfold dist_vars, distribution_variables, nth_f. cbn [nth]. do 10 (constructor; [vary|]). constructor.
  - destruct A as (A1 & A2 & A3 & A4 & A5). unfold rate_variables. do 5 (constructor; [vary|]). constructor.
  - destruct A as ((A1 & A2 & A3 & A4 & A5 & A6) & R1 & R2 & R3 & R4). apply five_scores in A6. destruct A6 as (a & b & c & d & e & -> & P1 & P2 & P3 & P4 & P5).
    unfold dist_vars, distribution_variables, rate_variables, nth_f. cbn [nth app]. do 14 (constructor; [vary|]). constructor.
Qed.
