(** A report that runs beside the rest of the process: the snapshots it takes do not change
    under it, so what it tells of a metric comes from one instant. *)
From Coq Require Import ZArith List String Bool Lia Permutation Arith.
From Verif.Model Require Import GoInt GoFloat GoBase Stats World Report Live.
From Verif.Spec Require Import ApiSpec RegistrySpec GetAllSpec ReportSpec ReadOnlySpec TimerSpec ContentSpec LiveSpec.
From Verif.Proofs Require Import SortFacts StatsInt WorldBase WorldOps WorldCalls WorldStep WorldFrame WorldReads WorldSnap RegistryProofs RegistryStep GetAllProofs HealthProofs Calm Content SampleContent ReportProofs.
From Verif.Props Require Import SnapshotProps.
From Verif.Model Require Import Live.
From Verif.Spec Require Import LiveSpec.
Import ListNotations.
Local Open Scope nat_scope.
Local Open Scope list_scope.

Section Live.
Variable mexp : f64 -> f64.
Notation step := (step mexp).
Notation run := (run mexp).

(** ** executions that return *)
Definition ends {A} (m : L A) (g : list gap) (st : state) (a : A) (ss : list state) (g' : list gap) (st' : state) : Prop :=
  m g st = MkExec g' ss st' (Some (Ok a)).
Lemma ends_of {A} (m : L A) g st a : outcome (m g st) = Some (Ok a) -> ends m g st a (acted (m g st)) (left (m g st)) (at_end (m g st)).
Proof. unfold ends. destruct (m g st). cbn. now intros ->. Qed.
Lemma ends_bind {A B} (m : L A) (f : A -> L B) g st b ss g' st' : ends (lbind m f) g st b ss g' st' ->
  exists a ss1 g1 st1 ss2, ends m g st a ss1 g1 st1 /\ ends (f a) g1 st1 b ss2 g' st' /\ ss = ss1 ++ ss2.
Proof.
  unfold ends, lbind. destruct (m g st) as [g1 ss1 st1 [[a|msg]|]] eqn:E; cbn; try discriminate. intros H. injection H as E1 E2 E3 E4.
  exists a, ss1, g1, st1, (acted (f a g1 st1)). split; [reflexivity|]. split; [|auto]. destruct (f a g1 st1). cbn in *. now subst.
Qed.
Lemma ends_ret {A} (a b : A) g st ss g' st' : ends (lret a) g st b ss g' st' -> b = a /\ ss = [] /\ g' = g /\ st' = st.
Proof. unfold ends, lret. intros H. injection H as <- <- <- <-. auto. Qed.
Lemma ends_res {A} (r : res A) b g st ss g' st' : ends (lres r) g st b ss g' st' -> r = Ok b /\ ss = [] /\ g' = g /\ st' = st.
Proof. unfold ends, lres. intros H. injection H as <- <- <- ->. auto. Qed.
Lemma ends_kind x g st k ss g' st' : ends (kind_at x) g st k ss g' st' -> k = match nth_error (snd st) x with Some v => cls v | None => CNone end /\ ss = [] /\ g' = g /\ st' = st.
Proof. unfold ends, kind_at. intros H. injection H as <- <- <- <-. auto. Qed.
Lemma ends_call c g st r ss g' st' : ends (Live.call mexp c) g st r ss g' st' ->
  exists q o, g = (q, o) :: g' /\ ss = [run st q] /\ step (run st q) (c, o) = (st', Some (Ok (snd r))) /\ fst r = List.length (snd (run st q)).
Proof.
  unfold ends, Live.call. destruct g as [|[q o] g]; [discriminate|]. destruct (World.step mexp (World.run mexp st q) (c, o)) as [st2 [[r2|msg]|]] eqn:E; intros H; try discriminate.
  injection H as <- <- <- <-. exists q, o. auto.
Qed.
Lemma ends_ask_z c g st z ss g' st' : ends (ask_z mexp c) g st z ss g' st' ->
  exists q o r, g = (q, o) :: g' /\ ss = [run st q] /\ step (run st q) (c, o) = (st', Some (Ok r)) /\ z = rv_z r.
Proof.
  intros H. destruct (ends_bind _ _ _ _ _ _ _ _ H) as (a & ss1 & g1 & st1 & ss2 & H1 & H2 & ->). destruct (ends_ret _ _ _ _ _ _ _ H2) as (-> & -> & -> & ->).
  destruct (ends_call _ _ _ _ _ _ _ H1) as (q & o & -> & -> & E & _). exists q, o, (snd a). auto.
Qed.
Lemma ends_ask_f c g st z ss g' st' : ends (ask_f mexp c) g st z ss g' st' ->
  exists q o r, g = (q, o) :: g' /\ ss = [run st q] /\ step (run st q) (c, o) = (st', Some (Ok r)) /\ z = rv_f r.
Proof.
  intros H. destruct (ends_bind _ _ _ _ _ _ _ _ H) as (a & ss1 & g1 & st1 & ss2 & H1 & H2 & ->). destruct (ends_ret _ _ _ _ _ _ _ H2) as (-> & -> & -> & ->).
  destruct (ends_call _ _ _ _ _ _ _ H1) as (q & o & -> & -> & E & _). exists q, o, (snd a). auto.
Qed.

(** ** executions as programs *)
Definition weaves {A} (P : op -> bool) (m : L A) : Prop := forall g st, exists cs,
  Forall (fun c => P c = true) cs /\ List.length cs <= List.length g /\ left (m g st) = skipn (List.length cs) g /\
  at_end (m g st) = run st (weave g cs) /\ acted (m g st) = moments mexp st g cs.
Lemma weave_app : forall cs g cs2, List.length cs <= List.length g -> weave g (cs ++ cs2) = weave g cs ++ weave (skipn (List.length cs) g) cs2.
Proof.
  induction cs as [|c cs IH]; intros [|[q o] g] cs2 H; cbn in *; auto; try lia. rewrite IH by lia. now rewrite <- app_assoc.
Qed.
Lemma moments_app : forall cs g cs2 st, List.length cs <= List.length g -> moments mexp st g (cs ++ cs2) = moments mexp st g cs ++ moments mexp (run st (weave g cs)) (skipn (List.length cs) g) cs2.
Proof.
  induction cs as [|c cs IH]; intros [|[q o] g] cs2 st H; cbn [app moments weave skipn List.length] in *; auto; try lia. cbn [app]. f_equal. rewrite IH by lia. f_equal. f_equal.
  change (q ++ (c, o) :: weave g cs) with (q ++ [(c, o)] ++ weave g cs). now rewrite app_assoc, (run_app mexp st (q ++ [(c, o)])).
Qed.
Lemma skipn_more {A} (l : list A) : forall n m, skipn m (skipn n l) = skipn (n + m) l.
Proof. induction l; intros [|n] m; cbn; auto. now destruct m. Qed.
Lemma weaves_bind {A B} P (m : L A) (f : A -> L B) : weaves P m -> (forall a, weaves P (f a)) -> weaves P (lbind m f).
Proof.
  intros Hm Hf g st. destruct (Hm g st) as (cs & F & Ln & Lf & En & Ac). unfold lbind. destruct (outcome (m g st)) as [[a|msg]|]; cbn; try (exists cs; auto; fail).
  destruct (Hf a (left (m g st)) (at_end (m g st))) as (cs2 & F2 & Ln2 & Lf2 & En2 & Ac2). exists (cs ++ cs2). rewrite Lf, En in *. rewrite skipn_length in Ln2.
  split; [apply Forall_app; auto|]. rewrite app_length. split; [lia|]. split; [now rewrite Lf2, skipn_more|]. split.
  - rewrite En2, weave_app by auto. now rewrite run_app.
  - rewrite Ac, Ac2. now rewrite moments_app.
Qed.
Lemma weaves_ret {A} P (a : A) : weaves P (lret a). Proof. intros g st. exists []. cbn. split; [constructor|]. split; [lia|]. destruct g as [|[]]; auto. Qed.
Lemma weaves_res {A} P (a : res A) : weaves P (lres a). Proof. intros g st. exists []. cbn. split; [constructor|]. split; [lia|]. destruct g as [|[]]; auto. Qed.
Lemma weaves_kind P x : weaves P (kind_at x). Proof. intros g st. exists []. cbn. split; [constructor|]. split; [lia|]. destruct g as [|[]]; auto. Qed.
Lemma weaves_call (P : op -> bool) c : P c = true -> weaves P (Live.call mexp c).
Proof.
  intros Hc [|[q o] g] st; unfold Live.call; [exists []; cbn; auto|]. exists [c].
  assert (E : forall st2 r, step (run st q) (c, o) = (st2, r) -> st2 = run st (q ++ [(c, o)])) by (intros st2 r E; rewrite run_app; cbn; now rewrite E).
  destruct (World.step mexp (World.run mexp st q) (c, o)) as [st2 r] eqn:Es. rewrite (E _ _ eq_refl).
  destruct r as [[r|msg]|]; cbn; (split; [auto|]; split; [lia|]; split; [reflexivity|]; destruct g as [|[]]; auto).
Qed.
Lemma weaves_ask_z (P : op -> bool) c : P c = true -> weaves P (ask_z mexp c).
Proof. intros H. apply weaves_bind; [now apply weaves_call|intros; apply weaves_ret]. Qed.
Lemma weaves_ask_f (P : op -> bool) c : P c = true -> weaves P (ask_f mexp c).
Proof. intros H. apply weaves_bind; [now apply weaves_call|intros; apply weaves_ret]. Qed.
Lemma weaves_percentiles (P : op -> bool) s ps : (forall p, P (OPercentile s p) = true) -> weaves P (live_percentiles mexp s ps).
Proof. intros H. induction ps; cbn [live_percentiles]; [apply weaves_ret|]. apply weaves_bind; [now apply weaves_ask_f|]. intros. apply weaves_bind; [exact IHps|intros; apply weaves_ret]. Qed.
Create HintDb wv.
Hint Resolve weaves_ret weaves_res weaves_kind weaves_call weaves_ask_z weaves_ask_f weaves_percentiles : wv.
Ltac wvs := repeat first [ solve [auto 2 with wv] | apply weaves_bind; [|intros ?] | match goal with |- weaves _ (match ?x with _ => _ end) => destruct x end | match goal with |- weaves _ (if ?x then _ else _) => destruct x end ].
Lemma weaves_read health ps x : weaves (ReadOnlySpec.reading_call health) (live_read mexp health ps x).
Proof. unfold live_read. wvs. Qed.
Lemma weaves_each {A} P (visit : string -> nat -> L (list A)) es : (forall n x, weaves P (visit n x)) -> weaves P (live_each visit es).
Proof. intros H. induction es as [|[n x] es IH]; cbn [live_each]; wvs. Qed.
Lemma weaves_visit {A} runs (visit : string -> nat -> L (list A)) arrange r : (forall n x, weaves (ReadOnlySpec.reading_call runs) (visit n x)) -> weaves (ReadOnlySpec.reading_call runs) (live_visit mexp visit arrange r).
Proof. intros H. unfold live_visit. wvs. now apply weaves_each. Qed.
Lemma weaves_report {A} health ps (render : string -> reading -> res (list A)) arrange r : weaves (ReadOnlySpec.reading_call health) (live_report mexp health ps render arrange r).
Proof. unfold live_report. apply weaves_visit. intros n x. apply weaves_bind; [apply weaves_read|intros; wvs]. Qed.
Lemma weaves_get_all_one x : weaves (ReadOnlySpec.reading_call true) (live_get_all_one mexp x).
Proof. unfold live_get_all_one. apply weaves_bind; [wvs|intros k]. assert (H := weaves_read true ps5 x). destruct k; wvs; exact H. Qed.
Lemma weaves_get_all r : weaves (ReadOnlySpec.reading_call true) (live_get_all mexp r).
Proof. apply weaves_visit. intros n x. apply weaves_bind; [apply weaves_get_all_one|intros; wvs]. Qed.
Lemma weaves_hist ps x : weaves (ReadOnlySpec.reading_call false) (live_librato_hist mexp ps x).
Proof. unfold live_librato_hist. wvs. Qed.

(** ** states and gaps *)
Definition fine (st : state) : Prop := inv st /\ snaps_quiet st.
Definition calmly (g : list gap) : Prop := Forall (fun qo => no_wrap (fst qo)) g.
Lemma fine_run st q : fine st -> no_wrap q -> fine (run st q).
Proof. intros (I & Q) N. split; [now apply inv_run|now apply snaps_quiet_run]. Qed.
Lemma fine_step st c o : fine st -> match c with ONewSampleSnapshot _ _ => False | _ => True end -> fine (fst (step st (c, o))).
Proof. intros (I & Q) N. split; [now apply step_inv|now apply snaps_quiet_step]. Qed.

Lemma weave_wrap runs : forall cs g, calmly g -> Forall (fun c => ReadOnlySpec.reading_call runs c = true) cs -> no_wrap (weave g cs).
Proof.
  induction cs as [|c cs IH]; intros [|[q o] g] G F; cbn [weave]; try constructor. inversion G; inversion F; subst. apply Forall_app. split; auto. constructor; [|now apply IH].
  cbn. destruct c; auto; discriminate.
Qed.
(** what an execution leaves behind *)
Lemma after {A} runs (m : L A) g st a ss g' st' : weaves (ReadOnlySpec.reading_call runs) m -> fine st -> calmly g -> ends m g st a ss g' st' ->
  fine st' /\ calmly g' /\ exists p, st' = run st p.
Proof.
  intros W F C E. destruct (W g st) as (cs & Fc & Ln & Lf & En & Ac). unfold ends in E. rewrite E in *. cbn in *. subst.
  split; [apply fine_run; auto; eapply weave_wrap; eauto|]. split; [|eauto]. clear - C. revert g C. induction cs; intros g C; [exact C|]. destruct g; [constructor|]. inversion C; subst. cbn. auto.
Qed.

(** ** sorted snapshots stay as they are *)
Definition dsorted (d : data) : Prop := match dist d with Some xs => sortz xs = xs | None => True end.
Lemma quiet_sorted (st : state) c o a xs : inv st -> quiet st a -> nth_error (heap (fst st)) a = Some (OArr xs) -> sortz xs = xs ->
  nth_error (heap (fst (fst (step st (c, o))))) a = Some (OArr xs).
Proof.
  intros I (Q1 & Q2 & Q3 & Q4) Ea S.
  destruct (World.call mexp (snd st) c) as [m|] eqn:C.
  2: { unfold World.step. cbn [fst snd]. now rewrite C. }
  assert (Ta : tagat (heap (fst st)) a TArr) by (eexists; split; [exact Ea|reflexivity]).
  assert (N2 : forall v, writes_on (snd st) c = Some v -> ~ aim (heap (fst st)) v a).
  { intros v W A. pose proof (written_vok _ _ _ I W) as V. pose proof (aim_kind _ _ _ A (wf_obj _ (proj1 I)) V) as K. pose proof (aim_feeds _ _ _ A) as F.
    assert (Q : forall t, feeds (fst st) v = Some t -> saim (heap (fst st)) t a -> False).
    { intros t Ft At. pose proof (feeds_vok _ _ _ (proj1 I) V Ft) as Vt. destruct t; cbn in At; try contradiction.
      - destruct At as [-> | (c0 & n0 & E0)]; [pose proof (tag_unique _ _ _ _ Ta Vt); discriminate|]. apply Q3. exists l, c0, n0. exact E0.
      - subst. pose proof (tag_unique _ _ _ _ Ta Vt). discriminate. }
    destruct v; try contradiction; try (pose proof (tag_unique _ _ _ _ Ta K); discriminate); try (destruct F as (t & Ft & At); eauto; fail).
    subst l. apply Q4. destruct c; cbn in W; try discriminate; eapply nth_error_In; eauto. }
  destruct (keeps_step mexp st c o a _ I Ea Logic.I N2) as (y & Ey' & Cy). cbn in Cy. destruct Cy as (zs & -> & P & F). rewrite (F S) in Ey'. exact Ey'.
Qed.
Lemma snap_orc o o' h s : is_snap s = true -> vdata o h s = vdata o' h s.
Proof. destruct s; try discriminate; reflexivity. Qed.

(** the value [s] at [y] is a snapshot that shows [d] *)
Definition holds (st : state) (y : nat) (s : val) (d : data) : Prop :=
  fine st /\ nth_error (snd st) y = Some s /\ is_snap s = true /\ vok (heap (fst st)) s /\ forall o, vdata o (heap (fst st)) s = Some d.
Lemma ssnap_sorted (st : state) c o l n xs : inv st -> snaps_quiet st -> tagat (heap (fst st)) l TSampleSnap -> sdata (heap (fst st)) (VSampleSnap l) = Some (n, xs) -> sortz xs = xs ->
  sdata (heap (fst (fst (step st (c, o))))) (VSampleSnap l) = Some (n, xs).
Proof.
  intros I Q T D S. destruct (same_ssnap_step mexp st c o l I T (Q l)) as (c0 & a & xs0 & ys & E1 & E2 & E3 & E4 & P).
  cbn [sdata] in D |- *. unfold arrdata in *. rewrite E1, E3 in D. injection D as <- <-. rewrite E2. rewrite (quiet_sorted st c o a xs0 I (Q l _ _ E1) E3 S). reflexivity.
Qed.
Lemma hsnap_sorted (st : state) c o l n xs : inv st -> snaps_quiet st -> tagat (heap (fst st)) l THistSnap -> hdata (heap (fst st)) (VHistSnap l) = Some (n, xs) -> sortz xs = xs ->
  hdata (heap (fst (fst (step st (c, o))))) (VHistSnap l) = Some (n, xs).
Proof.
  intros I Q T D S. destruct (same_hsnap_step mexp st c o l I T (fun s _ => Q s)) as (s & E1 & E2 & K).
  cbn [hdata] in D |- *. rewrite E1 in D. rewrite E2. apply ssnap_sorted; auto. destruct K as (c0 & a & xs0 & ys & A & _). eexists. split; [exact A|reflexivity].
Qed.
Lemma sorted_step (st : state) c o y s d : match c with ONewSampleSnapshot _ _ => False | _ => True end -> holds st y s d -> dsorted d -> holds (fst (step st (c, o))) y s d.
Proof.
  intros N ((I & Q) & E & Sp & V & D) S. destruct (step_inv mexp st c o I) as (I' & L & _).
  destruct (frozen_step mexp st c o s I V (snaps_quiet_frozen _ _ Q)) as (_ & K).
  repeat match goal with |- _ /\ _ => split | |- holds _ _ _ _ => split | |- fine _ => split end; auto.
  - now apply snaps_quiet_step.
  - now apply step_env.
  - eapply legalh_vok; eauto.
  - intros o'. specialize (D o'). destruct s; try discriminate Sp; try exact D; cbn [vdata] in D |- *.
    + destruct (sdata _ _) as [[n xs]|] eqn:Ed; [|discriminate]. injection D as <-. cbn in S. rewrite (ssnap_sorted st c o _ n xs); auto.
    + destruct (hdata _ _) as [[n xs]|] eqn:Ed; [|discriminate]. injection D as <-. cbn in S. rewrite (hsnap_sorted st c o _ n xs); auto.
    + cbn [same_snap] in K. destruct K as (c0 & a & b & e & m & E1 & E2). unfold mdata, msdata in *. rewrite E1 in D. rewrite E2. exact D.
    + cbn [same_snap] in K. destruct K as (hl & ml & E1 & E2 & Kh & Km). unfold tdata in *. rewrite E1 in D. rewrite E2. destruct Km as (c0 & a & b & e & m & M1 & M2). unfold mdata, msdata in *. rewrite M1 in D. rewrite M2.
      destruct (hdata (heap (fst st)) (VHistSnap hl)) as [[n xs]|] eqn:Ed; [|discriminate]. cbn in D. injection D as <-. cbn in S. rewrite (hsnap_sorted st c o hl n xs); auto.
      destruct Kh as (s0 & A & _). eexists. split; [exact A|reflexivity].
Qed.
Lemma sorted_run q y s d : no_wrap q -> forall st, holds st y s d -> dsorted d -> holds (run st q) y s d.
Proof. induction 1 as [|[c o] q N F IH]; intros st H S; [exact H|]. rewrite run_cons. apply IH; auto. now apply sorted_step. Qed.
Lemma holds_run q y s d st : no_wrap q -> holds st y s d -> exists d', holds (run st q) y s d' /\ deq d d'.
Proof.
  intros N ((I & Q) & E & Sp & V & D).
  pose proof (frozen_run mexp q st s I V (snaps_quiet_frozen _ _ Q)) as K.
  destruct (same_snap_data (orc0) (orc0) _ _ s Sp K) as (d1 & d2 & A & B & P). rewrite D in A. injection A as <-.
  exists d2. split; [|exact P]. split; [apply fine_run; [split; auto|auto]|]. split; [now apply run_env|]. split; [auto|]. split.
  - assert (I2 : inv (run st q)) by now apply inv_run. destruct I2 as [_ F]. rewrite Forall_forall in F. apply F. eapply nth_error_In. apply run_env; eauto.
  - intros o. rewrite (snap_orc o orc0); auto.
Qed.
(** a question to a sorted snapshot *)
Lemma sorted_ask c q o y s d st st' r : no_wrap q -> holds st y s d -> dsorted d -> reads c = Some y -> step (run st q) (c, o) = (st', Some (Ok r)) ->
  holds st' y s d /\ read_data c d = Some (Ok r).
Proof.
  intros N H S R E. pose proof (sorted_run q y s d N st H S) as H1. split.
  - replace st' with (fst (step (run st q) (c, o))) by now rewrite E. apply sorted_step; auto. destruct c; try discriminate R; exact Logic.I.
  - destruct H1 as (_ & Ey & _ & _ & D). rewrite <- (read_ok mexp (run st q) c o y s d R Ey (D o)). now rewrite E.
Qed.
(** ** snapshots of metrics *)
Definition dsort (d : data) : data :=
  match d with DSample c xs => DSample c (sortz xs) | DHist c xs => DHist c (sortz xs) | DTimer c xs s => DTimer c (sortz xs) s | _ => d end.
Lemma dsort_sorted d : dsorted (dsort d).
Proof. destruct d; cbn; auto; apply sortz_idem. Qed.
Lemma dsort_deq d d' : deq d d' -> dsort d = dsort d'.
Proof. destruct d, d'; cbn; try congruence; try (intros (-> & P)); f_equal; auto using sortz_unique; try (destruct P as (P & ->)); auto using sortz_unique. Qed.
Lemma snapshot_taken (st : state) x i o st' r : fine st -> nth_error (snd st) x = Some i -> step st (OSnapshot x, o) = (st', Some (Ok r)) ->
  exists sv d, vdata o (heap (fst st)) i = Some d /\ holds st' (List.length (snd st)) sv d /\ snappable (heap (fst st)) i /\ cls sv = cls i.
Proof.
  intros (I & Q) Ex E.
  assert (exists sv, r = RVal sv) as (sv & ->).
  { unfold World.step in E. cbn [fst snd World.call] in E. rewrite Ex in E. cbn [obind] in E. unfold m_snapshot, v_rv in E. destruct (cls i); try discriminate;
    match type of E with context [bind ?m ?f ?a ?b] => destruct (m a b) as [w' [sv|msg]] eqn:Em; [rewrite (bind_ok m f a b w' sv Em) in E|rewrite (bind_panic m f a b w' msg Em) in E; discriminate] end; injection E as _ <-; eauto. }
  destruct (snapshot_facts mexp st x o st' sv I E) as (v & d & Ev & D & D1 & N & S & I1 & V & _). rewrite Ex in Ev. injection Ev as <-.
  exists sv, d. split; [exact D|]. split; [|split].
  - split; [split; [exact I1|]|].
    + replace st' with (fst (step st (OSnapshot x, o))) by now rewrite E. apply snaps_quiet_step; auto.
    + split; [exact N|]. split; [exact S|]. split; [exact V|]. intros o'. rewrite (snap_orc o' o); auto.
  - unfold World.step in E. cbn [fst snd World.call] in E. rewrite Ex in E. cbn [obind] in E. unfold m_snapshot, v_rv in E. destruct (cls i) eqn:Ci; try (destruct i; try discriminate Ci; exact Logic.I).
    + match type of E with context [bind ?m ?f ?a ?b] => destruct (m a b) as [w' [s'|msg]] eqn:Em; [|rewrite (bind_panic m f a b w' msg Em) in E; discriminate] end.
      assert (exists c xs, hdata (heap (fst st)) i = Some (c, xs)) as (c & xs & Hd) by (destruct i; try discriminate Ci; unfold vdata in D; (destruct (hdata _ _) as [[c xs]|]; [eauto|discriminate])).
      apply (hist_snappable i o (fst st) c xs Hd). eauto.
    + match type of E with context [bind ?m ?f ?a ?b] => destruct (m a b) as [w' [s'|msg]] eqn:Em; [|rewrite (bind_panic m f a b w' msg Em) in E; discriminate] end.
      assert (exists c xs s, tdata (heap (fst st)) i = Some (c, xs, s)) as (c & xs & ms & Hd) by (destruct i; try discriminate Ci; unfold vdata in D; (destruct (tdata _ _) as [[[c xs] ms]|]; [eauto|discriminate])).
      apply (timer_snappable i o (fst st) c xs ms Hd). eauto.
  - rewrite <- (kind_vdata _ _ _ _ D1). apply (kind_vdata _ _ _ _ D).
Qed.
(** asking for percentiles sorts *)
Lemma percentiles_asked (st : state) y s d q o ps st' r : no_wrap q -> holds st y s d -> cls s = CHist \/ cls s = CTimer -> step (run st q) (OPercentiles y ps, o) = (st', Some (Ok r)) ->
  holds st' y s (dsort d) /\ exists xs qs, dist d = Some xs /\ snd (SamplePercentiles xs ps) = Ok qs /\ rv_fs r = qs.
Proof.
  intros N H Cs E. destruct (holds_run q y s d st N H) as (d1 & H1 & Dq). rewrite (dsort_deq _ _ Dq).
  assert (X : exists xs qs, dist d1 = Some xs /\ snd (SamplePercentiles xs ps) = Ok qs /\ r = RFs qs /\ forall o', vdata o' (heap (fst st')) s = Some (dsort d1)).
  { destruct H1 as (_ & Ey & Sp & V & D). specialize (D o). unfold World.step in E. cbn [fst snd World.call] in E. rewrite Ey in E. cbn [obind] in E. unfold m_percentiles in E. destruct Cs as [C|C]; rewrite C in E; cbn [obind] in E.
    - assert (exists c' xs, hdata (heap (fst (run st q))) s = Some (c', xs) /\ d1 = DHist c' xs) as (c' & xs & Hd & ->).
      { destruct s; try discriminate C; unfold vdata in D; (destruct (hdata _ _) as [[c0 xs0]|]; [|discriminate]); cbn in D; injection D as <-; eauto. }
      assert (Ks : match s with VHistSnap _ | VNilHist => True | _ => False end) by (destruct s; try discriminate C; try discriminate Sp; exact Logic.I).
      destruct (hist_read ps s o (fst (run st q)) c' xs Ks Hd) as (w2 & Pw & Dw & _). destruct (snd (SamplePercentiles xs ps)) as [qs|msg] eqn:Ep; [rewrite (bind_ok _ _ _ _ _ _ Pw) in E|rewrite (bind_panic _ _ _ _ _ _ Pw) in E; discriminate].
      unfold ret in E. injection E as <- <-. exists xs, qs. split; [reflexivity|]. split; [exact Ep|]. split; [reflexivity|]. intros o'. cbn [fst dsort]. destruct s; try discriminate C; try discriminate Sp; unfold vdata; rewrite Dw; reflexivity.
    - assert (exists c' xs ms, tdata (heap (fst (run st q))) s = Some (c', xs, ms) /\ d1 = DTimer c' xs ms) as (c' & xs & ms & Hd & ->).
      { destruct s; try discriminate C; unfold vdata in D; (destruct (tdata _ _) as [[[c0 xs0] ms]|]; [|discriminate]); cbn in D; injection D as <-; eauto. }
      assert (Ks : match s with VTimerSnap _ | VNilTimer => True | _ => False end) by (destruct s; try discriminate C; try discriminate Sp; exact Logic.I).
      destruct (timer_read ps s o (fst (run st q)) c' xs ms Ks Hd) as (w2 & Pw & Dw). destruct (snd (SamplePercentiles xs ps)) as [qs|msg] eqn:Ep; [rewrite (bind_ok _ _ _ _ _ _ Pw) in E|rewrite (bind_panic _ _ _ _ _ _ Pw) in E; discriminate].
      unfold ret in E. injection E as <- <-. exists xs, qs. split; [reflexivity|]. split; [exact Ep|]. split; [reflexivity|]. intros o'. cbn [fst dsort]. destruct s; try discriminate C; try discriminate Sp; unfold vdata; rewrite Dw; reflexivity. }
  destruct X as (xs1 & qs & Dx & Ps & -> & D2). destruct H1 as ((I1 & Q1) & Ey & Sp & V & _).
  assert (Est : st' = fst (step (run st q) (OPercentiles y ps, o))) by now rewrite E.
  split.
  - split; [rewrite Est; apply fine_step; [split; auto|exact Logic.I]|]. split; [rewrite Est; now apply step_env|]. split; [exact Sp|]. split; [|exact D2].
    rewrite Est. destruct (step_inv mexp (run st q) (OPercentiles y ps) o I1) as (_ & Lg & _). eapply legalh_vok; eauto.
  - assert (exists xs, dist d = Some xs /\ Permutation xs xs1) as (xs & Dx0 & P).
    { destruct d, d1; cbn in Dq, Dx |- *; try discriminate; try (destruct Dq as (-> & Dq)); try (destruct Dq as (Dq & _)); injection Dx as <-; eauto. }
    exists xs, qs. split; [exact Dx0|]. split; [|reflexivity]. now rewrite (SamplePercentiles_perm xs xs1 ps P).
Qed.

(** ** one metric *)
Lemma calmly_tail q o g : calmly ((q, o) :: g) -> no_wrap q /\ calmly g.
Proof. intros C. inversion C; subst. auto. Qed.
Lemma ask_sorted_z c g st z ss g' st' y s d : holds st y s d -> dsorted d -> calmly g -> reads c = Some y -> ends (ask_z mexp c) g st z ss g' st' ->
  holds st' y s d /\ calmly g' /\ exists r, read_data c d = Some (Ok r) /\ z = rv_z r.
Proof.
  intros H S C R E. destruct (ends_ask_z _ _ _ _ _ _ _ E) as (q & o & r & -> & -> & E1 & ->). destruct (calmly_tail _ _ _ C) as (Nq & C').
  destruct (sorted_ask c q o y s d st st' r Nq H S R E1) as (H' & Rd). eauto 6.
Qed.
Lemma ask_sorted_f c g st z ss g' st' y s d : holds st y s d -> dsorted d -> calmly g -> reads c = Some y -> ends (ask_f mexp c) g st z ss g' st' ->
  holds st' y s d /\ calmly g' /\ exists r, read_data c d = Some (Ok r) /\ z = rv_f r.
Proof.
  intros H S C R E. destruct (ends_ask_f _ _ _ _ _ _ _ E) as (q & o & r & -> & -> & E1 & ->). destruct (calmly_tail _ _ _ C) as (Nq & C').
  destruct (sorted_ask c q o y s d st st' r Nq H S R E1) as (H' & Rd). eauto 6.
Qed.
Lemma deq_refl d : deq d d.
Proof. destruct d; cbn; auto. Qed.
Lemma about_kind rd : about rd = kind_rd rd. Proof. destruct rd; reflexivity. Qed.
Lemma answered_tells Q x ps rd : kind_rd rd <> CHealth -> ReportProofs.answered Q x ps rd -> tells Q x ps rd.
Proof. destruct rd; cbn; auto. congruence. Qed.
Lemma found_reading (st : state) ps x i o d rd ss : inv st -> nth_error (snd st) x = Some i -> vdata o (heap (fst st)) i = Some d -> snappable (heap (fst st)) i -> reading_of ps d rd -> In st ss ->
  found mexp ps i ss rd.
Proof.
  intros I Ex D Sn R Hin. destruct (reading_answers mexp st x i o ps d d rd I Ex D (deq_refl d) R Sn) as (K & A).
  assert (Nh : kind_rd rd <> CHealth). { rewrite K. destruct i; try discriminate D; discriminate. }
  split; [now rewrite about_kind|]. rewrite <- K. pose proof (answered_tells _ _ _ _ Nh A) as T. destruct (kind_rd rd); try contradiction; exists x, st, o; auto.
Qed.
Ltac peel H a g ss st1 H1 := let T := fresh in pose proof (ends_bind _ _ _ _ _ _ _ _ H) as T; clear H; destruct T as (a & ss & g & st1 & ? & H1 & H & ->); cbv beta zeta in H.
Ltac ask H C Hd S := let a := fresh "a" in let g := fresh "g" in let ss := fresh "ss" in let st1 := fresh "st" in let H1 := fresh "H1" in let r := fresh "r" in let R := fresh "R" in let Z := fresh "Z" in
  peel H a g ss st1 H1;
  match type of H1 with ends (ask_z _ ?c) _ _ _ _ _ _ => destruct (ask_sorted_z c _ _ _ _ _ _ _ _ _ Hd S C eq_refl H1) as (Hd' & C' & r & R & Z) | ends (ask_f _ ?c) _ _ _ _ _ _ => destruct (ask_sorted_f c _ _ _ _ _ _ _ _ _ Hd S C eq_refl H1) as (Hd' & C' & r & R & Z) end;
  clear H1; cbn [read_data dist option_map] in R; injection R as <-; subst a; clear Hd C; rename Hd' into Hd; rename C' into C.
Lemma live_reading health ps x i g st r ss g' st' : fine st -> calmly g -> nth_error (snd st) x = Some i -> is_metric i = true -> ends (live_read mexp health ps x) g st r ss g' st' ->
  if class_eqb (cls i) CHealth && negb health then r = None /\ ss = [] else exists rd, r = Some rd /\ found mexp ps i ss rd.
Proof.
  intros F C Ex Mt H. unfold live_read in H. peel H k g0 ss0 st0 H0. destruct (ends_kind _ _ _ _ _ _ _ H0) as (-> & -> & -> & ->). rewrite Ex in H. clear H0.
  destruct (cls i) eqn:K; try (exfalso; unfold is_metric in Mt; rewrite K in Mt; discriminate Mt); cbn [class_eqb andb]; cbn [app].
  - (* counters *) peel H n g1 ss1 st1 H1. destruct (ends_ret _ _ _ _ _ _ _ H) as (-> & -> & -> & ->). destruct (ends_ask_z _ _ _ _ _ _ _ H1) as (q & o & r1 & -> & -> & E1 & ->).
    destruct (calmly_tail _ _ _ C) as (Nq & _). destruct (fine_run st q F Nq) as (I1 & _). assert (Ex1 : nth_error (snd (run st q)) x = Some i) by now apply run_env.
    assert (V : vok (heap (fst (run st q))) i) by (destruct I1 as [_ Fv]; rewrite Forall_forall in Fv; apply Fv; eapply nth_error_In; eauto).
    destruct (vdata_ok o (fst (run st q)) i (proj1 I1) V ltac:(unfold readable; now rewrite K)) as (d & D).
    pose proof (read_ok mexp (run st q) (OCount x) o x i d eq_refl Ex1 D) as R. rewrite E1 in R. cbn [snd] in R. pose proof (kind_vdata _ _ _ _ D) as Kd. rewrite K in Kd. destruct d; try discriminate Kd. cbn in R. injection R as ->.
    eexists. split; [reflexivity|]. eapply found_reading with (st := run st q) (x := x); eauto; [destruct i; try discriminate K; exact Logic.I|reflexivity|now left].
  - (* gauges *) peel H n g1 ss1 st1 H1. destruct (ends_ret _ _ _ _ _ _ _ H) as (-> & -> & -> & ->). destruct (ends_ask_z _ _ _ _ _ _ _ H1) as (q & o & r1 & -> & -> & E1 & ->).
    destruct (calmly_tail _ _ _ C) as (Nq & _). destruct (fine_run st q F Nq) as (I1 & _). assert (Ex1 : nth_error (snd (run st q)) x = Some i) by now apply run_env.
    assert (V : vok (heap (fst (run st q))) i) by (destruct I1 as [_ Fv]; rewrite Forall_forall in Fv; apply Fv; eapply nth_error_In; eauto).
    destruct (vdata_ok o (fst (run st q)) i (proj1 I1) V ltac:(unfold readable; now rewrite K)) as (d & D).
    pose proof (read_ok mexp (run st q) (OValue x) o x i d eq_refl Ex1 D) as R. rewrite E1 in R. cbn [snd] in R. pose proof (kind_vdata _ _ _ _ D) as Kd. rewrite K in Kd. destruct d; try discriminate Kd. cbn in R. injection R as ->.
    eexists. split; [reflexivity|]. eapply found_reading with (st := run st q) (x := x); eauto; [destruct i; try discriminate K; exact Logic.I|reflexivity|now left].
  - peel H n g1 ss1 st1 H1. destruct (ends_ret _ _ _ _ _ _ _ H) as (-> & -> & -> & ->). destruct (ends_ask_f _ _ _ _ _ _ _ H1) as (q & o & r1 & -> & -> & E1 & ->).
    destruct (calmly_tail _ _ _ C) as (Nq & _). destruct (fine_run st q F Nq) as (I1 & _). assert (Ex1 : nth_error (snd (run st q)) x = Some i) by now apply run_env.
    assert (V : vok (heap (fst (run st q))) i) by (destruct I1 as [_ Fv]; rewrite Forall_forall in Fv; apply Fv; eapply nth_error_In; eauto).
    destruct (vdata_ok o (fst (run st q)) i (proj1 I1) V ltac:(unfold readable; now rewrite K)) as (d & D).
    pose proof (read_ok mexp (run st q) (OValue x) o x i d eq_refl Ex1 D) as R. rewrite E1 in R. cbn [snd] in R. pose proof (kind_vdata _ _ _ _ D) as Kd. rewrite K in Kd. destruct d; try discriminate Kd. cbn [read_data] in R. injection R as ->.
    eexists. split; [reflexivity|]. eapply found_reading with (st := run st q) (x := x); eauto; [destruct i; try discriminate K; exact Logic.I|reflexivity|now left].
  - (* health checks *) destruct health; cbn [negb].
    2: { destruct (ends_ret _ _ _ _ _ _ _ H) as (-> & -> & _). auto. }
    peel H u g1 ss1 st1 H1. peel H e g2 ss2 st2 H2. destruct (ends_ret _ _ _ _ _ _ _ H) as (-> & -> & -> & ->).
    destruct (ends_call _ _ _ _ _ _ _ H1) as (q1 & o1 & -> & -> & E1 & _). destruct (ends_call _ _ _ _ _ _ _ H2) as (q2 & o2 & -> & -> & E2 & _).
    eexists. split; [reflexivity|]. split; [now rewrite K|]. rewrite K. exists x, (run st q1), (run st1 q2), o1, o2, q2. split; [reflexivity|]. split; [now apply run_env|]. split.
    + cbn. now rewrite E1.
    + cbn [tells]. rewrite E2. cbn [snd]. f_equal. f_equal. assert (exists e0, snd e = RErr e0) as (e0 & ->); [|reflexivity].
      unfold World.step in E2. cbn [fst snd World.call] in E2. assert (Ex2 : nth_error (snd (run st1 q2)) x = Some i).
      { apply run_env. replace st1 with (fst (step (run st q1) (OCheck x, o1))) by now rewrite E1. apply step_env. now apply run_env. }
      rewrite Ex2 in E2. cbn [obind] in E2. unfold World.only in E2. rewrite K in E2. cbn [class_eqb] in E2.
      match type of E2 with context [bind ?m ?f ?a ?b] => destruct (m a b) as [w' [sv|msg]] eqn:Em; [rewrite (bind_ok m f a b w' sv Em) in E2|rewrite (bind_panic m f a b w' msg Em) in E2; discriminate] end. unfold ret in E2. injection E2 as _ <-. eauto.
  - (* histograms *) peel H sv g1 ss1 st1 H1. destruct (ends_call _ _ _ _ _ _ _ H1) as (q & o & -> & -> & E1 & Y1). destruct (calmly_tail _ _ _ C) as (Nq & C1). clear C. rename C1 into C.
    pose proof (fine_run st q F Nq) as F1. assert (Ex1 : nth_error (snd (run st q)) x = Some i) by now apply run_env.
    destruct (snapshot_taken _ _ _ _ _ _ F1 Ex1 E1) as (s & d & D & Hd & Sn & Cs). rewrite <- Y1 in Hd. set (y := fst sv) in *. clearbody y. clear H1.
    peel H pq g2 ss2 st2 H2. destruct (ends_call _ _ _ _ _ _ _ H2) as (q2 & o2 & -> & -> & E2 & _). destruct (calmly_tail _ _ _ C) as (Nq2 & C1). clear C. rename C1 into C.
    destruct (percentiles_asked _ _ _ _ _ _ _ _ _ Nq2 Hd ltac:(left; congruence) E2) as (Hd2 & xs & qs & Dx & Ps & Rp). clear Hd H2. rename Hd2 into Hd. pose proof (dsort_sorted d) as S.
    pose proof (kind_vdata _ _ _ _ D) as Kd. rewrite K in Kd. destruct d as [| | | |c xs'| | |]; try discriminate Kd. cbn in Dx. injection Dx as <-. cbn [dsort] in *.
    ask H C Hd S. ask H C Hd S. ask H C Hd S. ask H C Hd S. ask H C Hd S. destruct (ends_ret _ _ _ _ _ _ _ H) as (-> & -> & -> & ->).
    eexists. split; [reflexivity|]. eapply found_reading with (st := run st q) (x := x) (o := o); eauto; [apply F1| |now left].
    cbn [reading_of]. exists qs. split; [exact Ps|]. f_equal; auto; [apply (stat_min xs')|apply (stat_max xs')|apply (stat_mean xs')].
  - (* meters *) peel H sv g1 ss1 st1 H1. destruct (ends_call _ _ _ _ _ _ _ H1) as (q & o & -> & -> & E1 & Y1). destruct (calmly_tail _ _ _ C) as (Nq & C1). clear C. rename C1 into C.
    pose proof (fine_run st q F Nq) as F1. assert (Ex1 : nth_error (snd (run st q)) x = Some i) by now apply run_env.
    destruct (snapshot_taken _ _ _ _ _ _ F1 Ex1 E1) as (s & d & D & Hd & Sn & Cs). rewrite <- Y1 in Hd. set (y := fst sv) in *. clearbody y. clear H1.
    pose proof (kind_vdata _ _ _ _ D) as Kd. rewrite K in Kd. destruct d as [| | | | | |m|]; try discriminate Kd. assert (S : dsorted (DMeter m)) by exact Logic.I.
    ask H C Hd S. ask H C Hd S. ask H C Hd S. ask H C Hd S. ask H C Hd S. destruct (ends_ret _ _ _ _ _ _ _ H) as (-> & -> & -> & ->).
    eexists. split; [reflexivity|]. eapply found_reading with (st := run st q) (x := x) (o := o); eauto; [apply F1|reflexivity|now left].
  - (* timers *) peel H sv g1 ss1 st1 H1. destruct (ends_call _ _ _ _ _ _ _ H1) as (q & o & -> & -> & E1 & Y1). destruct (calmly_tail _ _ _ C) as (Nq & C1). clear C. rename C1 into C.
    pose proof (fine_run st q F Nq) as F1. assert (Ex1 : nth_error (snd (run st q)) x = Some i) by now apply run_env.
    destruct (snapshot_taken _ _ _ _ _ _ F1 Ex1 E1) as (s & d & D & Hd & Sn & Cs). rewrite <- Y1 in Hd. set (y := fst sv) in *. clearbody y. clear H1.
    peel H pq g2 ss2 st2 H2. destruct (ends_call _ _ _ _ _ _ _ H2) as (q2 & o2 & -> & -> & E2 & _). destruct (calmly_tail _ _ _ C) as (Nq2 & C1). clear C. rename C1 into C.
    destruct (percentiles_asked _ _ _ _ _ _ _ _ _ Nq2 Hd ltac:(right; congruence) E2) as (Hd2 & xs & qs & Dx & Ps & Rp). clear Hd H2. rename Hd2 into Hd. pose proof (dsort_sorted d) as S.
    pose proof (kind_vdata _ _ _ _ D) as Kd. rewrite K in Kd. destruct d as [| | | | | | |c xs' m]; try discriminate Kd. cbn in Dx. injection Dx as <-. cbn [dsort] in *.
    ask H C Hd S. ask H C Hd S. ask H C Hd S. ask H C Hd S. ask H C Hd S. ask H C Hd S. ask H C Hd S. ask H C Hd S. ask H C Hd S. destruct (ends_ret _ _ _ _ _ _ _ H) as (-> & -> & -> & ->).
    eexists. split; [reflexivity|]. eapply found_reading with (st := run st q) (x := x) (o := o); eauto; [apply F1| |now left].
    cbn [reading_of]. exists qs. split; [exact Ps|]. f_equal; auto; [apply (stat_min xs')|apply (stat_max xs')|apply (stat_mean xs')].
Qed.

(** ** all metrics *)
(** what is said of one metric does not depend on what else is there *)
Definition visiting {A} (visit : string -> nat -> L (list A)) (P : string -> val -> list state -> list A -> Prop) : Prop :=
  (exists runs, forall nm x, weaves (ReadOnlySpec.reading_call runs) (visit nm x)) /\
  forall nm x i g st out ss g' st', fine st -> calmly g -> nth_error (snd st) x = Some i -> is_metric i = true -> ends (visit nm x) g st out ss g' st' -> P nm i ss out.
Lemma each_live {A} (visit : string -> nat -> L (list A)) P : visiting visit P -> forall es is_ g st out ss g' st', fine st -> calmly g ->
  Forall2 (fun e i => nth_error (snd st) (snd e) = Some i /\ is_metric i = true) es is_ -> ends (live_each visit es) g st out ss g' st' ->
  exists segs outs, ss = List.concat segs /\ out = List.concat outs /\ Forall2 (fun ei so => P (fst ei) (snd ei) (fst so) (snd so)) (combine (map fst es) is_) (combine segs outs) /\ List.length segs = List.length es /\ List.length outs = List.length es.
Proof.
  intros ((runs & W) & V). induction es as [|[nm x] es IH]; intros is_ g st out ss g' st' F C Fa H; cbn [live_each] in H.
  - destruct (ends_ret _ _ _ _ _ _ _ H) as (-> & -> & _). inversion Fa; subst. exists [], []. cbn. auto.
  - peel H a g1 ss1 st1 H1. inversion Fa as [|e0 i0 es0 is0 (Ei & Mi) Fr]; subst. destruct (after runs _ _ _ _ _ _ _ (W nm x) F C H1) as (F1 & C1 & (p & ->)).
    cbn [snd] in Ei. pose proof (V _ _ _ _ _ _ _ _ _ F C Ei Mi H1) as P1.
    peel H rest g2 ss2 st2 H2. destruct (ends_ret _ _ _ _ _ _ _ H) as (-> & -> & -> & ->).
    destruct (IH _ _ _ _ _ _ _ F1 C1 (forall2_impl _ _ _ _ (fun e i Q => conj (run_env mexp p st _ _ (proj1 Q)) (proj2 Q)) Fr) H2) as (segs & outs & -> & -> & Fo & L1 & L2).
    exists (ss1 :: segs), (a :: outs). rewrite app_nil_r. split; [reflexivity|]. split; [reflexivity|]. split; [|cbn; auto]. cbn. constructor; [exact P1|exact Fo].
Qed.
Lemma places_ok : forall es env n, (forall k i, nth_error (map snd es) k = Some i -> nth_error env (n + k) = Some i) ->
  Forall2 (fun e (kv : string * val) => fst e = fst kv /\ nth_error env (snd e) = Some (snd kv)) (places n es) es.
Proof.
  induction es as [|[nm i] es IH]; intros env n H; cbn [places]; constructor.
  - cbn. split; auto. specialize (H 0 i eq_refl). now rewrite Nat.add_0_r in H.
  - apply IH. intros k j Hj. specialize (H (S k) j Hj). now rewrite Nat.add_succ_r in H.
Qed.
Lemma visit_live {A} (visit : string -> nat -> L (list A)) P arrange r v b g st out : visiting visit P -> (forall l, Permutation (arrange l) l) -> fine st -> calmly g -> nth_error (snd st) r = Some v -> base v = Some b ->
  outcome (live_visit mexp visit arrange r g st) = Some (Ok out) ->
  exists s0 entries segs outs, acted (live_visit mexp visit arrange r g st) = s0 :: List.concat segs /\ out = List.concat outs /\
    visits s0 v (map fst entries) /\ Forall (fun e => shown s0 v (fst e) = Some (snd e)) entries /\
    Forall2 (fun e so => P (fst e) (snd e) (fst so) (snd so)) entries (combine segs outs) /\ List.length segs = List.length outs /\
    exists l0, map fst entries = map fst (arrange l0).
Proof.
  intros V Ar F C Er B H. pose proof (ends_of _ _ _ _ H) as E. clear H. set (x := live_visit mexp visit arrange r g st) in *. clearbody x. destruct x as [lf ac en oc]. cbn [acted left at_end] in *. unfold live_visit in E.
  peel E es g1 ss1 st1 H1. destruct (ends_call _ _ _ _ _ _ _ H1) as (q & o & -> & -> & E1 & Y1). destruct (calmly_tail _ _ _ C) as (Nq & C1). pose proof (fine_run st q F Nq) as F1. set (s0 := run st q) in *.
  assert (Er1 : nth_error (snd s0) r = Some v) by now apply run_env. assert (I0 : inv s0) by apply F1.
  assert (Vv : vok (heap (fst s0)) v) by (destruct I0 as [_ Fv]; rewrite Forall_forall in Fv; apply Fv; eapply nth_error_In; eauto).
  destruct (reg_each_run s0 v b o I0 Vv B) as (l & R & ND & Sh & Fl).
  assert (X : snd es = RPairs l /\ st1 = (fst s0, snd s0 ++ map snd l)).
  { unfold World.step in E1. cbn [fst snd World.call] in E1. rewrite Er1 in E1. cbn [obind] in E1. unfold World.only in E1. assert (Kv : class_eqb (cls v) CReg = true) by (destruct v; try discriminate B; reflexivity). rewrite Kv in E1.
    rewrite (bind_ok _ _ _ _ _ _ R) in E1. unfold ret in E1. injection E1 as E1 E2. split; [congruence|]. rewrite <- E1. reflexivity. }
  destruct X as (X1 & X2). rewrite X1, Y1 in E. cbn [rv_pairs] in E.
  assert (Fs : fine st1) by (replace st1 with (fst (step s0 (OEach r, o))) by (now rewrite E1); apply fine_step; [exact F1|exact Logic.I]).
  assert (Pl : Forall2 (fun e (kv : string * val) => fst e = fst kv /\ nth_error (snd st1) (snd e) = Some (snd kv)) (places (List.length (snd s0)) l) l).
  { apply places_ok. intros k i Hk. rewrite X2. cbn [snd]. rewrite nth_error_app2 by lia. now replace (List.length (snd s0) + k - List.length (snd s0)) with k by lia. }
  assert (exists l', Permutation l' l /\ Forall2 (fun e (kv : string * val) => fst e = fst kv /\ nth_error (snd st1) (snd e) = Some (snd kv)) (arrange (places (List.length (snd s0)) l)) l') as (l' & Pm & Pl').
  { destruct (Permutation_Forall2 (Permutation_sym (Ar (places (List.length (snd s0)) l))) Pl) as (l' & Q1 & Q2). exists l'. split; [now apply Permutation_sym|exact Q2]. }
  assert (Fl' : Forall (fun kv => is_metric (snd kv) = true /\ vok (heap (fst s0)) (snd kv)) l').
  { rewrite Forall_forall in Fl |- *. intros kv Hk. apply Fl. eapply Permutation_in; eauto. }
  assert (Nm : exists l0, map fst l' = map fst (arrange l0)).
  { exists (places (List.length (snd s0)) l). clear - Pl'. induction Pl' as [|e kv ar l' (Q1 & Q2) Pl' IH]; cbn; congruence. }
  set (ar := arrange (places (List.length (snd s0)) l)) in *. clearbody ar.
  assert (Fa : Forall2 (fun e i => nth_error (snd st1) (snd e) = Some i /\ is_metric i = true) ar (map snd l')).
  { clear - Pl' Fl'. induction Pl' as [|e kv ar l' (Q1 & Q2) Pl' IH]; cbn; constructor; inversion Fl'; subst; intuition. }
  assert (Ec : combine (map fst ar) (map snd l') = l').
  { clear - Pl'. induction Pl' as [|e [nm i] ar l' (Q1 & Q2) Pl' IH]; cbn in *; congruence. }
  destruct (each_live visit P V ar (map snd l') g1 st1 out _ lf en Fs C1 Fa E) as (segs & outs & -> & -> & Fo & L1 & L2). rewrite Ec in Fo.
  exists s0, l', segs, outs. split; [reflexivity|]. split; [reflexivity|]. split; [|split; [|split; [exact Fo|split; [congruence|exact Nm]]]].
  - split.
    + eapply Permutation_NoDup; [|exact ND]. apply Permutation_map. now apply Permutation_sym.
    + intros nm. split.
      * intros Hn. apply in_map_iff in Hn. destruct Hn as ([n i] & <- & Hn). apply (Permutation_in _ Pm) in Hn. apply Sh in Hn. cbn. congruence.
      * intros Hn. destruct (shown s0 v nm) as [i|] eqn:Si; [|congruence]. apply Sh in Si. apply (Permutation_in _ (Permutation_sym Pm)) in Si. apply (in_map fst) in Si. exact Si.
  - rewrite Forall_forall. intros [nm i] Hn. apply (Permutation_in _ Pm) in Hn. now apply Sh.
Qed.
Lemma report_visiting {A} health ps (render : string -> reading -> res (list A)) :
  visiting (fun name x => lbind (live_read mexp health ps x) (fun d => match d with Some d => lres (render name d) | None => lret [] end)) (covered mexp health ps render).
Proof.
  split.
  - exists health. intros nm x. apply weaves_bind; [apply weaves_read|intros; wvs].
  - intros nm x i g st out ss g' st' F C Ex Mt H. peel H d g1 ss1 st1 H1. pose proof (live_reading _ _ _ _ _ _ _ _ _ _ F C Ex Mt H1) as R. unfold covered. destruct (class_eqb (cls i) CHealth && negb health).
    + destruct R as (-> & ->). destruct (ends_ret _ _ _ _ _ _ _ H) as (-> & -> & _). auto.
    + destruct R as (rd & -> & Fd). destruct (ends_res _ _ _ _ _ _ _ H) as (Rr & -> & _). exists rd. rewrite app_nil_r. auto.
Qed.

(** ** GetAll *)
Lemma forall2_five {A B} (R : A -> B -> Prop) a b c d e q : Forall2 R [a; b; c; d; e] q ->
  exists v w x y z, q = [v; w; x; y; z] /\ R a v /\ R b w /\ R c x /\ R d y /\ R e z.
Proof. intros F. repeat match goal with H : Forall2 _ (_ :: _) _ |- _ => inversion H; clear H; subst end. match goal with H : Forall2 _ [] _ |- _ => inversion H; subst end. eauto 12. Qed.
Lemma fields_told (Q : op -> rv -> Prop) x rd : about rd <> CHealth -> tells Q x ps5 rd ->
  Forall2 (fun (kg : string * gval) (ka : string * op) => fst kg = fst ka /\ Q (snd ka) (as_result (snd kg))) (getall_fields rd) (accessors (about rd) x).
Proof.
  intros N. destruct rd; cbn [tells about] in *; try contradiction; unfold getall_fields, accessors; try (intros H; repeat constructor; auto; fail).
  - intros (H1 & H2 & H3 & H4 & H5 & F). apply forall2_five in F. destruct F as (v1 & v2 & v3 & v4 & v5 & -> & F1 & F2 & F3 & F4 & F5).
    unfold dist_fields, distribution. repeat (constructor; [split; [reflexivity|assumption]|]). constructor.
  - intros (H1 & H2 & H3 & H4 & H5). repeat constructor; auto.
  - intros ((H1 & H2 & H3 & H4 & H5 & F) & R1 & R2 & R3 & R4). apply forall2_five in F. destruct F as (v1 & v2 & v3 & v4 & v5 & -> & F1 & F2 & F3 & F4 & F5).
    unfold dist_fields, rate_fields, distribution, rates. cbn [app]. repeat (constructor; [split; [reflexivity|assumption]|]). constructor.
Qed.
Lemma get_all_visiting : visiting (fun name x => lbind (live_get_all_one mexp x) (fun fs => lret [(name, fs)])) (fun nm i seg out => exists fs, out = [(nm, fs)] /\ listed mexp i seg fs).
Proof.
  split.
  - exists true. intros nm x. apply weaves_bind; [apply weaves_get_all_one|intros; wvs].
  - intros nm x i g st out ss g' st' F C Ex Mt H. peel H fs gA ssA stA HA. destruct (ends_ret _ _ _ _ _ _ _ H) as (-> & -> & -> & ->). exists fs. split; [reflexivity|]. rewrite app_nil_r. clear H.
    rename HA into H. unfold live_get_all_one in H. peel H k g0 ss0 st0 H0. destruct (ends_kind _ _ _ _ _ _ _ H0) as (-> & -> & -> & ->). rewrite Ex in H. clear H0. cbn [app]. unfold listed.
    destruct (class_eqb (cls i) CHealth) eqn:Ch.
    + assert (K : cls i = CHealth) by (destruct (cls i); try discriminate Ch; reflexivity). rewrite K in H |- *. clear Ch.
      peel H u g1 ss1 st1 H1. peel H e g2 ss2 st2 H2. destruct (ends_call _ _ _ _ _ _ _ H1) as (q1 & o1 & -> & -> & E1 & _). destruct (ends_call _ _ _ _ _ _ _ H2) as (q2 & o2 & -> & -> & E2 & _).
      assert (Xn : forall q0, nth_error (snd (run st1 q0)) x = Some i). { intros q0. apply run_env. replace st1 with (fst (step (run st q1) (OCheck x, o1))) by now rewrite E1. apply step_env. now apply run_env. }
      assert (Er : forall (sta : state) o stb rr, nth_error (snd sta) x = Some i -> step sta (OError x, o) = (stb, Some (Ok rr)) -> exists e0, rr = RErr e0).
      { intros sta o stb rr Ex2 E3. unfold World.step in E3. cbn [fst snd World.call] in E3. rewrite Ex2 in E3. cbn [obind] in E3. unfold World.only in E3. rewrite K in E3. cbn [class_eqb] in E3.
        match type of E3 with context [bind ?m ?f ?a ?b] => destruct (m a b) as [w' [sv|msg]] eqn:Em; [rewrite (bind_ok m f a b w' sv Em) in E3|rewrite (bind_panic m f a b w' msg Em) in E3; discriminate] end. unfold ret in E3. injection E3 as _ <-. eauto. }
      destruct (Er _ _ _ _ (Xn q2) E2) as (e0 & Ee). rewrite Ee in *. cbn [rv_err] in H. destruct e0 as [e0|].
      * peel H e3 g3 ss3 st3 H3. destruct (ends_call _ _ _ _ _ _ _ H3) as (q3 & o3 & -> & -> & E3 & _).
        assert (Xm : nth_error (snd (run st2 q3)) x = Some i). { apply run_env. replace st2 with (fst (step (run st1 q2) (OError x, o2))) by now rewrite E2. apply step_env. apply Xn. }
        destruct (Er _ _ _ _ Xm E3) as (e4 & Ee4). rewrite Ee4 in *. cbn [rv_err] in H. destruct e4 as [e4|]; [|destruct (ends_res _ _ _ _ _ _ _ H) as (Z & _); discriminate Z].
        destruct (ends_ret _ _ _ _ _ _ _ H) as (-> & -> & -> & ->). exists x, (run st q1), (run st2 q3), o1, o3, (q2 ++ (OError x, o2) :: q3), (Some e4).
        split; [now left|]. split; [right; right; now left|]. split; [now apply run_env|]. split; [|split; [now rewrite E3|reflexivity]].
        rewrite (run_cons mexp _ (OCheck x, o1)), E1, run_app, run_cons. cbn [fst]. now rewrite E2.
      * destruct (ends_ret _ _ _ _ _ _ _ H) as (-> & -> & -> & ->). exists x, (run st q1), (run st1 q2), o1, o2, q2, None.
        split; [now left|]. split; [right; now left|]. split; [now apply run_env|]. split; [|split; [now rewrite E2|reflexivity]]. rewrite (run_cons mexp _ (OCheck x, o1)), E1. reflexivity.
    + match type of H with ends _ ?ga ?sa _ ?xa _ _ => set (g0 := ga) in *; set (st0 := sa) in *; set (x2 := xa) in * end.
      assert (Hn : cls i <> CHealth) by (intros E; rewrite E in Ch; discriminate).
      assert (H' : exists gx stx ssx d, ends (live_read mexp true ps5 x) g0 st0 d ssx gx stx /\ fs = match d with Some d => getall_fields d | None => [] end /\ x2 = ssx).
      { destruct (cls i) eqn:K; try contradiction; (peel H d gx ssx stx H1; destruct (ends_ret _ _ _ _ _ _ _ H) as (-> & -> & -> & ->); exists gx, stx, ssx, d; rewrite app_nil_r; auto). }
      destruct H' as (gx & stx & ssx & d & H1 & -> & ->). pose proof (live_reading true ps5 x i g0 st0 d ssx gx stx F C Ex Mt H1) as R. rewrite Ch in R. cbn [andb] in R. destruct R as (rd & -> & Ab & Fd).
      assert (Fd' : exists y s o, In s ssx /\ nth_error (snd s) y = Some i /\ tells (fun c a => answer mexp s o ps5 y c = Some (Ok a)) y ps5 rd) by (destruct (cls i); try contradiction; exact Fd).
      destruct Fd' as (y & s & o & Hin & Ey & T). rewrite <- Ab in *. pose proof (fields_told (fun c a => answer mexp s o ps5 y c = Some (Ok a)) y rd Hn T) as T'.
      destruct (about rd); try contradiction; exists y, s, o; auto.
Qed.
End Live.
