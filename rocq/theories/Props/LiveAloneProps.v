(** Property C72: reports that are left alone.  If the rest of the process does nothing while a
    report is made, the report made of single calls (Model/Live.v) is the report made in one
    step (Model/Report.v): the same result, be it a panic, and the same world afterwards.  So
    what is proved of the latter (C45, C46, C59 to C61) is about the same code. *)
From Coq Require Import ZArith List String Bool Lia Permutation.
From Verif.Model Require Import GoInt GoFloat GoBase Stats World Fmt Report.
From Verif.Spec Require Import ApiSpec RegistrySpec HealthSpec GetAllSpec TextSpec ReportSpec ReadOnlySpec.
From Verif.Proofs Require Import WorldBase WorldStep HealthProofs ReportProofs JsonProofs.
From Verif.Props Require Import SnapshotProps HealthProps GetAllProps ReportProps LiveProps.
From Verif.Model Require Import Live.
Import ListNotations.
Local Open Scope string_scope.
Local Open Scope list_scope.
Local Open Scope nat_scope.

(** nothing happens [n] times; each call sees [o] *)
Definition nothing (o : orc) (n : nat) : list gap := repeat ([], o) n.

Section Alone.
Variable mexp : f64 -> f64.
Variable o : orc.
Definition ext (e e' : env) : Prop := forall x v, nth_error e x = Some v -> nth_error e' x = Some v.
Lemma ext_refl e : ext e e. Proof. intros x v H; exact H. Qed.
Lemma ext_trans a b c : ext a b -> ext b c -> ext a c. Proof. intros H1 H2 x v H. auto. Qed.
Lemma ext_app e l : ext e (e ++ l).
Proof. intros x v H. rewrite nth_error_app1; [exact H|]. apply nth_error_Some. congruence. Qed.
(** [lm] started with the values [e] does what [m] does; the results are related by [R] *)
Definition alone {A B} (lm : L A) (m : M B) (e : env) (R : A -> B -> env -> Prop) : Prop :=
  forall w, exists k ss e',
    match m o w with
    | (w', Ok b) => exists a, R a b e' /\ ext e e' /\ forall n, lm (nothing o (k + n)) (w, e) = MkExec (nothing o n) ss (w', e') (Some (Ok a))
    | (w', Panic msg) => forall n, lm (nothing o (k + n)) (w, e) = MkExec (nothing o n) ss (w', e') (Some (Panic msg))
    end.
Definition same {A} (a b : A) (_ : env) : Prop := a = b.
Lemma alone_ret {A B} (a : A) (b : B) e (R : A -> B -> env -> Prop) : R a b e -> alone (lret a) (ret b) e R.
Proof. intros H w. exists 0, [], e. unfold ret. exists a. split; [exact H|]. split; [apply ext_refl|]. reflexivity. Qed.
Lemma alone_res {A} (r : res A) e : alone (lres r) (lift r) e same.
Proof. intros w. exists 0, [], e. unfold lift. destruct r as [a|msg]; [|reflexivity]. exists a. split; [reflexivity|]. split; [apply ext_refl|]. reflexivity. Qed.
Lemma alone_bind {A B C D} (lm : L A) (m : M B) (lf : A -> L C) (f : B -> M D) e R R' : alone lm m e R ->
  (forall a b e', ext e e' -> R a b e' -> alone (lf a) (f b) e' R') -> alone (lbind lm lf) (bind m f) e R'.
Proof.
  intros H Hf w. destruct (H w) as (k & ss & e' & X). destruct (m o w) as [w1 [b|msg]] eqn:Em.
  - rewrite (bind_ok _ _ _ _ _ _ Em). destruct X as (a & Ra & E & X). destruct (Hf a b e' E Ra w1) as (k2 & ss2 & e2 & Y). exists (k + k2), (ss ++ ss2), e2.
    assert (Z : forall n, lbind lm lf (nothing o (k + k2 + n)) (w, e) = let r2 := lf a (nothing o (k2 + n)) (w1, e') in MkExec (left r2) (ss ++ acted r2) (at_end r2) (outcome r2)).
    { intros n. unfold lbind. rewrite <- Nat.add_assoc, X. reflexivity. }
    destruct (f b o w1) as [w2 [d|msg]].
    + destruct Y as (c & Rc & E2 & Y). exists c. split; [exact Rc|]. split; [eapply ext_trans; eauto|]. intros n. now rewrite Z, Y.
    + intros n. now rewrite Z, Y.
  - rewrite (bind_panic _ _ _ _ _ _ Em). exists k, ss, e'. intros n. unfold lbind. now rewrite X.
Qed.
(** [lbind] is associative *)
Lemma alone_assoc {A B C D} (l1 : L A) (l2 : A -> L B) (l3 : B -> L C) (m : M D) e R : alone (lbind l1 (fun a => lbind (l2 a) l3)) m e R -> alone (lbind (lbind l1 l2) l3) m e R.
Proof.
  assert (Z : forall g st, lbind (lbind l1 l2) l3 g st = lbind l1 (fun a => lbind (l2 a) l3) g st).
  { intros g st. unfold lbind. destruct (l1 g st) as [g1 s1 t1 [[a|msg]|]]; cbn [outcome left at_end acted]; try reflexivity. destruct (l2 a g1 t1) as [g2 s2 t2 [[b|msg]|]]; cbn [outcome left at_end acted]; try reflexivity. now rewrite app_assoc. }
  intros H w. destruct (H w) as (k & ss & e' & X). exists k, ss, e'. destruct (m o w) as [w1 [d|msg]].
  - destruct X as (c & Rc & E & X). exists c. split; [exact Rc|]. split; [exact E|]. intros n. now rewrite Z.
  - intros n. now rewrite Z.
Qed.
Lemma alone_left {A B C} (a : A) (f : A -> L B) (m : M C) e R : alone (f a) m e R -> alone (lbind (lret a) f) m e R.
Proof.
  assert (Z : forall g st, lbind (lret a) f g st = f a g st) by (intros g st; unfold lbind, lret; cbn; now destruct (f a g st)).
  intros H w. destruct (H w) as (k & ss & e' & X). exists k, ss, e'. destruct (m o w) as [w1 [d|msg]].
  - destruct X as (c & Rc & E & X). exists c. split; [exact Rc|]. split; [exact E|]. intros n. now rewrite Z.
  - intros n. now rewrite Z.
Qed.
Lemma alone_kind {A B} x v (f : class -> L A) (m : M B) e R : nth_error e x = Some v -> alone (f (cls v)) m e R -> alone (lbind (kind_at x) f) m e R.
Proof.
  intros E H w. destruct (H w) as (k & ss & e' & X). exists k, ss, e'.
  assert (Z : forall n, lbind (kind_at x) f (nothing o n) (w, e) = f (cls v) (nothing o n) (w, e)).
  { intros n. unfold lbind, kind_at. cbn [outcome left at_end acted fst snd app]. rewrite E. now destruct (f (cls v) (nothing o n) (w, e)). }
  destruct (m o w) as [w1 [b|msg]].
  - destruct X as (a & Ra & Ex & X). exists a. split; [exact Ra|]. split; [exact Ex|]. intros n. now rewrite Z.
  - intros n. now rewrite Z.
Qed.
Lemma alone_call c m e : World.call mexp e c = Some m -> alone (Live.call mexp c) m e (fun a r e' => snd a = r /\ fst a = List.length e /\ e' = e ++ yields r).
Proof.
  intros C w. destruct (m o w) as [w1 [r|msg]] eqn:Em.
  - exists 1, [(w, e)], (e ++ yields r). exists (List.length e, r). split; [auto|]. split; [apply ext_app|]. intros n. unfold Live.call. cbn [nothing repeat Nat.add run fold_left]. unfold step. cbn [fst snd]. now rewrite C, Em.
  - exists 1, [(w, e)], e. intros n. unfold Live.call. cbn [nothing repeat Nat.add run fold_left]. unfold step. cbn [fst snd]. now rewrite C, Em.
Qed.
(** a map over the result on the right *)
Lemma alone_post {A B C} (lm : L A) (m : M B) (g : B -> C) e (R : A -> C -> env -> Prop) : alone lm (bind m (fun b => ret (g b))) e R -> alone lm m e (fun a b e' => R a (g b) e').
Proof.
  intros H w. destruct (H w) as (k & ss & e' & X). exists k, ss, e'. destruct (m o w) as [w1 [b|msg]] eqn:Em.
  - rewrite (bind_ok _ _ _ _ _ _ Em) in X. exact X.
  - rewrite (bind_panic _ _ _ _ _ _ Em) in X. exact X.
Qed.
Lemma alone_weaken {A B} (lm : L A) (m : M B) e (R R' : A -> B -> env -> Prop) : alone lm m e R -> (forall a b e', R a b e' -> R' a b e') -> alone lm m e R'.
Proof. intros H I w. destruct (H w) as (k & ss & e' & X). exists k, ss, e'. destruct (m o w) as [w1 [b|msg]]; [|exact X]. destruct X as (a & Ra & X). exists a. split; auto. Qed.
Lemma alone_ask_z c m e : World.call mexp e c = Some (z_rv m) -> alone (ask_z mexp c) m e same.
Proof.
  intros C. apply (alone_post _ _ RZ e (fun a r _ => a = rv_z r)). intros w. destruct (alone_call c _ e C w) as (k & ss & e' & X). exists k, ss, e'. change (bind m (fun b => ret (RZ b)) o w) with (z_rv m o w). destruct (z_rv m o w) as [w1 [r|msg]].
  - destruct X as (a & (<- & _) & E & X). exists (rv_z (snd a)). split; [reflexivity|]. split; [exact E|]. intros n. unfold ask_z, lbind. rewrite X. cbn. now rewrite app_nil_r.
  - intros n. unfold ask_z, lbind. now rewrite X.
Qed.
Lemma alone_ask_f c m e : World.call mexp e c = Some (f_rv m) -> alone (ask_f mexp c) m e same.
Proof.
  intros C. apply (alone_post _ _ RF e (fun a r _ => a = rv_f r)). intros w. destruct (alone_call c _ e C w) as (k & ss & e' & X). exists k, ss, e'. change (bind m (fun b => ret (RF b)) o w) with (f_rv m o w). destruct (f_rv m o w) as [w1 [r|msg]].
  - destruct X as (a & (<- & _) & E & X). exists (rv_f (snd a)). split; [reflexivity|]. split; [exact E|]. intros n. unfold ask_f, lbind. rewrite X. cbn. now rewrite app_nil_r.
  - intros n. unfold ask_f, lbind. now rewrite X.
Qed.
Lemma alone_stat_z c m e : World.call mexp e c = Some m -> alone (ask_z mexp c) m e (fun a r _ => a = rv_z r).
Proof.
  intros C w. destruct (alone_call c _ e C w) as (k & ss & e' & X). exists k, ss, e'. destruct (m o w) as [w1 [r|msg]].
  - destruct X as (a & (<- & _) & E & X). exists (rv_z (snd a)). split; [reflexivity|]. split; [exact E|]. intros n. unfold ask_z, lbind. rewrite X. cbn. now rewrite app_nil_r.
  - intros n. unfold ask_z, lbind. now rewrite X.
Qed.
Lemma alone_stat_f c m e : World.call mexp e c = Some m -> alone (ask_f mexp c) m e (fun a r _ => a = rv_f r).
Proof.
  intros C w. destruct (alone_call c _ e C w) as (k & ss & e' & X). exists k, ss, e'. destruct (m o w) as [w1 [r|msg]].
  - destruct X as (a & (<- & _) & E & X). exists (rv_f (snd a)). split; [reflexivity|]. split; [exact E|]. intros n. unfold ask_f, lbind. rewrite X. cbn. now rewrite app_nil_r.
  - intros n. unfold ask_f, lbind. now rewrite X.
Qed.
Lemma alone_call_map {B} c (m : M B) (g : B -> rv) e : World.call mexp e c = Some (bind m (fun b => ret (g b))) ->
  alone (Live.call mexp c) m e (fun a b e' => snd a = g b /\ fst a = List.length e /\ e' = e ++ yields (g b)).
Proof. intros C. apply (alone_post _ _ g e (fun a r e' => snd a = r /\ fst a = List.length e /\ e' = e ++ yields r)). now apply alone_call. Qed.
Lemma alone_value c (m : M val) K e : World.call mexp e c = Some (v_rv m) -> (forall w w' s, m o w = (w', Ok s) -> cls s = K) ->
  alone (Live.call mexp c) m e (fun a s e' => nth_error e' (fst a) = Some s /\ cls s = K).
Proof.
  intros C Hk w. destruct (alone_call_map c m RVal e C w) as (k & ss & e' & X). exists k, ss, e'. destruct (m o w) as [w1 [s|msg]] eqn:Em; [|exact X].
  destruct X as (a & (_ & Ea & ->) & X). exists a. split; [|exact X]. split; [|now apply (Hk w w1)]. rewrite Ea. cbn [yields]. rewrite nth_error_app2 by lia. now rewrite Nat.sub_diag.
Qed.
Ltac runs H := repeat match type of H with bind ?m _ ?o ?w = _ => let X := fresh "X" in destruct (m o w) as [? [?|?]] eqn:X; [rewrite (bind_ok _ _ _ _ _ _ X) in H|rewrite (bind_panic _ _ _ _ _ _ X) in H; discriminate H] | (match ?x with _ => _ end) _ _ = _ => destruct x; try discriminate H end.
Lemma hist_snapshot_cls v w w' s : hist_snapshot v o w = (w', Ok s) -> cls s = CHist.
Proof. unfold hist_snapshot. intros H. destruct v; try discriminate H; try (injection H as _ <-; reflexivity). runs H. injection H as _ <-. reflexivity. Qed.
Lemma meter_snapshot_cls v w w' s : meter_snapshot v o w = (w', Ok s) -> cls s = CMeter.
Proof. unfold meter_snapshot. intros H. destruct v; try discriminate H; try (injection H as _ <-; reflexivity). runs H. injection H as _ <-. reflexivity. Qed.
Lemma timer_snapshot_cls v w w' s : timer_snapshot v o w = (w', Ok s) -> cls s = CTimer.
Proof. unfold timer_snapshot. intros H. destruct v; try discriminate H; try (injection H as _ <-; reflexivity). runs H. injection H as _ <-. reflexivity. Qed.
(** which call is made *)
Lemma call_at e c x v (f : val -> option (M rv)) : World.call mexp e c = obind (nth_error e x) f -> nth_error e x = Some v -> World.call mexp e c = f v.
Proof. intros -> ->. reflexivity. Qed.
Ltac called E K := etransitivity; [eapply call_at; [reflexivity|exact E]|]; unfold m_count, m_value, m_stat, m_percentiles, m_snapshot, only; rewrite K; reflexivity.
Ltac next lem E K := eapply alone_bind; [apply lem; called E K|]; let a := fresh "a" in let b := fresh "b" in let e' := fresh "e" in intros a b e' ? ?; unfold same in *; subst.

Ltac ask lem E K := eapply alone_bind; [apply lem; called E K|]; let a := fresh "a" in let b := fresh "b" in let e' := fresh "e" in let X := fresh "X" in intros a b e' X ?; apply X in E; clear X; unfold same in *; subst.
Lemma alone_read health ps x v e : nth_error e x = Some v -> alone (live_read mexp health ps x) (read_metric health ps v) e same.
Proof.
  intros E. unfold live_read, read_metric. apply alone_kind with (v := v); [exact E|]. destruct (cls v) eqn:K; try (now apply alone_ret).
  - next alone_ask_z E K. now apply alone_ret.
  - next alone_ask_z E K. now apply alone_ret.
  - next alone_ask_f E K. now apply alone_ret.
  - destruct health; [|now apply alone_ret].
    eapply alone_bind; [apply (alone_call_map (OCheck x) (health_check v) (fun _ => RUnit)); called E K|]. intros a b e' X _. apply X in E.
    eapply alone_bind; [apply (alone_call_map (OError x) (health_error v) RErr); called E K|]. intros a' b' e2 _ (-> & _). now apply alone_ret.
  - eapply alone_bind; [apply (alone_value (OSnapshot x) (hist_snapshot v) CHist); [called E K|apply hist_snapshot_cls]|]. intros a h e1 _ (Eh & Kh). cbv zeta. set (y := fst a) in *. clearbody y. clear E K.
    eapply alone_bind; [apply (alone_call_map (OPercentiles y ps) (hist_percentiles ps h) RFs); called Eh Kh|]. intros q qs e2 X (Q & _). apply X in Eh. clear X. rewrite Q. cbn [rv_fs].
    ask alone_ask_z Eh Kh. ask alone_stat_z Eh Kh. ask alone_stat_z Eh Kh. ask alone_stat_f Eh Kh. ask alone_stat_f Eh Kh. now apply alone_ret.
  - eapply alone_bind; [apply (alone_value (OSnapshot x) (meter_snapshot v) CMeter); [called E K|apply meter_snapshot_cls]|]. intros a h e1 _ (Eh & Kh). cbv zeta. set (y := fst a) in *. clearbody y. clear E K.
    ask alone_ask_z Eh Kh. ask alone_ask_f Eh Kh. ask alone_ask_f Eh Kh. ask alone_ask_f Eh Kh. ask alone_ask_f Eh Kh. now apply alone_ret.
  - eapply alone_bind; [apply (alone_value (OSnapshot x) (timer_snapshot v) CTimer); [called E K|apply timer_snapshot_cls]|]. intros a h e1 _ (Eh & Kh). cbv zeta. set (y := fst a) in *. clearbody y. clear E K.
    eapply alone_bind; [apply (alone_call_map (OPercentiles y ps) (timer_percentiles ps h) RFs); called Eh Kh|]. intros q qs e2 X (Q & _). apply X in Eh. clear X. rewrite Q. cbn [rv_fs].
    ask alone_ask_z Eh Kh. ask alone_stat_z Eh Kh. ask alone_stat_z Eh Kh. ask alone_stat_f Eh Kh. ask alone_stat_f Eh Kh.
    ask alone_ask_f Eh Kh. ask alone_ask_f Eh Kh. ask alone_ask_f Eh Kh. ask alone_ask_f Eh Kh. now apply alone_ret.
Qed.
(** places of values *)
Definition placed (e : env) (np : string * nat) (nv : string * val) : Prop := fst np = fst nv /\ nth_error e (snd np) = Some (snd nv).
Lemma places_placed es : forall e, Forall2 (placed (e ++ map snd es)) (places (List.length e) es) es.
Proof.
  induction es as [|[n v] es IH]; intros e; cbn [places map snd]; constructor.
  - split; [reflexivity|]. cbn [snd]. rewrite nth_error_app2 by lia. now rewrite Nat.sub_diag.
  - specialize (IH (e ++ [v])). rewrite app_length in IH. cbn [List.length] in IH. rewrite Nat.add_1_r, <- app_assoc in IH. exact IH.
Qed.
Lemma placed_ext e e' np es : ext e e' -> Forall2 (placed e) np es -> Forall2 (placed e') np es.
Proof. intros X F. eapply forall2_impl; [|exact F]. intros a b (H1 & H2). split; auto. Qed.
Lemma alone_each {A} health ps (render : string -> reading -> res (list A)) np es : forall e, Forall2 (placed e) np es ->
  alone (live_each (fun name x => lbind (live_read mexp health ps x) (fun d => match d with Some d => lres (render name d) | None => lret [] end)) np) (report_each health ps render es) e same.
Proof.
  intros e F. revert e F. revert es. induction np as [|[n x] np IH]; intros es e F; inversion F as [|? [n' v] ? ? (N & E) F']; subst; cbn [live_each report_each fst snd] in *; [now apply alone_ret|]. subst n'.
  apply alone_assoc. eapply alone_bind; [now apply alone_read|]. intros d d' e1 X1 S1. unfold same in S1. subst d'.
  eapply alone_bind with (R := same); [destruct d; [apply alone_res|now apply alone_ret]|]. intros a a' e2 X2 S2. unfold same in S2. subst a'.
  eapply alone_bind; [apply IH; eapply placed_ext; [|exact F']; eapply ext_trans; eauto|]. intros r r' e3 _ S3. unfold same in S3. subst r'. now apply alone_ret.
Qed.
Lemma alone_report {A} health ps (render : string -> reading -> res (list A)) r v e : nth_error e r = Some v -> cls v = CReg ->
  alone (live_report mexp health ps render as_it_is r) (Report.report health ps render v) e same.
Proof.
  intros E K. unfold live_report, live_visit, Report.report. eapply alone_bind; [apply (alone_call_map (OEach r) (reg_each v) RPairs); called E K|]. intros a es e1 _ (-> & -> & ->). cbn [rv_pairs yields]. unfold as_it_is. apply alone_each, places_placed.
Qed.
(** reports as texts *)
Lemma alone_text {A} (f : list A -> string) lm (m : M (list A)) e : alone lm m e same -> alone (live_text f lm) (bind m (fun ls => ret (f ls))) e same.
Proof. intros H. eapply alone_bind; [exact H|]. intros a b e' _ <-. now apply alone_ret. Qed.
Lemma alone_same {A B} (lm : L A) (m m' : M B) e R : (forall w, m o w = m' o w) -> alone lm m' e R -> alone lm m e R.
Proof. intros Hm H w. rewrite Hm. apply H. Qed.
(** GetAll *)
Definition fields_read (d : option reading) : list (string * gval) := match d with Some d => getall_fields d | None => [] end.
Ltac both := repeat match goal with |- bind ?m _ ?o ?w = bind ?m' _ ?o ?w => let X := fresh "X" in destruct (m o w) as [? [?|?]] eqn:X; [rewrite !(bind_ok _ _ _ _ _ _ X)|rewrite !(bind_panic _ _ _ _ _ _ X); reflexivity] end.
Lemma bind_assoc {A B C} (m : M A) (f : A -> M B) (g : B -> M C) w : bind (bind m f) g o w = bind m (fun a => bind (f a) g) o w.
Proof. unfold bind. destruct (m o w) as [w1 [a|msg]]; reflexivity. Qed.
Ltac steps := repeat (rewrite bind_assoc; match goal with |- bind ?m _ o ?w = bind ?m _ o ?w => let X := fresh "X" in destruct (m o w) as [? [?|?]] eqn:X; [rewrite !(bind_ok _ _ _ _ _ _ X)|rewrite !(bind_panic _ _ _ _ _ _ X); reflexivity] end).
Lemma all_one_reading v w : cls v <> CHealth -> get_all_one v o w = bind (read_metric true ps5 v) (fun d => ret (fields_read d)) o w.
Proof.
  intros N. unfold get_all_one, read_metric. destruct (cls v); try (now contradiction N); try reflexivity; steps; try reflexivity.
  - repeat match goal with X : hist_stat _ _ _ _ = _ |- _ => apply hist_stat_shape in X; cbv iota in X end. unfold ret, bind. cbn [fields_read getall_fields]. congruence.
  - repeat match goal with X : timer_stat _ _ _ _ = _ |- _ => apply timer_stat_shape in X; cbv iota in X end. unfold ret, bind. cbn [fields_read getall_fields]. congruence.
Qed.
Lemma health_error_again v w w' e : health_error v o w = (w', Ok e) -> health_error v o w' = (w', Ok e).
Proof.
  intros H. assert (w' = w); [|congruence]. unfold health_error in H. destruct v; try discriminate H; try (injection H as <- _; reflexivity).
  unfold bind, load in H. destruct (nth_error (heap w) l) as [[]|]; try discriminate H; unfold ret in H; now injection H as <- _.
Qed.
Lemma alone_error v x e : nth_error e x = Some v -> cls v = CHealth ->
  alone (lbind (Live.call mexp (OError x)) (fun e => match rv_err (snd e) with
    | None => lret [("error"%string, GE None)]
    | Some _ => lbind (Live.call mexp (OError x)) (fun e => match rv_err (snd e) with Some e => lret [("error"%string, GE (Some e))] | None => lres (Panic msg_nil) end)
    end)) (bind (health_error v) (fun e => ret [("error"%string, GE e)])) e same.
Proof.
  intros E K. apply (alone_same _ _ (bind (health_error v) (fun r => match r with None => ret [("error"%string, GE None)] | Some _ => bind (health_error v) (fun r => match r with Some e => ret [("error"%string, GE (Some e))] | None => lift (Panic msg_nil) end) end))).
  { intros w. destruct (health_error v o w) as [w1 [[er|]|msg]] eqn:H; [rewrite !(bind_ok _ _ _ _ _ _ H)|rewrite !(bind_ok _ _ _ _ _ _ H); reflexivity|rewrite !(bind_panic _ _ _ _ _ _ H); reflexivity].
    rewrite (bind_ok _ _ _ _ _ _ (health_error_again _ _ _ _ H)). reflexivity. }
  eapply alone_bind; [apply (alone_call_map (OError x) (health_error v) RErr); called E K|]. intros a b e1 X (-> & _). apply X in E. cbn [rv_err]. destruct b; [|now apply alone_ret].
  eapply alone_bind; [apply (alone_call_map (OError x) (health_error v) RErr); called E K|]. intros a' b' e2 _ (-> & _). cbn [rv_err]. destruct b'; [now apply alone_ret|apply alone_res].
Qed.
Lemma alone_all_one v x e : nth_error e x = Some v -> alone (live_get_all_one mexp x) (get_all_one v) e same.
Proof.
  intros E. unfold live_get_all_one. apply alone_kind with (v := v); [exact E|]. destruct (class_eqb (cls v) CHealth) eqn:K.
  - assert (K' : cls v = CHealth) by (destruct (cls v); try discriminate K; reflexivity). rewrite K'. unfold get_all_one. rewrite K'.
    eapply alone_bind; [apply (alone_call_map (OCheck x) (health_check v) (fun _ => RUnit)); called E K'|]. intros a b e' X _. apply X in E. now apply alone_error.
  - apply (alone_same _ _ (bind (read_metric true ps5 v) (fun d => ret (fields_read d)))); [intros w; apply all_one_reading; intros K'; rewrite K' in K; discriminate K|].
    assert (G : alone (lbind (live_read mexp true ps5 x) (fun d => lret (match d with Some d => getall_fields d | None => [] end))) (bind (read_metric true ps5 v) (fun d => ret (fields_read d))) e same).
    { eapply alone_bind; [now apply alone_read|]. intros a b e' _ <-. now apply alone_ret. }
    destruct (cls v); try discriminate K; exact G.
Qed.
Lemma alone_all_each np : forall es e, Forall2 (placed e) np es ->
  alone (live_each (fun name x => lbind (live_get_all_one mexp x) (fun fs => lret [(name, fs)])) np) (get_all_each es) e same.
Proof.
  induction np as [|[n x] np IH]; intros es e F; inversion F as [|? [n' v] ? ? (N & E) F']; subst; cbn [live_each get_all_each fst snd] in *; [now apply alone_ret|]. subst n'.
  apply alone_assoc. eapply alone_bind; [now apply alone_all_one|]. intros d d' e1 X1 S1. unfold same in S1. subst d'. apply alone_left.
  eapply alone_bind; [apply IH; eapply placed_ext; eauto|]. intros r r' e3 _ S3. unfold same in S3. subst r'. now apply alone_ret.
Qed.
Lemma alone_get_all r l e : nth_error e r = Some (VReg l) -> alone (live_get_all mexp r) (std_get_all l) e same.
Proof.
  intros E. unfold live_get_all, live_visit, std_get_all. eapply alone_bind; [apply (alone_call_map (OEach r) (reg_each (VReg l)) RPairs); exact (call_at e (OEach r) r (VReg l) _ eq_refl E)|]. intros a es e1 _ (-> & -> & ->). cbn [rv_pairs yields]. unfold as_it_is. apply alone_all_each, places_placed.
Qed.
End Alone.

(** the live report [lm], left alone, and the report [m] made in one step *)
Definition as_one_step {A} (o : orc) (st : state) (lm : L A) (m : M A) : Prop :=
  exists k, forall n, k <= n -> let e := lm (nothing o n) st in outcome e = Some (snd (m o (fst st))) /\ fst (at_end e) = fst (m o (fst st)).
Lemma alone_one_step {A} o (st : state) (lm : L A) (m : M A) : alone o lm m (snd st) same -> as_one_step o st lm m.
Proof.
  destruct st as [w e0]. cbn [snd]. intros H. destruct (H w) as (k & ss & e' & X). exists k. intros n Hn. replace n with (k + (n - k)) by lia. cbv zeta. cbn [fst snd]. destruct (m o w) as [w1 [b|msg]].
  - destruct X as (a & <- & _ & X). rewrite X. auto.
  - rewrite X. auto.
Qed.
(** Left alone, each reporter does what it does in one step. *)
Theorem C72_alone : forall mexp (st : state) o r v decimal error_text prefix host u scale ps, nth_error (snd st) r = Some v -> cls v = CReg ->
  let now := unix (o_now o) in
  (forall A health ps (render : string -> reading -> res (list A)), as_one_step o st (live_report mexp health ps render as_it_is r) (Report.report health ps render v)) /\
  as_one_step o st (live_graphite mexp decimal prefix u ps now r) (graphite decimal prefix u ps v) /\
  as_one_step o st (live_opentsdb mexp host prefix u now r) (opentsdb host prefix u v) /\
  as_one_step o st (live_log mexp error_text scale r) (log_once error_text scale v) /\
  as_one_step o st (live_syslog mexp error_text r) (syslog_once error_text v) /\
  as_one_step o st (live_stathat mexp r) (stathat v).
Proof.
  intros mexp st o r v decimal error_text prefix host u scale ps E K now.
  assert (Rp : forall A health ps (render : string -> reading -> res (list A)), alone o (live_report mexp health ps render as_it_is r) (Report.report health ps render v) (snd st) same) by (intros; now apply alone_report).
  split; [intros A health q render; apply alone_one_step, Rp|]. split; [|split; [|split; [|split]]]; apply alone_one_step.
  - unfold live_graphite. eapply alone_same; [|apply alone_text, Rp]. intros w. reflexivity.
  - unfold live_opentsdb. eapply alone_same; [|apply alone_text, Rp]. intros w. reflexivity.
  - exact (Rp _ _ _ _).
  - exact (Rp _ _ _ _).
  - exact (Rp _ _ _ _).
Qed.
(** likewise GetAll of a StandardRegistry *)
Theorem C72_get_all_alone : forall mexp (st : state) o r l, nth_error (snd st) r = Some (VReg l) -> as_one_step o st (live_get_all mexp r) (std_get_all l).
Proof. intros. apply alone_one_step. now apply alone_get_all. Qed.

(** and WriteOnce, for sorting that looks at names only *)
Definition by_names (sort : forall X, list (string * X) -> list (string * X)) : Prop :=
  (forall X l, Permutation (sort X l) l) /\ forall X Y (f : X -> Y) l, sort Y (map (fun p => (fst p, f (snd p))) l) = map (fun p => (fst p, f (snd p))) (sort X l).
Lemma placed_sorted sort e np es : by_names sort -> Forall2 (placed e) np es -> Forall2 (placed e) (sort _ np) (sort _ es).
Proof.
  intros (P & N) F. set (f := fun x => match nth_error e x with Some v => v | None => VNil end).
  assert (Es : es = map (fun p => (fst p, f (snd p))) np).
  { induction F as [|[n x] [n' v] np es (H1 & H2) F IH]; [reflexivity|]. cbn [map fst snd] in *. subst n'. unfold f at 1. rewrite H2. now f_equal. }
  assert (In_ : forall p, In p np -> placed e p (fst p, f (snd p))).
  { clear Es. induction F as [|a b np es (H1 & H2) F IH]; intros p []; [|auto]. subst a. split; [reflexivity|]. cbn [snd]. unfold f. now rewrite H2. }
  rewrite Es, N. assert (Q : forall p, In p (sort _ np) -> placed e p (fst p, f (snd p))) by (intros p Hp; apply In_; eapply Permutation_in; [apply P|exact Hp]).
  induction (sort _ np) as [|p l IH]; cbn [map]; constructor; [apply Q; now left|apply IH; intros; apply Q; now right].
Qed.
Theorem C72_write_alone : forall mexp (st : state) o r v error_text sort, nth_error (snd st) r = Some v -> cls v = CReg -> by_names sort ->
  as_one_step o st (live_write mexp error_text (sort nat) r) (write_once error_text (sort val) v).
Proof.
  intros mexp st o r v error_text sort E K S. apply alone_one_step. unfold live_write, write_once, live_report, live_visit. unfold live_text. apply alone_assoc.
  eapply alone_bind; [apply (alone_call_map mexp o (OEach r) (reg_each v) RPairs); etransitivity; [eapply call_at; [reflexivity|exact E]|]; unfold only; rewrite K; reflexivity|]. intros a es e1 _ (-> & -> & ->). cbn [rv_pairs yields].
  eapply alone_bind; [apply alone_each, placed_sorted; [exact S|apply places_placed]|]. intros b b' e2 _ <-. now apply alone_ret.
Qed.

(** ** Example: the registry of C72_example, its names sorted; [13] calls are enough *)
Fixpoint insert_name {X} (p : string * X) (l : list (string * X)) : list (string * X) :=
  match l with [] => [p] | q :: r => if String.leb (fst p) (fst q) then p :: l else q :: insert_name p r end.
Definition sort_names (X : Type) (l : list (string * X)) : list (string * X) := fold_right insert_name [] l.
Example C72_alone_example : let st := reach one_exp running in
  nth_error (snd st) 0 = Some (VReg 0) /\ cls (VReg 0) = CReg /\ by_names sort_names /\
  outcome (live_graphite one_exp plain "p" 1 [ratio 1 2] (unix (o_now o8)) 0 (nothing o8 13) st) = Some (snd (graphite plain "p" 1 [ratio 1 2] (VReg 0) o8 (fst st))) /\
  option_map (fun r => match r with Ok s => String.length s | Panic _ => 0 end) (outcome (live_write one_exp (fun _ => "on fire"%string) (sort_names nat) 0 (nothing o8 13) st)) = Some 355 /\
  outcome (live_graphite one_exp plain "p" 1 [ratio 1 2] (unix (o_now o8)) 0 (nothing o8 3) st) = None.
Proof.
  cbv zeta. split; [vm_compute; reflexivity|]. split; [reflexivity|]. split.
  - split.
    + assert (I : forall X (p : string * X) l, Permutation (insert_name p l) (p :: l)).
      { intros X p. induction l as [|q l IH]; cbn [insert_name]; [reflexivity|]. destruct (String.leb (fst p) (fst q)); [reflexivity|]. rewrite IH. constructor. }
      intros X. induction l as [|p l IH]; cbn [sort_names fold_right]; [constructor|]. rewrite I. now constructor.
    + intros X Y f. assert (I : forall p s, insert_name (fst p, f (snd p)) (map (fun p => (fst p, f (snd p))) s) = map (fun p => (fst p, f (snd p))) (insert_name p s)).
      { intros p. induction s as [|q s IHs]; cbn [map insert_name fst snd]; [reflexivity|]. destruct (String.leb (fst p) (fst q)); [reflexivity|]. cbn [map]. now rewrite IHs. }
      unfold sort_names. induction l as [|p l IH]; [reflexivity|]. cbn [fold_right map]. now rewrite IH, I.
  - split; [vm_compute; reflexivity|]. split; vm_compute; reflexivity.
Qed.
