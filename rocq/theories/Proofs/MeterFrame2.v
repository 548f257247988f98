(** What calls leave alone: averages and the structs in which meters publish. *)
From Coq Require Import ZArith List String Bool Lia Arith Permutation.
From Verif.Model Require Import GoInt GoFloat GoBase Stats Uniform ExpDecay Conc Ewma World.
From Verif.Spec Require Import RegistrySpec.
From Verif.Proofs Require Import WorldBase WorldOps WorldCalls WorldStep WorldFrame RegistryProofs RegistryStep MeterRun TimerHistory.
From Verif.Proofs Require MeterFrame EwmaSeq.
Import ListNotations.
Local Open Scope nat_scope.
Local Open Scope list_scope.

(** every meter comes with a struct and three averages, in this order *)
Definition mtags (h : list obj) : Prop := forall l s a b c t st, nth_error h l = Some (OMeter s a b c t st) ->
  a = VEwma (s + 1) /\ b = VEwma (s + 2) /\ c = VEwma (s + 3) /\ l = s + 4 /\ tagat h s TMeterSnap /\
  tagat h (s + 1) TEwma /\ tagat h (s + 2) TEwma /\ tagat h (s + 3) TEwma.
Lemma wf_mtags w : wf w -> mtags (heap w).
Proof.
  intros W l s a b c t st E. destruct (wf_shape _ W _ _ _ _ _ _ _ E) as (-> & -> & -> & ->). pose proof (wf_obj _ W _ _ E) as O. cbn in O. tauto.
Qed.
(** the addresses of meter [l]'s struct and averages *)
Definition block (l i : nat) : Prop := i + 4 = l \/ i + 3 = l \/ i + 2 = l \/ i + 1 = l.
(** two meters share nothing *)
Lemma blocks_apart h k l sk sl ak bk ck tk stk al bl cl tl stl i : mtags h -> nth_error h k = Some (OMeter sk ak bk ck tk stk) -> nth_error h l = Some (OMeter sl al bl cl tl stl) ->
  block k i -> block l i -> k = l.
Proof.
  intros T K L Bk Bl. destruct (T _ _ _ _ _ _ _ K) as (_ & _ & _ & Ek & K0 & K1 & K2 & K3). destruct (T _ _ _ _ _ _ _ L) as (_ & _ & _ & El & L0 & L1 & L2 & L3).
  assert (X : forall j, tagat h j TMeterSnap -> tagat h j TEwma -> False) by (intros j (y & Y & Ty) (z & Z & Tz); congruence).
  destruct (lt_eq_lt_dec k l) as [[D|D]|D]; auto; exfalso; unfold block in *.
  - assert (H : sl = sk + 1 \/ sl = sk + 2 \/ sl = sk + 3) by lia. apply (X sl L0). destruct H as [-> | [-> | ->]]; auto.
  - assert (H : sk = sl + 1 \/ sk = sl + 2 \/ sk = sl + 3) by lia. apply (X sk K0). destruct H as [-> | [-> | ->]]; auto.
Qed.

Section Keep.
Variable mexp : f64 -> f64.
Variable D : nat -> Prop.
Variable h0 : list obj.
Hypothesis T0 : mtags h0.
Hypothesis D0 : forall l y, D l -> nth_error h0 l = Some y -> tag_of y = TEwma \/ tag_of y = TMeterSnap.
(** the objects are of the kinds they were; the meters, and the objects at [D], are as they were *)
Definition Q (w : world) : Prop := List.length (heap w) = List.length h0 /\
  forall l y, nth_error (heap w) l = Some y -> exists y0, nth_error h0 l = Some y0 /\ tag_of y = tag_of y0 /\ (tag_of y = TMeter \/ D l -> y = y0).
Definition keeps {A} (m : M A) : Prop := forall o w, Q w -> Q (fst (m o w)).
Lemma Q_tag w l t : Q w -> tagat h0 l t -> tagat (heap w) l t.
Proof.
  intros (L & H) (y & E & Ty). pose proof (nth_lt _ _ _ E) as Lt. rewrite <- L in Lt. apply nth_error_Some in Lt. destruct (nth_error (heap w) l) as [z|] eqn:Ez; [|congruence].
  destruct (H _ _ Ez) as (y0 & E0 & Tz & _). exists z. split; auto. congruence.
Qed.
Lemma Q_meter w l s a b c t st : Q w -> nth_error (heap w) l = Some (OMeter s a b c t st) -> nth_error h0 l = Some (OMeter s a b c t st).
Proof. intros (L & H) E. destruct (H _ _ E) as (y0 & E0 & _ & X). rewrite (X (or_introl eq_refl)). exact E0. Qed.
Lemma Q_mtags w : Q w -> mtags (heap w).
Proof.
  intros q l s a b c t st E. destruct (T0 _ _ _ _ _ _ _ (Q_meter _ _ _ _ _ _ _ _ q E)) as (-> & -> & -> & -> & A0 & A1 & A2 & A3). repeat (split; [reflexivity|]). auto 6 using Q_tag.
Qed.
Lemma Q_at w l y : Q w -> D l -> nth_error h0 l = Some y -> nth_error (heap w) l = Some y.
Proof.
  intros (L & H) d E. pose proof (nth_lt _ _ _ E) as Lt. rewrite <- L in Lt. apply nth_error_Some in Lt. destruct (nth_error (heap w) l) as [z|] eqn:Ez; [|congruence].
  destruct (H _ _ Ez) as (y0 & E0 & Tz & X). rewrite (X (or_intror d)). congruence.
Qed.
Lemma Q_meter' w l s a b c t st : Q w -> nth_error h0 l = Some (OMeter s a b c t st) -> nth_error (heap w) l = Some (OMeter s a b c t st).
Proof.
  intros (L & H) E. pose proof (nth_lt _ _ _ E) as Lt. rewrite <- L in Lt. apply nth_error_Some in Lt. destruct (nth_error (heap w) l) as [z|] eqn:Ez; [|congruence].
  destruct (H _ _ Ez) as (y0 & E0 & Tz & X). rewrite X; [congruence|left]. rewrite E in E0. inversion E0; subst. exact Tz.
Qed.

Lemma keeps_bind {A B} (m : M A) (f : A -> M B) : keeps m -> (forall r, keeps (f r)) -> keeps (bind m f).
Proof. intros H K o w q. unfold bind. specialize (H o w q). destruct (m o w) as [w' [r|msg]]; cbn [fst] in *; auto. now apply K. Qed.
Lemma keeps_ret {A} (r : A) : keeps (ret r). Proof. intros o w q. exact q. Qed.
Lemma keeps_throw {A} m : keeps (@throw A m). Proof. intros o w q. exact q. Qed.
Lemma keeps_load l : keeps (load l). Proof. intros o w q. unfold load. destruct (nth_error _ _); exact q. Qed.
Lemma Q_store w l y z : Q w -> nth_error (heap w) l = Some y -> tag_of z = tag_of y -> tag_of y <> TMeter -> ~ D l -> Q (set_heap (lset (heap w) l z) w).
Proof.
  intros (L & H) E Tz N d. split; cbn [heap set_heap]; [rewrite lset_length; auto|]. intros l' y' E'. destruct (Nat.eq_dec l l') as [<-|Dl].
  - rewrite lset_nth_eq in E' by (eapply nth_lt; eauto). inversion E'; subst y'. destruct (H _ _ E) as (y0 & E0 & Ty & X). exists y0. repeat split; auto; [congruence|]. intros [C|C]; [congruence|contradiction].
  - rewrite lset_nth_neq in E' by auto. apply H; auto.
Qed.
(** objects of other kinds are not at [D] *)
Lemma Q_store' w l y z : Q w -> nth_error (heap w) l = Some y -> tag_of z = tag_of y -> tag_of y <> TMeter -> tag_of y <> TEwma -> tag_of y <> TMeterSnap -> Q (set_heap (lset (heap w) l z) w).
Proof.
  intros q E Tz N1 N2 N3. eapply Q_store; eauto. intros d. destruct (proj2 q _ _ E) as (y0 & E0 & Ty & X). destruct (D0 _ _ d E0); congruence.
Qed.
Lemma keeps_update {A} (l : nat) (f : obj -> M A) : (forall y o w, Q w -> nth_error (heap w) l = Some y -> Q (fst (f y o w))) -> keeps (bind (load l) f).
Proof. intros H o w q. unfold bind, load. destruct (nth_error (heap w) l) as [y|] eqn:E; [|exact q]. apply H; auto. Qed.
Lemma keeps_ewma_do l op : ~ D l -> keeps (ewma_do l op).
Proof.
  intros d. unfold ewma_do. apply keeps_update. intros y o w q E. destruct y; try exact q. destruct (cseq _ _) as [[e' r]|]; [|exact q].
  unfold bind, store, ret. cbn [fst]. eapply Q_store; eauto; cbn; congruence.
Qed.
Lemma keeps_ewma_mut op v : (forall l, v = VEwma l -> ~ D l) -> keeps (ewma_mut op v).
Proof. intros d. destruct v; cbn; auto using keeps_throw, keeps_ret. apply keeps_bind; [apply keeps_ewma_do; auto|intros; apply keeps_ret]. Qed.
Lemma lset_same {A} (h : list A) l y : nth_error h l = Some y -> lset h l y = h.
Proof. revert l. induction h as [|x h IH]; intros [|l] E; cbn in *; try discriminate; [now inversion E|now rewrite IH]. Qed.
Lemma keeps_ewma_read l op : op = WRate \/ op = WSnapshot -> keeps (ewma_do l op).
Proof.
  intros Hop. unfold ewma_do. apply keeps_update. intros y o w q E. destruct y; try exact q.
  destruct Hop as [-> | ->]; rewrite ?EwmaSeq.rate_seq, ?EwmaSeq.snapshot_seq; unfold bind, store, ret; cbn [fst]; rewrite (lset_same _ _ _ E); destruct w; exact q.
Qed.
Lemma keeps_ewma_rate v : keeps (ewma_rate v).
Proof. destruct v; cbn; auto using keeps_throw, keeps_ret, keeps_ewma_read. Qed.
(** the parts of meter [l] are not at [D] *)
Definition off (l : nat) : Prop := forall i, block l i -> ~ D i.
Lemma keeps_update_snapshot m l : mo_snap m + 4 = l -> mo_a1 m = VEwma (mo_snap m + 1) -> mo_a5 m = VEwma (mo_snap m + 2) -> mo_a15 m = VEwma (mo_snap m + 3) -> off l -> keeps (update_snapshot m).
Proof using.
  clear D0 mexp.
  intros El E1 E5 E15 d. unfold update_snapshot. assert (B : forall j, j <= 3 -> ~ D (mo_snap m + j)) by (intros j Hj; apply d; unfold block; lia).
  do 3 (apply keeps_bind; [apply keeps_ewma_rate|intros ?]). unfold msnap_get.
  intros o w q. unfold bind at 1. unfold bind at 1. unfold load. destruct (nth_error (heap w) (mo_snap m)) as [y|] eqn:E; [|exact q].
  destruct y; try exact q. unfold ret, bind, ask, store. cbn [fst]. eapply Q_store; eauto; try (cbn; congruence). rewrite <- (Nat.add_0_r (mo_snap m)). apply B. lia.
Qed.
Lemma keeps_mark n v : (forall l, v = VMeter l -> (exists s a b c t, nth_error h0 l = Some (OMeter s a b c t true)) \/ off l) -> keeps (meter_mark n v).
Proof using T0.
  clear D0 mexp.
  intros H. destruct v; cbn; auto using keeps_throw, keeps_ret. intros o w q. unfold meter_get. unfold bind at 1 2. unfold load.
  destruct (nth_error (heap w) l) as [y|] eqn:E; [|exact q]. destruct y; try exact q. cbn [ret mo_stopped].
  destruct stopped; [exact q|]. destruct (H l eq_refl) as [(s & a & b & c & t & St)|d]; [rewrite (Q_meter _ _ _ _ _ _ _ _ q E) in St; congruence|].
  destruct (Q_mtags _ q _ _ _ _ _ _ _ E) as (-> & -> & -> & El & _). unfold msnap_get. unfold bind at 1 2. unfold load. cbn [mo_snap].
  destruct (nth_error (heap w) snap) as [y|] eqn:E1; [|exact q]. destruct y; try exact q. cbn [ret].
  assert (B : forall j, j <= 3 -> ~ D (snap + j)) by (intros j Hj; apply d; unfold block; lia).
  match goal with |- Q (fst (?m o w)) => enough (K : exists m', m = bind (store snap (OMeterSnap (wrap64 (count + n)) r1 r5 r15 mean)) m' /\ forall r, keeps (m' r)) end.
  - destruct K as (m' & -> & K). unfold bind, store. apply K. eapply Q_store; eauto; try (cbn; congruence). rewrite <- (Nat.add_0_r snap). apply B. lia.
  - eexists. split; [reflexivity|]. intros ?. do 3 (apply keeps_bind; [apply keeps_ewma_mut; cbn; intros j Hj; inversion Hj; subst; apply B; lia|intros ?]). apply (keeps_update_snapshot _ l); cbn; auto; lia.
Qed.
Lemma keeps_tick l : off l -> keeps (meter_tick l).
Proof using T0.
  clear D0 mexp.
  intros d o w q. unfold meter_tick, meter_get. unfold bind at 1 2. unfold load. destruct (nth_error (heap w) l) as [y|] eqn:E; [|exact q]. destruct y; try exact q. cbn [ret].
  destruct (Q_mtags _ q _ _ _ _ _ _ _ E) as (-> & -> & -> & El & _). assert (B : forall j, j <= 3 -> ~ D (snap + j)) by (intros j Hj; apply d; unfold block; lia).
  match goal with |- Q (fst (?m o w)) => enough (K : keeps m) by (apply K; exact q) end.
  do 3 (apply keeps_bind; [apply keeps_ewma_mut; cbn; intros j Hj; inversion Hj; subst; apply B; lia|intros ?]). apply (keeps_update_snapshot _ l); cbn; auto; lia.
Qed.
Lemma keeps_tick_all ls : (forall l, In l ls -> off l) -> keeps (tick_all ls).
Proof using T0.
  clear D0 mexp.
  induction ls as [|l ls IH]; cbn [tick_all]; intros N; [apply keeps_ret|]. apply keeps_bind; [apply keeps_tick; apply N; now left|]. intros ?. apply IH. intros. apply N. now right.
Qed.
Lemma keeps_sample_update n v : keeps (sample_update mexp n v).
Proof.
  destruct v; cbn [sample_update]; auto using keeps_throw, keeps_ret.
  - intros o w q. unfold uni_get, arr_get. unfold bind at 1 2. unfold load. destruct (nth_error (heap w) l) as [y|] eqn:E; [|exact q]. destruct y; try exact q. cbn [ret].
    unfold bind at 1 2. destruct (nth_error (heap w) arr) as [y|] eqn:E1; [|exact q]. destruct y; try exact q. cbn [ret]. unfold bind at 1, ask. cbn [fst].
    destruct (uni_update _ _ _) as [u r]. unfold bind, store, lift. cbn [fst].
    assert (Dn : arr <> l) by congruence.
    apply (Q_store' _ l (OUniform count size arr)); try discriminate; [apply (Q_store' _ arr (OArr xs)); try discriminate; auto| |reflexivity].
    cbn [heap set_heap]. rewrite lset_nth_neq by auto. exact E.
  - intros o w q. unfold exp_get. unfold bind at 1 2. unfold load. destruct (nth_error (heap w) l) as [y|] eqn:E; [|exact q]. destruct y; try exact q. cbn [ret].
    unfold bind at 1 2, ask. destruct (exp_update _ _ _ _ _) as [s' r]. unfold bind, store, lift. cbn [fst]. apply (Q_store' _ l (OExp x)); try discriminate; auto.
Qed.
Lemma keeps_hist_update n v : keeps (hist_update mexp n v).
Proof.
  unfold hist_update. assert (K : keeps (s0 <- hist_sample v;; sample_update mexp n s0)).
  { apply keeps_bind; [|intros; apply keeps_sample_update]. destruct v; cbn; auto using keeps_ret, keeps_throw; (apply keeps_bind; [apply keeps_load|]; intros []; auto using keeps_ret, keeps_throw). }
  destruct v; auto using keeps_throw.
Qed.
Lemma Q_unit {A B} (m : M A) (r : B) o w : Q (fst (m o w)) -> Q (fst (bind m (fun _ => ret r) o w)).
Proof. unfold bind, ret. destruct (m o w) as [w' [z|msg]]; auto. Qed.
End Keep.

Lemma Q_refl D w : Q D (heap w) w.
Proof. split; auto. intros l y E. exists y. auto. Qed.

(** ** calls *)
(** the average the call changes, and the metric it marks *)
Definition ewma_arg (cl : op) : option nat := match cl with OUpdate y _ | OTick y => Some y | _ => None end.
Definition mark_arg (cl : op) : option nat := match cl with OMark y _ | OUpdate y _ | OTimeEnd y _ | OUpdateSince y _ => Some y | _ => None end.
Definition spares (D : nat -> Prop) (st : state) (cl : op) : Prop :=
  (forall y l, ewma_arg cl = Some y -> nth_error (snd st) y = Some (VEwma l) -> ~ D l) /\
  (forall y v k, mark_arg cl = Some y -> nth_error (snd st) y = Some v -> meter_of (fst st) v = Some k -> In k (alive (fst st)) -> off D k) /\
  (cl = ORound -> forall k, In k (alive (fst st)) -> off D k).

Section Step.
Variable mexp : f64 -> f64.
Lemma off_or_stopped (D : nat -> Prop) w v k : wf w -> meter_of w v = Some k -> tagat (heap w) k TMeter -> (In k (alive w) -> off D k) ->
  (exists s a b c t, nth_error (heap w) k = Some (OMeter s a b c t true)) \/ off D k.
Proof.
  intros W M (y & E & Ty) H. destruct y; cbn in Ty; try discriminate. destruct stopped; [left; eauto 8|]. right. apply H. apply (wf_alive _ W). repeat eexists; eauto.
Qed.
Lemma since_update ts v o w : timer_update_since mexp ts v o w = timer_update mexp (time_sub (o_now o) ts) v o w.
Proof. destruct v; reflexivity. Qed.
Lemma end_update ts v o w : timer_end mexp ts v o w = timer_update mexp (time_sub (o_now o) ts) v o w.
Proof. reflexivity. Qed.
Lemma timer_call (D : nat -> Prop) (st : state) d v o : inv st -> vok (heap (fst st)) v -> (forall l y, D l -> nth_error (heap (fst st)) l = Some y -> tag_of y = TEwma \/ tag_of y = TMeterSnap) ->
  (forall k, meter_of (fst st) v = Some k -> In k (alive (fst st)) -> off D k) ->
  Q D (heap (fst st)) (fst (timer_update mexp d v o (fst st))).
Proof.
  intros I V D0 H. pose proof (proj1 I) as W. destruct v; try exact (Q_refl D (fst st)). unfold timer_update. unfold bind at 1.
  destruct (MeterFrame.timer_get_m (fst st) l o) as [(hh & m & E & ->)|(msg & ->)]; [|apply Q_refl].
  apply (keeps_bind D (heap (fst st))); [apply keeps_hist_update; auto| |apply Q_refl]. intros _. apply keeps_mark; [now apply wf_mtags|].
  intros l0 ->. assert (M : meter_of (fst st) (VTimer l) = Some l0) by (cbn [meter_of]; now rewrite E).
  apply (off_or_stopped D (fst st) (VTimer l) l0 W M); auto. pose proof (wf_obj _ W _ _ E) as O. cbn in O. tauto.
Qed.
Lemma step_frame (D : nat -> Prop) (st : state) cl o l y : inv st -> (forall l y, D l -> nth_error (heap (fst st)) l = Some y -> tag_of y = TEwma \/ tag_of y = TMeterSnap) ->
  spares D st cl -> D l -> nth_error (heap (fst st)) l = Some y -> nth_error (heap (fst (fst (step mexp st (cl, o))))) l = Some y.
Proof.
  intros I D0 (H1 & H2 & H3) d El. pose proof (proj1 I) as W. pose proof (wf_mtags _ W) as T0.
  assert (DT : In (tag_of y) (touch cl) \/ ~ In (tag_of y) (touch cl)) by (destruct (in_dec (fun a b : tag => ltac:(decide equality)) (tag_of y) (touch cl)); auto).
  destruct DT as [DT|DT]; [|apply untouched; auto].
  assert (S : (exists x, cl = OSnapshot x) \/ forall x, cl <> OSnapshot x) by (destruct cl; eauto; right; discriminate).
  assert (Vk : forall x v, nth_error (snd st) x = Some v -> vok (heap (fst st)) v) by (intros x v E; pose proof (proj2 I) as V; rewrite Forall_forall in V; apply V; eapply nth_error_In; eauto).
  destruct S as [(x & ->)|S].
  { unfold World.step. cbn [fst snd World.call]. unfold obind. destruct (nth_error (snd st) x) as [v|] eqn:E; [|exact El].
    destruct (step_inv mexp st (OSnapshot x) o I) as (_ & (_ & L & _) & _). destruct (L _ _ El) as (y' & E' & X). pose proof (chg_tag _ _ _ _ _ X) as Tg.
    revert E'. unfold World.step. cbn [fst snd World.call]. unfold obind. rewrite E. intros E'.
    assert (CE : cls v = CEwma \/ cls v <> CEwma) by (destruct (cls v); auto; right; discriminate). destruct CE as [CE|CE].
    - unfold m_snapshot in *. rewrite CE in *. assert (q : Q D (heap (fst st)) (fst (v_rv (ewma_snapshot v) o (fst st)))).
      { unfold v_rv. apply Q_unit || (apply (keeps_bind D (heap (fst st))); [|intros; apply keeps_ret|apply Q_refl]). destruct v; try discriminate CE; cbn [ewma_snapshot]; auto using keeps_ret. apply keeps_bind; [apply keeps_ewma_read; auto|intros; apply keeps_ret]. }
      pose proof (Q_at _ _ _ l y q d El) as q'. clear q. rename q' into q. destruct (v_rv (ewma_snapshot v) o (fst st)) as [w' [r|]]; exact q.
    - destruct (m_snapshot v) as [m|] eqn:Em; [|exact El].
      assert (P : pres (tin [TCounter; TGauge; TGaugeF]) false m).
      { unfold m_snapshot in Em. destruct (cls v); inversion Em; subst; try congruence; unfold v_rv; (apply pres_bind; [|intros; apply pres_ret]); first [now apply pres_counter_snapshot|now apply pres_gauge_snapshot|now apply pres_gaugef_snapshot|now apply pres_sample_snapshot|now apply pres_hist_snapshot|now apply pres_meter_snapshot|now apply pres_timer_snapshot]. }
      specialize (P o (fst st)). destruct P as (_ & F & _). destruct (m o (fst st)) as [w' [r|]]; cbn [fst snd] in *;
        (specialize (F l y' (nth_lt _ _ _ El) E'); rewrite F in El; [inversion El; subst; exact E'|]); rewrite <- Tg; destruct (D0 _ _ d El) as [-> | ->]; reflexivity. }
  assert (G : Q D (heap (fst st)) (fst (fst (step mexp st (cl, o)))) -> nth_error (heap (fst (fst (step mexp st (cl, o))))) l = Some y) by (intros q; eapply Q_at; eauto).
  apply G. clear G. unfold World.step.
  pose proof (Q_refl D (fst st)) as q.
  assert (R : forall m : M rv, Q D (heap (fst st)) (fst (m o (fst st))) -> Q D (heap (fst st)) (fst (fst (let (w, r) := m o (fst st) in match r with Ok r0 => ((w, snd st ++ yields r0), Some (Ok r0)) | Panic msg => ((w, snd st), Some (Panic msg)) end)))).
  { intros m. destruct (m o (fst st)) as [w' [z|msg]]; auto. }
  assert (NT : tag_of y = TEwma \/ tag_of y = TMeterSnap) by eauto.
  destruct cl; cbn in DT; try contradiction; try (exfalso; destruct NT as [N | N]; rewrite N in DT; intuition congruence; fail); cbn [fst snd World.call]; unfold obind, only.
  - (* a round of ticks *)
    apply R. unfold unit_rv. apply Q_unit. unfold tick_meters. unfold bind at 1 2, gets, ask. apply (keeps_tick_all D (heap (fst st)) T0); auto.
    intros k Hk. apply (Permutation_in _ (MeterRun.visit_perm _ _ (wf_nodup _ W))) in Hk. apply H3; auto.
  - (* Update *)
    destruct (nth_error (snd st) x) as [v|] eqn:E; [|exact q]. unfold m_update. destruct (cls v) eqn:C; try exact q; apply R; unfold unit_rv; apply Q_unit.
    + destruct v; cbn in C; try discriminate; try exact q. unfold gauge_update. apply Q_unit. unfold g_do. apply (keeps_update D (heap (fst st))); [|exact q]. intros y' o' w' q' E'. destruct y'; try exact q'.
      unfold bind, store, ret. cbn [fst]. apply (Q_store' D _ D0 _ _ _ _ q' E'); try reflexivity; discriminate.
    + apply keeps_sample_update; auto.
    + apply keeps_hist_update; auto.
    + apply keeps_ewma_mut; auto. intros l0 ->. apply (H1 x l0); auto.
    + apply timer_call; [exact I|exact (Vk _ _ E)|exact D0|intros k Mk Ak; exact (H2 x v k eq_refl E Mk Ak)].
  - (* Tick *) destruct (nth_error (snd st) x) as [v|] eqn:E; [|exact q]. destruct (class_eqb (cls v) CEwma); [|exact q]. apply R. unfold unit_rv. apply Q_unit. apply keeps_ewma_mut; auto. intros l0 ->. apply (H1 x l0); auto.
  - (* Rate *) destruct (nth_error (snd st) x) as [v|] eqn:E; [|exact q]. destruct (class_eqb (cls v) CEwma); [|exact q]. apply R. unfold f_rv. apply (keeps_bind D (heap (fst st))); [apply keeps_ewma_rate|intros; apply keeps_ret|exact q].
  - (* Mark *) destruct (nth_error (snd st) x) as [v|] eqn:E; [|exact q]. destruct (class_eqb (cls v) CMeter); [|exact q]. apply R. unfold unit_rv. apply Q_unit. apply keeps_mark; auto.
    intros l0 ->. apply (off_or_stopped D (fst st) (VMeter l0) l0 W eq_refl); [apply (Vk _ _ E)|]. apply (H2 x (VMeter l0)); auto.
  - destruct (nth_error (snd st) x) as [v|] eqn:E; [|exact q]. destruct (class_eqb (cls v) CTimer); [|exact q]. apply R. unfold unit_rv. apply Q_unit. rewrite end_update. apply timer_call; [exact I|exact (Vk _ _ E)|exact D0|intros k Mk Ak; exact (H2 x v k eq_refl E Mk Ak)].
  - destruct (nth_error (snd st) x) as [v|] eqn:E; [|exact q]. destruct (class_eqb (cls v) CTimer); [|exact q]. apply R. unfold unit_rv. apply Q_unit. rewrite since_update. apply timer_call; [exact I|exact (Vk _ _ E)|exact D0|intros k Mk Ak; exact (H2 x v k eq_refl E Mk Ak)].
Qed.
End Step.
