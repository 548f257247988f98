(** Counters, gauges and samples, after any program. *)
From Coq Require Import ZArith List String Bool Lia Arith Permutation.
From Verif.Model Require Import GoInt GoFloat GoBase Stats Uniform ExpDecay Conc CounterGauge Ewma Meter World.
From Verif.Spec Require Import Reservoir DecaySpec RegistrySpec TimerSpec ContentSpec.
From Verif.Proofs Require Import IntFacts FloatFacts SortFacts StatsInt UniformProofs ExpDecayProofs WorldBase WorldStep WorldFrame WorldArrays Calm TimerPrivate Origin MeterHistory.
Import ListNotations.
Local Open Scope nat_scope.
Local Open Scope list_scope.

Section Exp.
Variable mexp : f64 -> f64.

Lemma along_app {E} (f : state -> op -> orc -> list E) st q q' : along f mexp st (q ++ q') = along f mexp st q ++ along f mexp (run mexp st q) q'.
Proof. revert st. induction q as [|[c o] q IH]; intros st; [reflexivity|]. cbn [app along]. rewrite IH, <- app_assoc. reflexivity. Qed.
(** an invariant that knows the events so far *)
Lemma along_run {E} (f : state -> op -> orc -> list E) (P : list E -> Prop) (J : state -> list E -> Prop) :
  (forall es es', P (es ++ es') -> P es) ->
  (forall st es c o, inv st -> J st es -> P (es ++ f st c o) -> J (fst (step mexp st (c, o))) (es ++ f st c o)) ->
  forall q st es, inv st -> J st es -> P (es ++ along f mexp st q) -> J (run mexp st q) (es ++ along f mexp st q).
Proof.
  intros Pp S. induction q as [|[c o] q IH]; intros st es I H Q; [cbn [along]; rewrite app_nil_r; exact H|].
  cbn [along] in *. rewrite app_assoc in Q |- *. rewrite run_cons. apply IH; auto.
  - apply (step_inv mexp st c o I).
  - apply S; eauto.
Qed.

Lemma aim_kind h v k : aim h v k -> (forall l x, nth_error h l = Some x -> ook h x) -> vok h v ->
  match v with
  | VCounter _ => tagat h k TCounter | VGauge _ => tagat h k TGauge | VGaugeF _ => tagat h k TGaugeF | VSlice _ => tagat h k TArr
  | VUniform _ | VExp _ | VHist _ | VTimer _ => tagat h k TUniform \/ tagat h k TExp \/ tagat h k TArr
  | _ => False
  end.
Proof.
  intros A W V.
  assert (S : forall s, saim h s k -> vok h s -> tagat h k TUniform \/ tagat h k TExp \/ tagat h k TArr).
  { intros s As Vs. destruct s; cbn in As; try contradiction.
    - destruct As as [-> | (c & n & E)]; [left; exact Vs|]. right; right. exact (proj1 (W _ _ E)).
    - subst. right; left. exact Vs. }
  assert (H : forall u, haim h u k -> tagat h k TUniform \/ tagat h k TExp \/ tagat h k TArr).
  { intros u Au. destruct u; cbn in Au; try contradiction. destruct Au as (s & E & As). apply (S s As). pose proof (W _ _ E) as O. cbn in O. tauto. }
  destruct v; cbn in A; try contradiction; try (subst; exact V).
  - exact (S (VUniform l) A V).
  - exact (S (VExp l) A V).
  - apply (H (VHist l)). exact A.
  - destruct A as (hi & m & E & A). apply (H _ A).
Qed.
Lemma held_vok (st : state) y v : inv st -> nth_error (snd st) y = Some v -> vok (heap (fst st)) v.
Proof. intros [_ F] E. rewrite Forall_forall in F. apply F. eapply nth_error_In; eauto. Qed.
Lemma written_vok (st : state) c v : inv st -> writes_on (snd st) c = Some v -> vok (heap (fst st)) v.
Proof. intros I W. destruct c; cbn in W; try discriminate; eapply held_vok; eauto. Qed.
Lemma tag_unique h k t t' : tagat h k t -> tagat h k t' -> t = t'.
Proof. intros (x & E & T) (x' & E' & T'). congruence. Qed.

(** ** counters *)
Definition cinv (l : nat) (st : state) (es : list cevent) : Prop := nth_error (heap (fst st)) l = Some (OCounter (wrap64 (sum_since es))).
Lemma step_done (st : state) c o m w r : World.call mexp (snd st) c = Some m -> m o (fst st) = (w, r) -> fst (fst (step mexp st (c, o))) = w.
Proof. intros C E. unfold World.step. cbn [fst snd]. rewrite C, E. destruct r; reflexivity. Qed.
Lemma sum_snoc es e : sum_since (es ++ [e]) = match e with CAdded n => sum_since es + n | CCleared => 0 end%Z.
Proof. unfold sum_since. rewrite fold_left_app. reflexivity. Qed.
Lemma counter_step l (st : state) es c o : inv st -> cinv l st es -> cinv l (fst (step mexp st (c, o))) (es ++ counted l st c o).
Proof.
  intros I H. unfold cinv in *.
  assert (D : (exists y, nth_error (snd st) y = Some (VCounter l) /\ ((exists n, c = OInc y n) \/ (exists n, c = ODec y n) \/ c = OClear y)) \/ (counted l st c o = [] /\ (writes_on (snd st) c = Some (VCounter l) -> World.call mexp (snd st) c = None))).
  { destruct c; try (right; split; [reflexivity|discriminate]); cbn [counted writes_on World.call];
      try (right; split; [reflexivity|]; intros ->; reflexivity);
      try (right; split; [reflexivity|]; unfold obind, arg; intros ->; reflexivity).
    all: destruct (nth_error (snd st) x) as [v|] eqn:E; [|right; split; [reflexivity|discriminate]]; destruct v; try (right; split; [reflexivity|discriminate]).
    all: destruct (Nat.eqb_spec l0 l) as [-> | N]; [left; exists x; split; auto; eauto|right; split; [reflexivity|congruence]]. }
  destruct D as [(y & E & D)|[-> D]].
  - assert (K : forall op, World.call mexp (snd st) c = Some (unit_rv (counter_mut (VCounter l) op)) -> nth_error (heap (fst (fst (step mexp st (c, o))))) l = Some (OCounter (seq_state (counter_body op) (wrap64 (sum_since es))))).
    { intros op C. erewrite step_done; [|exact C|].
      2: { unfold unit_rv, counter_mut, c_do, c_load, bind, load. rewrite H. cbn [ret store fst]. reflexivity. }
      cbn [heap set_heap]. apply lset_nth_eq. apply nth_error_Some. congruence. }
    assert (Cn : counted l st c o = match c with OInc _ n => [CAdded n] | ODec _ n => [CAdded (- n)] | _ => [CCleared] end).
    { destruct D as [(n & ->)|[(n & ->)| ->]]; cbn [counted]; rewrite E, Nat.eqb_refl; reflexivity. }
    rewrite Cn. destruct D as [(n & ->)|[(n & ->)| ->]]; rewrite sum_snoc.
    + rewrite (K (CInc n)) by (cbn [World.call]; rewrite E; reflexivity). do 2 f_equal. cbn. now rewrite wrap64_add_l.
    + rewrite (K (CDec n)) by (cbn [World.call]; rewrite E; reflexivity). do 2 f_equal. cbn. now rewrite wrap64_add_l, wrap64_add_r.
    + rewrite (K CClear) by (cbn [World.call]; rewrite E; reflexivity). reflexivity.
  - rewrite app_nil_r. destruct (World.call mexp (snd st) c) as [m|] eqn:C.
    + destruct (keeps_step mexp st c o l _ I H Logic.I) as (y & Ey & Cy); [|cbn in Cy; subst y; exact Ey].
      intros v Wv A. pose proof (aim_kind _ _ _ A (wf_obj _ (proj1 I)) (written_vok _ _ _ I Wv)) as T.
      assert (T0 : tagat (heap (fst st)) l TCounter) by (eexists; split; [exact H|reflexivity]).
      destruct v; cbn in A; try contradiction; try (pose proof (tag_unique _ _ _ _ T0 T); discriminate); try (destruct T as [T|[T|T]]; pose proof (tag_unique _ _ _ _ T0 T); discriminate).
      subst l0. specialize (D Wv). discriminate.
    + unfold World.step. cbn [fst snd]. rewrite C. exact H.
Qed.

(** ** gauges *)
Definition ginv (l : nat) (st : state) (es : list Z) : Prop := nth_error (heap (fst st)) l = Some (OGauge (last es 0%Z)).
Lemma last_snoc {A} (es : list A) x d : last (es ++ [x]) d = x.
Proof. induction es as [|a es IH]; auto. cbn [app]. destruct (es ++ [x]) eqn:E; [destruct es; discriminate|]. exact IH. Qed.
Lemma gauge_step l (st : state) es c o : inv st -> ginv l st es -> ginv l (fst (step mexp st (c, o))) (es ++ set_to l st c o).
Proof.
  intros I H. unfold ginv in *.
  assert (D : (exists y n, nth_error (snd st) y = Some (VGauge l) /\ c = OUpdate y n) \/ (set_to l st c o = [] /\ (writes_on (snd st) c = Some (VGauge l) -> World.call mexp (snd st) c = None))).
  { destruct c; try (right; split; [reflexivity|discriminate]); cbn [set_to writes_on World.call];
      try (right; split; [reflexivity|]; intros ->; reflexivity);
      try (right; split; [reflexivity|]; unfold obind, arg; intros ->; reflexivity).
    destruct (nth_error (snd st) x) as [v|] eqn:E; [|right; split; [reflexivity|discriminate]]; destruct v; try (right; split; [reflexivity|discriminate]).
    destruct (Nat.eqb_spec l0 l) as [-> | N]; [left; exists x, n; split; auto|right; split; [reflexivity|congruence]]. }
  destruct D as [(y & n & E & ->)|[-> D]].
  - cbn [set_to]. rewrite E, Nat.eqb_refl, last_snoc. erewrite step_done; [|cbn [World.call]; rewrite E; reflexivity|].
    2: { unfold unit_rv, gauge_update, g_do, bind, load. rewrite H. cbn [ret store fst]. reflexivity. }
    cbn [heap set_heap]. apply lset_nth_eq. apply nth_error_Some. congruence.
  - rewrite app_nil_r. destruct (World.call mexp (snd st) c) as [m|] eqn:C.
    + destruct (keeps_step mexp st c o l _ I H Logic.I) as (y & Ey & Cy); [|cbn in Cy; subst y; exact Ey].
      intros v Wv A. pose proof (aim_kind _ _ _ A (wf_obj _ (proj1 I)) (written_vok _ _ _ I Wv)) as T.
      assert (T0 : tagat (heap (fst st)) l TGauge) by (eexists; split; [exact H|reflexivity]).
      destruct v; cbn in A; try contradiction; try (pose proof (tag_unique _ _ _ _ T0 T); discriminate); try (destruct T as [T|[T|T]]; pose proof (tag_unique _ _ _ _ T0 T); discriminate).
      subst l0. specialize (D Wv). discriminate.
    + unfold World.step. cbn [fst snd]. rewrite C. exact H.
Qed.
Definition gfinv (l : nat) (st : state) (es : list f64) : Prop := nth_error (heap (fst st)) l = Some (OGaugeF (last (map float64bits es) 0%Z)).
Lemma gaugef_step l (st : state) es c o : inv st -> gfinv l st es -> gfinv l (fst (step mexp st (c, o))) (es ++ set_tof l st c o).
Proof.
  intros I H. unfold gfinv in *.
  assert (D : (exists y n, nth_error (snd st) y = Some (VGaugeF l) /\ c = OUpdateF y n) \/ (set_tof l st c o = [] /\ (writes_on (snd st) c = Some (VGaugeF l) -> World.call mexp (snd st) c = None))).
  { destruct c; try (right; split; [reflexivity|discriminate]); cbn [set_tof writes_on World.call];
      try (right; split; [reflexivity|]; intros ->; reflexivity);
      try (right; split; [reflexivity|]; unfold obind, arg; intros ->; reflexivity).
    destruct (nth_error (snd st) x) as [u|] eqn:E; [|right; split; [reflexivity|discriminate]]; destruct u; try (right; split; [reflexivity|discriminate]).
    destruct (Nat.eqb_spec l0 l) as [-> | N]; [left; exists x, v; split; auto|right; split; [reflexivity|congruence]]. }
  destruct D as [(y & n & E & ->)|[-> D]].
  - cbn [set_tof]. rewrite E, Nat.eqb_refl, map_app. cbn [map]. rewrite last_snoc. erewrite step_done; [|cbn [World.call]; rewrite E; reflexivity|].
    2: { unfold unit_rv, gaugef_update, gf_do, bind, load. rewrite H. unfold store, ret. reflexivity. }
    cbn [heap set_heap]. apply lset_nth_eq. apply nth_error_Some. congruence.
  - rewrite app_nil_r. destruct (World.call mexp (snd st) c) as [m|] eqn:C.
    + destruct (keeps_step mexp st c o l _ I H Logic.I) as (y & Ey & Cy); [|cbn in Cy; subst y; exact Ey].
      intros v Wv A. pose proof (aim_kind _ _ _ A (wf_obj _ (proj1 I)) (written_vok _ _ _ I Wv)) as T.
      assert (T0 : tagat (heap (fst st)) l TGaugeF) by (eexists; split; [exact H|reflexivity]).
      destruct v; cbn in A; try contradiction; try (pose proof (tag_unique _ _ _ _ T0 T); discriminate); try (destruct T as [T|[T|T]]; pose proof (tag_unique _ _ _ _ T0 T); discriminate).
      subst l0. specialize (D Wv). discriminate.
    + unfold World.step. cbn [fst snd]. rewrite C. exact H.
Qed.

(** ** new counters and gauges *)
Definition fresh_obj (v : val) (x : obj) : Prop :=
  match v with
  | VCounter _ => x = OCounter 0 | VGauge _ => x = OGauge 0 | VGaugeF _ => x = OGaugeF 0 | VHealth _ => exists f, x = OHealth None f
  | _ => False
  end.
Definition place (v : val) : option nat := match v with VCounter l | VGauge l | VGaugeF l | VHealth l => Some l | _ => None end.
Lemma construct_simple ct o w w' i l : construct mexp ct o w = (w', Ok i) -> place i = Some l -> exists x, heap w' = heap w ++ [x] /\ l = List.length (heap w) /\ fresh_obj i x.
Proof.
  intros C P. destruct ct; cbn [construct] in C; unfold new_uniform, new_exp, new_hist, new_ewma, new_meter, new_timer in C;
    apply unless_nil_ok in C; destruct C as [(U & -> & ->)|(U & C)]; try discriminate P.
  all: try (inversion C; subst i w'; cbn in P; try discriminate; inversion P; subst; cbn; eauto; fail).
  - destruct (size <? 0)%Z; [discriminate|]. inversion C; subst; discriminate.
  - destruct (size <? 0)%Z; [discriminate|]. inversion C; subst; discriminate.
  - exfalso. assert (G : gv (fun v => place v = None) (bind (alloc (OMeterSnap 0 0 0 0 0)) (fun s => bind (new_ewma (ewma_alpha mexp 1)) (fun a1 => bind (new_ewma (ewma_alpha mexp 5)) (fun a5 => bind (new_ewma (ewma_alpha mexp 15)) (fun a15 => bind (ask o_now) (fun now => bind (alloc (OMeter s a1 a5 a15 now false)) (fun l => bind (fun _ w => (MkWorld (heap w) (alive w ++ [l]) true (usenil w), Ok tt)) (fun _ => ret (VMeter l)))))))))) by (repeat (apply gv_bind; intros ?); apply gv_ret; reflexivity).
    rewrite (G _ _ _ _ C) in P. discriminate.
  - exfalso. match type of C with ?m o w = _ => assert (G : gv (fun v => place v = None) m) by (repeat (apply gv_bind; intros ?); apply gv_ret; reflexivity) end.
    rewrite (G _ _ _ _ C) in P. discriminate.
Qed.
Lemma fresh_simple (st : state) c o v l : inv st -> snd (step mexp st (c, o)) = Some (Ok (RVal v)) -> place v = Some l -> List.length (heap (fst st)) <= l ->
  exists x, nth_error (heap (fst (fst (step mexp st (c, o))))) l = Some x /\ fresh_obj v x.
Proof.
  intros I R P L. pose proof (yields_origin mexp st c o _ I R) as O. cbn [yields] in O. inversion O as [|? ? O' _]; subst.
  assert (Old : vok (heap (fst st)) v -> False).
  { intros V. destruct v; cbn in P; try discriminate; inversion P; subst; destruct V as (y & E & _); apply nth_lt in E; lia. }
  destruct O' as [H|[(l0 & n & H)|[H|(nk & ct & w1 & Ek & Ec & Ea & H)]]].
  - exfalso. apply Old. pose proof (proj2 I) as V. rewrite Forall_forall in V. auto.
  - exfalso. apply Old. apply (registered_vok _ _ _ _ (proj1 I) H).
  - exfalso. destruct v; try discriminate; exact H.
  - destruct (construct_simple _ _ _ _ _ _ Ec P) as (x & Eh & -> & F). exists x. split; auto. apply (but_reg_at _ _ _ x H).
    + destruct v; try discriminate P; cbn in F; try (subst x; discriminate); destruct F as (f & ->); discriminate.
    + rewrite Eh. apply nth_snoc.
Qed.
End Exp.
