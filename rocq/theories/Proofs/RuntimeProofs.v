(** Metrics made by NewGauge, NewGaugeFloat64, NewHistogram over NewExpDecaySample(1028, 0.015)
    and NewTimer: updating them never panics, and what it changes. *)
From Coq Require Import ZArith List String Bool Lia Arith Permutation.
From Verif.Model Require Import GoInt GoFloat GoBase Stats Uniform ExpDecay Conc CounterGauge Ewma Meter World Runtime.
From Verif.Spec Require Import RegistrySpec.
From Verif.Proofs Require Import WorldBase WorldStep WorldFrame WorldSnap RegistryProofs RegistryStep RegistryNew ExpDecayProofs TimerHistory.
From Verif.Props Require RegistryProps.
Import ListNotations.
Local Open Scope nat_scope.
Local Open Scope list_scope.

Definition N0 : nat := Z.to_nat 1028.
Lemma swf_update mexp x t v u : swf N0 x -> swf N0 (fst (exp_update mexp x t v u)) /\ snd (exp_update mexp x t v u) = Ok tt.
Proof.
  intros W. unfold exp_update. destruct (exp_update_ok N0 x t v u (mexp (exp_arg1 x t)) (mexp (exp_arg2 x t)) ltac:(unfold N0; lia) W) as (s' & gone & keep & E & W' & _).
  rewrite E. auto.
Qed.
Lemma swf_clear x t : swf N0 x -> swf N0 (exp_clear x t).
Proof. intros (A & B & C). unfold swf, exp_clear. cbn. repeat split; auto. lia. Qed.
Lemma swf_new alpha t : swf N0 (NewExpDecaySample N0 alpha t).
Proof. unfold swf, NewExpDecaySample, newHeap. cbn [x_size x_heap h_arr h_len]. split; [reflexivity|]. split; [apply repeat_length|lia]. Qed.

(** ** a sample stays well-formed *)
Section Good.
Variable mexp : f64 -> f64.
Variable e : nat.
Definition G (w : world) : Prop := exists x, nth_error (heap w) e = Some (OExp x) /\ swf N0 x.
Definition kg {A} (m : M A) : Prop := forall o w, G w -> G (fst (m o w)).
Lemma kg_bind {A B} (m : M A) (f : A -> M B) : kg m -> (forall r, kg (f r)) -> kg (bind m f).
Proof. intros H F o w q. unfold bind. specialize (H o w q). destruct (m o w) as [w' [r|msg]]; cbn [fst] in *; auto. now apply F. Qed.
Lemma kg_ret {A} (r : A) : kg (ret r). Proof. intros o w q. exact q. Qed.
Lemma kg_throw {A} m : kg (@throw A m). Proof. intros o w q. exact q. Qed.
Lemma kg_lift {A} (r : res A) : kg (lift r). Proof. intros o w q. exact q. Qed.
Lemma kg_ask {A} (f : orc -> A) : kg (ask f). Proof. intros o w q. exact q. Qed.
Lemma kg_load l : kg (load l). Proof. intros o w q. unfold load. destruct (nth_error _ _); exact q. Qed.
Lemma kg_alloc y : kg (alloc y). Proof. intros o w (x & E & W). exists x. split; auto. unfold alloc. cbn [fst heap set_heap]. now apply nth_app_l. Qed.
Lemma G_store w l y z : G w -> nth_error (heap w) l = Some y -> tag_of y <> TExp -> G (set_heap (lset (heap w) l z) w).
Proof. intros (x & E & W) El D. exists x. split; auto. cbn [heap set_heap]. rewrite lset_nth_neq; auto. intros ->. rewrite E in El. inversion El; subst. cbn in D. congruence. Qed.
Lemma G_store_exp w l x x' : G w -> nth_error (heap w) l = Some (OExp x) -> (swf N0 x -> swf N0 x') -> G (set_heap (lset (heap w) l (OExp x')) w).
Proof.
  intros (y & E & W) El D. destruct (Nat.eq_dec l e) as [->|N].
  - exists x'. cbn [heap set_heap]. rewrite lset_nth_eq by (eapply nth_lt; eauto). split; auto. apply D. congruence.
  - exists y. cbn [heap set_heap]. rewrite lset_nth_neq; auto.
Qed.
Lemma kg_ewma_do l op : kg (ewma_do l op).
Proof.
  unfold ewma_do. intros o w q. unfold bind at 1, load. destruct (nth_error (heap w) l) as [y|] eqn:E; [|exact q]. destruct y; try exact q. destruct (cseq _ _) as [[e' r]|]; [|exact q].
  unfold bind, store, ret. cbn [fst]. apply (G_store w l _ _ q E). discriminate.
Qed.
Lemma kg_ewma_mut op v : kg (ewma_mut op v).
Proof. destruct v; cbn; auto using kg_throw, kg_ret. apply kg_bind; [apply kg_ewma_do|intros; apply kg_ret]. Qed.
Lemma kg_ewma_rate v : kg (ewma_rate v).
Proof. destruct v; cbn; auto using kg_throw, kg_ret, kg_ewma_do. Qed.
Lemma kg_update_snapshot m : kg (update_snapshot m).
Proof.
  unfold update_snapshot. do 3 (apply kg_bind; [apply kg_ewma_rate|intros ?]). unfold msnap_get.
  intros o w q. unfold bind at 1 2. unfold load. destruct (nth_error (heap w) (mo_snap m)) as [y|] eqn:E; [|exact q].
  destruct y; try exact q. unfold ret, bind, ask, store. cbn [fst]. apply (G_store w _ _ _ q E). discriminate.
Qed.
Lemma kg_mark n v : kg (meter_mark n v).
Proof.
  destruct v; cbn; auto using kg_throw, kg_ret. intros o w q. unfold meter_get. unfold bind at 1 2. unfold load.
  destruct (nth_error (heap w) l) as [y|] eqn:E; [|exact q]. destruct y; try exact q. cbn [ret mo_stopped].
  destruct stopped; [exact q|]. unfold msnap_get. unfold bind at 1 2. unfold load. cbn [mo_snap].
  destruct (nth_error (heap w) snap) as [y|] eqn:E1; [|exact q]. destruct y; try exact q. cbn [ret].
  match goal with |- G (fst (?m o w)) => enough (X : exists m', m = bind (store snap (OMeterSnap (wrap64 (count + n)) r1 r5 r15 mean)) m' /\ forall r, kg (m' r)) end.
  - destruct X as (m' & -> & X). unfold bind, store. apply X. apply (G_store w _ _ _ q E1). discriminate.
  - eexists. split; [reflexivity|]. intros ?. do 3 (apply kg_bind; [apply kg_ewma_mut|intros ?]). apply kg_update_snapshot.
Qed.
Lemma kg_sample_update n v : kg (sample_update mexp n v).
Proof.
  destruct v; cbn [sample_update]; auto using kg_throw, kg_ret.
  - intros o w q. unfold uni_get, arr_get. unfold bind at 1 2. unfold load. destruct (nth_error (heap w) l) as [y|] eqn:E; [|exact q]. destruct y; try exact q. cbn [ret].
    unfold bind at 1 2. destruct (nth_error (heap w) arr) as [y|] eqn:E1; [|exact q]. destruct y; try exact q. cbn [ret]. unfold bind at 1, ask. cbn [fst].
    destruct (uni_update _ _ _) as [u r]. unfold bind, store, lift. cbn [fst]. assert (D' : arr <> l) by congruence.
    refine (G_store (set_heap (lset (heap w) arr (OArr (u_values u))) w) l (OUniform count size arr) _ (G_store w arr (OArr xs) _ q E1 _) _ _); try (cbn; congruence).
    cbn [heap set_heap]. rewrite lset_nth_neq by auto. exact E.
  - intros o w q. unfold exp_get. unfold bind at 1 2. unfold load. destruct (nth_error (heap w) l) as [y|] eqn:E; [|exact q]. destruct y; try exact q. cbn [ret].
    unfold bind at 1 2, ask. pose proof (swf_update mexp x (o_now o) n (o_rand o)) as S. destruct (exp_update _ _ _ _ _) as [s' r]. unfold bind, store, lift. cbn [fst snd] in *.
    apply (G_store_exp w _ _ _ q E). intros W. apply S, W.
Qed.
Lemma kg_sample_clear v : kg (sample_clear v).
Proof.
  destruct v; cbn [sample_clear]; auto using kg_throw, kg_ret.
  - intros o w q. unfold uni_get. unfold bind at 1 2. unfold load. destruct (nth_error (heap w) l) as [y|] eqn:E; [|exact q]. destruct y; try exact q. cbn [ret].
    unfold bind, new_slice. pose proof (kg_alloc (OArr []) o w q) as q'. unfold alloc in *. unfold store. cbn [fst] in *. eapply G_store; [exact q'|cbn [heap set_heap]; apply nth_app_l; exact E|discriminate].
  - intros o w q. unfold exp_get. unfold bind at 1 2. unfold load. destruct (nth_error (heap w) l) as [y|] eqn:E; [|exact q]. destruct y; try exact q. cbn [ret].
    unfold bind, ask, store. cbn [fst]. apply (G_store_exp w _ _ _ q E). apply swf_clear.
Qed.
Lemma kg_hist_sample v : kg (hist_sample v).
Proof. intros o w q. destruct v; try exact q; cbn [hist_sample]; unfold bind, load; destruct (nth_error (heap w) l) as [y|]; try exact q; destruct y; exact q. Qed.
Lemma kg_hist_update n v : kg (hist_update mexp n v).
Proof. unfold hist_update. destruct v; auto using kg_throw; (apply kg_bind; [apply kg_hist_sample|intros; apply kg_sample_update]). Qed.
Lemma kg_hist_clear v : kg (hist_clear v).
Proof. unfold hist_clear. destruct v; auto using kg_throw; (apply kg_bind; [apply kg_hist_sample|intros; apply kg_sample_clear]). Qed.
Lemma kg_timer_get v : kg (timer_get v).
Proof. intros o w q. destruct v; try exact q; cbn [timer_get]; unfold bind, load; destruct (nth_error (heap w) l) as [y|]; try exact q; destruct y; exact q. Qed.
Lemma kg_timer_update d v : kg (timer_update mexp d v).
Proof. destruct v; auto using kg_throw, kg_ret; try (intros o w q; exact q). unfold timer_update. apply kg_bind; [apply kg_timer_get|]. intros [h m]. apply kg_bind; [apply kg_hist_update|intros; apply kg_mark]. Qed.
Lemma kg_timer_update_since d v : kg (timer_update_since mexp d v).
Proof. destruct v; auto using kg_throw, kg_ret; try (intros o w q; exact q). unfold timer_update_since. apply kg_bind; [apply kg_ask|intros now]. apply kg_bind; [apply kg_timer_get|]. intros [h m]. apply kg_bind; [apply kg_hist_update|intros; apply kg_mark]. Qed.
Lemma kg_g_do l op : kg (g_do l op).
Proof. intros o w q. unfold g_do. unfold bind at 1, load. destruct (nth_error (heap w) l) as [y|] eqn:E; [|exact q]. destruct y; try exact q. unfold bind, store, ret. cbn [fst]. apply (G_store w l _ _ q E). discriminate. Qed.
Lemma kg_c_do l op : kg (c_do l op).
Proof. intros o w q. unfold c_do, c_load. unfold bind at 1 2, load. destruct (nth_error (heap w) l) as [y|] eqn:E; [|exact q]. destruct y; try exact q. unfold ret, bind, store. cbn [fst]. apply (G_store w l _ _ q E). discriminate. Qed.
Lemma exp_stays_good (st : state) c o : inv st -> G (fst st) -> G (fst (fst (step mexp st (c, o)))).
Proof.
  intros I q. assert (D : In TExp (touch c) \/ ~ In TExp (touch c)) by (destruct c; cbn; intuition congruence).
  destruct D as [D|D]; [|destruct q as (x & E & W); exists x; split; auto; apply untouched; auto; cbn; auto].
  unfold World.step.
  assert (R : forall m : M rv, kg m -> G (fst (fst (let (w, r) := m o (fst st) in match r with Ok r0 => ((w, snd st ++ yields r0), Some (Ok r0)) | Panic msg => ((w, snd st), Some (Panic msg)) end)))).
  { intros m K. specialize (K o (fst st) q). destruct (m o (fst st)) as [w' [z|msg]]; auto. }
  assert (U : forall m : M unit, kg m -> kg (unit_rv m)) by (intros m K; unfold unit_rv; apply kg_bind; [exact K|intros; apply kg_ret]).
  destruct c; cbn in D; try (exfalso; intuition congruence; fail); cbn [fst snd World.call]; unfold obind, only;
    destruct (nth_error (snd st) x) as [v|]; try exact q.
  - unfold m_clear. destruct (cls v) eqn:C; try exact q; apply R, U; auto using kg_sample_clear, kg_hist_clear.
    destruct v; cbn in C; try discriminate; cbn [counter_mut]; auto using kg_throw, kg_ret. apply kg_bind; [apply kg_c_do|intros; apply kg_ret].
  - unfold m_update. destruct (cls v) eqn:C; try exact q; apply R, U; auto using kg_sample_update, kg_hist_update, kg_ewma_mut, kg_timer_update.
    destruct v; cbn in C; try discriminate; cbn [gauge_update]; auto using kg_throw, kg_ret. apply kg_bind; [apply kg_g_do|intros; apply kg_ret].
  - destruct (class_eqb (cls v) CTimer); [|exact q]. apply R, U. unfold timer_end. apply kg_bind; [apply kg_ask|intros; apply kg_timer_update].
  - destruct (class_eqb (cls v) CTimer); [|exact q]. apply R, U. apply kg_timer_update_since.
Qed.
End Good.

(** ** the metrics, and the object each keeps its value in *)
Definition made (w : world) (k : mk) (v : val) : Prop :=
  match k with
  | MGauge => exists l, v = VGauge l
  | MGaugeF => exists l, v = VGaugeF l
  | MHist => exists l e, v = VHist l /\ nth_error (heap w) l = Some (OHist (VExp e)) /\ G e w
  | MTimer => exists l hl m e, v = VTimer l /\ nth_error (heap w) l = Some (OTimer (VHist hl) (VMeter m)) /\ nth_error (heap w) hl = Some (OHist (VExp e)) /\ G e w
  end.
Definition stub (k : mk) : val := match k with MGauge => VNilGauge | MGaugeF => VNilGaugeF | MHist => VNilHist | MTimer => VNilTimer end.
Definition own (w : world) (v : val) : option nat :=
  match v with
  | VGauge l | VGaugeF l => Some l
  | VHist l => match nth_error (heap w) l with Some (OHist (VExp e)) => Some e | _ => None end
  | VTimer l =>
    match nth_error (heap w) l with
    | Some (OTimer (VHist hl) _) => match nth_error (heap w) hl with Some (OHist (VExp e)) => Some e | _ => None end
    | _ => None
    end
  | _ => None
  end.
Inductive payload := UZ (n : Z) | UF (x : f64) | US (t : Z).
Definition call_of (xp : nat * payload) : op :=
  match snd xp with UZ n => OUpdate (fst xp) n | UF x => OUpdateF (fst xp) x | US t => OUpdateSince (fst xp) t end.
Definition fits (k : mk) (p : payload) : Prop :=
  match k, p with MGauge, UZ _ | MHist, UZ _ | MGaugeF, UF _ | MTimer, US _ => True | _, _ => False end.
Definition cell (y : obj) : Prop := match y with OGauge _ | OGaugeF _ | OExp _ => True | _ => False end.

Section Upd.
Variable mexp : f64 -> f64.
Definition app1 (y : obj) (p : payload) (o : orc) : obj :=
  match y, p with
  | OGauge _, UZ n => OGauge n
  | OGaugeF _, UF x => OGaugeF (float64bits x)
  | OExp s, UZ n => OExp (fst (exp_update mexp s (o_now o) n (o_rand o)))
  | OExp s, US t => OExp (fst (exp_update mexp s (o_now o) (time_sub (o_now o) t) (o_rand o)))
  | _, _ => y
  end.
Lemma keeps_obj (st : state) c o l y : inv st -> nth_error (heap (fst st)) l = Some y -> match y with OHist _ | OTimer _ _ => True | _ => False end ->
  nth_error (heap (fst (fst (step mexp st (c, o))))) l = Some y.
Proof.
  intros I E T. destruct (step_inv mexp st c o I) as (_ & (_ & L & _) & _). destruct (L _ _ E) as (y' & E' & X). rewrite E'. destruct y; try contradiction; cbn in X; destruct y'; cbn in X; try discriminate X; congruence.
Qed.
Lemma made_step (st : state) c o k v : inv st -> made (fst st) k v ->
  made (fst (fst (step mexp st (c, o)))) k v /\ own (fst (fst (step mexp st (c, o)))) v = own (fst st) v.
Proof.
  intros I M. destruct k; cbn [made] in M |- *.
  - destruct M as (l & ->). split; eauto.
  - destruct M as (l & ->). split; eauto.
  - destruct M as (l & e & -> & E & g). pose proof (keeps_obj st c o l _ I E Logic.I) as E'. split; [exists l, e; split; auto; split; auto; apply exp_stays_good; auto|]. cbn [own]. now rewrite E, E'.
  - destruct M as (l & hl & m & e & -> & E & Eh & g). pose proof (keeps_obj st c o l _ I E Logic.I) as E'. pose proof (keeps_obj st c o hl _ I Eh Logic.I) as Eh'.
    split; [exists l, hl, m, e; repeat split; auto; apply exp_stays_good; auto|]. cbn [own]. now rewrite E, E', Eh, Eh'.
Qed.
Lemma made_run p : forall (st : state) k v, inv st -> made (fst st) k v -> made (fst (run mexp st p)) k v /\ own (fst (run mexp st p)) v = own (fst st) v.
Proof.
  induction p as [|[c o] p IH]; intros st k v I M; [auto|]. rewrite (WorldStep.run_cons mexp). destruct (made_step st c o k v I M) as [M' O'].
  destruct (IH (fst (step mexp st (c, o))) k v (proj1 (step_inv mexp st c o I)) M') as [A B]. split; congruence.
Qed.
Lemma made_own w k v : made w k v -> exists l, own w v = Some l.
Proof. destruct k; cbn; intros H; repeat match goal with H : exists _, _ |- _ => destruct H | H : _ /\ _ |- _ => destruct H end; subst; cbn [own]; repeat match goal with H : nth_error _ _ = _ |- _ => rewrite H end; eauto. Qed.
Lemma made_cell (st : state) k v l : inv st -> In v (snd st) -> made (fst st) k v -> own (fst st) v = Some l -> exists y, nth_error (heap (fst st)) l = Some y /\ cell y /\
  match k with MGauge => exists n, y = OGauge n | MGaugeF => exists b, y = OGaugeF b | _ => exists s, y = OExp s /\ swf N0 s end.
Proof.
  intros [W F] Hv M O. rewrite Forall_forall in F. specialize (F v Hv). destruct k; cbn in M.
  - destruct M as (l' & ->). cbn in O, F. inversion O; subst. destruct F as (y & E & T). exists y. destruct y; cbn in T; try discriminate. cbn. eauto.
  - destruct M as (l' & ->). cbn in O, F. inversion O; subst. destruct F as (y & E & T). exists y. destruct y; cbn in T; try discriminate. cbn. eauto.
  - destruct M as (l' & e & -> & E & (x & Ex & S)). cbn in O. rewrite E in O. inversion O; subst. exists (OExp x). cbn. eauto.
  - destruct M as (l' & hl & m & e & -> & E & Eh & (x & Ex & S)). cbn in O. rewrite E, Eh in O. inversion O; subst. exists (OExp x). cbn. eauto.
Qed.
Lemma nil_upd (st : state) x k p o : nth_error (snd st) x = Some (stub k) -> fits k p -> step mexp st (call_of (x, p), o) = (st, Some (Ok RUnit)).
Proof.
  intros E F. destruct k, p; cbn in F; try contradiction; unfold World.step; cbn [call_of fst snd World.call stub] in *; unfold obind, only; rewrite E; cbn; destruct st as [w e]; cbn; now rewrite app_nil_r.
Qed.
Lemma hist_update_ok w l e s n o : nth_error (heap w) l = Some (OHist (VExp e)) -> nth_error (heap w) e = Some (OExp s) -> swf N0 s ->
  hist_update mexp n (VHist l) o w = (set_heap (lset (heap w) e (OExp (fst (exp_update mexp s (o_now o) n (o_rand o))))) w, Ok tt).
Proof.
  intros E Ee S. unfold hist_update, hist_sample. unfold bind at 1 2, load. rewrite E. unfold ret, sample_update, exp_get. unfold bind at 1 2, load. rewrite Ee. unfold ret, ask. unfold bind at 1 2.
  destruct (swf_update mexp s (o_now o) n (o_rand o) S) as [_ P]. destruct (exp_update mexp s (o_now o) n (o_rand o)) as [s' r]. cbn [fst snd] in *. subst r. reflexivity.
Qed.
Lemma upd (st : state) x v k p o : inv st -> nth_error (snd st) x = Some v -> made (fst st) k v -> fits k p ->
  exists w', step mexp st (call_of (x, p), o) = ((w', snd st), Some (Ok RUnit)) /\ usenil w' = usenil (fst st) /\
    (forall l y, nth_error (heap (fst st)) l = Some y -> cell y ->
       nth_error (heap w') l = Some (if match own (fst st) v with Some l' => Nat.eqb l' l | None => false end then app1 y p o else y)).
Proof.
  intros I E M F. assert (Hv : In v (snd st)) by (eapply nth_error_In; eauto).
  destruct (made_own _ _ _ M) as (lo & O). destruct (made_cell st k v lo I Hv M O) as (yo & Eo & Co & Ko). rewrite O.
  destruct k; cbn in M; destruct p; cbn in F; try contradiction.
  - destruct M as (l & ->). cbn in O. inversion O; subst lo. clear O. destruct Ko as (n0 & ->).
    exists (set_heap (lset (heap (fst st)) l (OGauge n)) (fst st)). split; [|split; [reflexivity|]].
    + unfold World.step. cbn [call_of fst snd World.call]. unfold obind. rewrite E. cbn [m_update cls]. unfold unit_rv, gauge_update, g_do. unfold bind, load. rewrite Eo. unfold store, ret. cbn [yields]. rewrite app_nil_r. reflexivity.
    + intros l' y Ey C. cbn [heap set_heap]. destruct (Nat.eqb_spec l l') as [<-|D]; [|rewrite lset_nth_neq; auto]. rewrite lset_nth_eq by (eapply nth_lt; eauto). rewrite Eo in Ey. inversion Ey; subst. reflexivity.
  - destruct M as (l & ->). cbn in O. inversion O; subst lo. clear O. destruct Ko as (n0 & ->).
    exists (set_heap (lset (heap (fst st)) l (OGaugeF (float64bits x0))) (fst st)). split; [|split; [reflexivity|]].
    + unfold World.step. cbn [call_of fst snd World.call]. unfold obind, only. rewrite E. cbn [cls class_eqb]. unfold unit_rv, gaugef_update, gf_do. unfold bind, load. rewrite Eo. unfold store, ret. cbn [yields]. rewrite app_nil_r. reflexivity.
    + intros l' y Ey C. cbn [heap set_heap]. destruct (Nat.eqb_spec l l') as [<-|D]; [|rewrite lset_nth_neq; auto]. rewrite lset_nth_eq by (eapply nth_lt; eauto). rewrite Eo in Ey. inversion Ey; subst. reflexivity.
  - destruct M as (l & e & -> & El & g). cbn in O. rewrite El in O. inversion O; subst lo. clear O. destruct Ko as (s & -> & S).
    exists (set_heap (lset (heap (fst st)) e (OExp (fst (exp_update mexp s (o_now o) n (o_rand o))))) (fst st)). split; [|split; [reflexivity|]].
    + unfold World.step. cbn [call_of fst snd World.call]. unfold obind. rewrite E. cbn [m_update cls]. unfold unit_rv. unfold bind. rewrite (hist_update_ok (fst st) l e s n o El Eo S). unfold ret. cbn [yields]. rewrite app_nil_r. reflexivity.
    + intros l' y Ey C. cbn [heap set_heap]. destruct (Nat.eqb_spec e l') as [<-|D]; [|rewrite lset_nth_neq; auto]. rewrite lset_nth_eq by (eapply nth_lt; eauto). rewrite Eo in Ey. inversion Ey; subst. reflexivity.
  - destruct M as (l & hl & m & e & -> & El & Eh & g). cbn in O. rewrite El, Eh in O. inversion O; subst lo. clear O. destruct Ko as (s & -> & S).
    set (c := call_of (x, US t)). 
    assert (R : exists w1, hist_update mexp (time_sub (o_now o) t) (VHist hl) o (fst st) = (w1, Ok tt) /\ w1 = set_heap (lset (heap (fst st)) e (OExp (fst (exp_update mexp s (o_now o) (time_sub (o_now o) t) (o_rand o))))) (fst st)).
    { eexists. split; [apply (hist_update_ok (fst st) hl e s _ o Eh Eo S)|reflexivity]. }
    destruct R as (w1 & R & Ew1).
    assert (PR : pres (fun t => match t with TEwma | TMeterSnap => true | _ => false end) false (meter_mark 1 (VMeter m))) by (apply pres_meter_mark; reflexivity).
    pose proof (PR o w1) as FR. 
    assert (Q : step mexp st (c, o) = match meter_mark 1 (VMeter m) o w1 with (w, Ok _) => ((w, snd st), Some (Ok RUnit)) | (w, Panic msg) => ((w, snd st), Some (Panic msg)) end).
    { subst c. unfold World.step. cbn [call_of fst snd World.call]. unfold obind, only. rewrite E. cbn [cls class_eqb]. unfold unit_rv, timer_update_since, timer_get. unfold bind, ask, load. rewrite El. unfold ret. rewrite R.
      destruct (meter_mark 1 (VMeter m) o w1) as [w2 [[]|msg]]; cbn [yields]; rewrite ?app_nil_r; reflexivity. }
    destruct (step_inv mexp st c o I) as ((W' & _) & L & _ & ND). rewrite Q in W', ND, L.
    assert (OKm : exists w2, meter_mark 1 (VMeter m) o w1 = (w2, Ok tt)).
    { pose proof (wf_obj _ (proj1 I) _ _ El) as Ot. cbn in Ot. destruct Ot as [_ [_ (ym & Em & Tm)]]. destruct ym; cbn in Tm; try discriminate.
      pose proof (wf_obj _ (proj1 I) _ _ Em) as Om. cbn in Om. destruct Om as [(ys & Es & Ts) _]. destruct ys; cbn in Ts; try discriminate.
      assert (K1 : forall l0 y, nth_error (heap (fst st)) l0 = Some y -> tag_of y <> TExp -> nth_error (heap w1) l0 = Some y).
      { intros l0 y E0 N0'. subst w1. cbn [heap set_heap]. rewrite lset_nth_neq; auto. intros <-. rewrite Eo in E0. inversion E0; subst. cbn in N0'. congruence. }
      assert (SH : mshape (heap w1)).
      { intros l0 s' a' b' c' t' st' E0. apply (wf_shape _ (proj1 I) l0 s' a' b' c' t' st'). subst w1. cbn [heap set_heap] in E0. destruct (Nat.eq_dec e l0) as [<-|D]; [rewrite lset_nth_eq in E0 by (eapply nth_lt; eauto); discriminate|rewrite lset_nth_neq in E0; auto]. }
      pose proof (mark_ok m snap a1 a5 a15 start stopped count 1 o w1 SH (K1 _ _ Em ltac:(discriminate)) ltac:(exists r1, r5, r15, mean; apply K1; [exact Es|discriminate])) as MO.
      destruct (meter_mark 1 (VMeter m) o w1) as [w2 [[]|msg]]; [eauto|]. exfalso. apply ND. cbn. congruence. }
    destruct OKm as (w2 & OKm). rewrite OKm in *. cbn [fst] in FR. exists w2. split; [exact Q|]. cbn [fst] in L.
    destruct FR as (Ln & FF & _ & Us & _). split; [rewrite Us; subst w1; reflexivity|].
    intros l' y Ey C. destruct L as (_ & L & _). cbn [fst] in L. destruct (L _ _ Ey) as (y' & Ey' & X). apply chg_tag in X. rewrite Ey'.
    assert (Ey1 : nth_error (heap w1) l' = Some y').
    { apply FF; [subst w1; cbn [heap set_heap]; rewrite lset_length; eapply nth_lt; eauto|exact Ey'|]. rewrite <- X. destruct y; cbn in C; try contradiction; reflexivity. }
    subst w1. cbn [heap set_heap] in Ey1. destruct (Nat.eqb_spec e l') as [<-|D].
    + rewrite lset_nth_eq in Ey1 by (eapply nth_lt; eauto). rewrite Eo in Ey. inversion Ey; subst. inversion Ey1. reflexivity.
    + rewrite lset_nth_neq in Ey1 by auto. congruence.
Qed.

(** ** several of them *)
Definition owner (st : state) (x : nat) : option nat := match nth_error (snd st) x with Some v => own (fst st) v | None => None end.
Fixpoint eff (ow : nat -> option nat) (l : nat) (its : list (nat * payload)) (os : nat -> orc) (y : obj) : obj :=
  match its with
  | [] => y
  | (x, p) :: r => eff ow l r (fun n => os (S n)) (if match ow x with Some l' => Nat.eqb l' l | None => false end then app1 y p (os 0) else y)
  end.
Definition ready (st : state) (xp : nat * payload) : Prop :=
  exists k v, nth_error (snd st) (fst xp) = Some v /\ (made (fst st) k v \/ v = stub k) /\ fits k (snd xp).
Lemma eff_ext ow ow' l its : (forall xp, In xp its -> ow (fst xp) = ow' (fst xp)) -> forall os y, eff ow l its os y = eff ow' l its os y.
Proof.
  induction its as [|[x p] its IH]; intros H os y; [reflexivity|]. cbn [eff]. pose proof (H (x, p) (or_introl eq_refl)) as Hx. cbn [fst] in Hx. rewrite Hx. apply IH. intros xp Hxp. apply H. right. exact Hxp.
Qed.
Lemma upds its : forall (st : state) os, inv st -> Forall (ready st) its ->
  exists w', exec mexp st (map call_of its) os = ((w', snd st), None) /\ inv (w', snd st) /\ usenil w' = usenil (fst st) /\
    (forall l n, registered w' l n = registered (fst st) l n) /\
    (forall l y, nth_error (heap (fst st)) l = Some y -> cell y -> nth_error (heap w') l = Some (eff (owner st) l its os y)) /\
    (forall k v, made (fst st) k v -> made w' k v /\ own w' v = own (fst st) v).
Proof.
  induction its as [|[x p] its IH]; intros st os I F.
  - exists (fst st). cbn [map exec]. split; [destruct st; reflexivity|]. split; [destruct st; exact I|]. auto.
  - inversion F as [|? ? (k & v & E & M & Ft) F']; subst. cbn [map exec]. cbn [fst snd] in *.
    assert (ST : exists w1, step mexp st (call_of (x, p), os 0) = ((w1, snd st), Some (Ok RUnit)) /\ usenil w1 = usenil (fst st) /\
        (forall l y, nth_error (heap (fst st)) l = Some y -> cell y ->
           nth_error (heap w1) l = Some (if match owner st x with Some l' => Nat.eqb l' l | None => false end then app1 y p (os 0) else y))).
    { unfold owner. rewrite E. destruct M as [M| ->]; [apply (upd st x v k p (os 0) I E M Ft)|]. exists (fst st). rewrite (nil_upd st x k p (os 0) E Ft). split; [destruct st; reflexivity|]. split; auto.
      intros l y Ey C. replace (own (fst st) (stub k)) with (@None nat) by (destruct k; reflexivity). exact Ey. }
    destruct ST as (w1 & ST & U1 & C1). rewrite ST.
    pose proof (proj1 (step_inv mexp st (call_of (x, p)) (os 0) I)) as I1. rewrite ST in I1. cbn [fst] in I1.
    assert (MS : forall k0 v0, made (fst st) k0 v0 -> made w1 k0 v0 /\ own w1 v0 = own (fst st) v0).
    { intros k0 v0 M0. pose proof (made_step st (call_of (x, p)) (os 0) k0 v0 I M0) as K. rewrite ST in K. exact K. }
    assert (F1 : Forall (ready (w1, snd st)) its).
    { eapply Forall_impl; [|exact F']. intros [x' p'] (k' & v' & E' & M' & Ft'). exists k', v'. split; [exact E'|]. split; [|exact Ft']. destruct M' as [M'|M']; [left; apply MS; exact M'|auto]. }
    destruct (IH (w1, snd st) (fun n => os (S n)) I1 F1) as (w' & Ex & I' & U' & R' & C' & M'). exists w'. cbn [fst snd] in *. split; [exact Ex|]. split; [exact I'|]. split; [congruence|]. split; [|split].
    + intros l n. rewrite R'. pose proof (refine mexp st (call_of (x, p)) (os 0) I l n) as RR. rewrite ST in RR. cbn [fst snd] in RR. rewrite RR. unfold call_of. destruct p; reflexivity.
    + intros l y Ey C. cbn [eff]. rewrite (C' l _ (C1 l y Ey C)).
      2: { destruct (match owner st x with Some l' => Nat.eqb l' l | None => false end); [|exact C]. destruct y; cbn in C; try contradiction; destruct p; exact Logic.I. }
      f_equal. apply eff_ext. intros [x' p'] Hx'. rewrite Forall_forall in F'. destruct (F' _ Hx') as (k' & v' & E' & Mv & _). cbn [fst] in *. unfold owner. cbn [fst snd]. rewrite E'. destruct Mv as [Mv| ->]; [apply MS with k'; exact Mv|destruct k'; reflexivity].
    + intros k0 v0 M0. destruct (MS k0 v0 M0) as [A B]. destruct (M' k0 v0 A) as [A' B']. split; congruence.
Qed.
End Upd.

(** ** creation *)
Lemma F2_impl {A B} (P Q : A -> B -> Prop) la lb : (forall a b, P a b -> Q a b) -> Forall2 P la lb -> Forall2 Q la lb.
Proof. intros H F. induction F; auto. Qed.
Section Create.
Variable mexp : f64 -> f64.
Definition ctors (k : mk) (n : nat) : list op * nat :=
  match k with
  | MGauge => ([ONew NGauge], n)
  | MGaugeF => ([ONew NGaugeF], n)
  | MHist => ([ONew (NExp 1028 decay); ONew (NHist n)], S n)
  | MTimer => ([ONew NTimer], n)
  end.
Lemma creation_cons n f k r : creation n ((f, k) :: r) =
  (fst (ctors k n) ++ fst (creation (S (snd (ctors k n))) r), (f, snd (ctors k n)) :: snd (creation (S (snd (ctors k n))) r)).
Proof. cbn [creation]. unfold ctors. destruct k; cbn [fst snd]; destruct (creation _ r); reflexivity. Qed.
Lemma exec_ext cs : forall (st : state) (os os' : nat -> orc), (forall n, os n = os' n) -> exec mexp st cs os = exec mexp st cs os'.
Proof. induction cs as [|c cs IH]; intros st os os' H; cbn [exec]; [reflexivity|]. rewrite H. destruct (step mexp st (c, os' 0)) as [st' [[]|]]; auto; apply IH; intros n; apply H. Qed.
Lemma exec_app cs1 : forall (st : state) cs2 os, exec mexp st (cs1 ++ cs2) os =
  match exec mexp st cs1 os with (st', None) => exec mexp st' cs2 (fun n => os (n + List.length cs1)) | (st', Some m) => (st', Some m) end.
Proof.
  induction cs1 as [|c cs1 IH]; intros st cs2 os; cbn [app exec List.length].
  - apply exec_ext. intros n. now rewrite Nat.add_0_r.
  - destruct (step mexp st (c, os 0)) as [st' [[r|m]|]]; auto; rewrite IH; destruct (exec mexp st' cs1 _) as [st'' [m'|]]; auto; apply exec_ext; intros n; f_equal; lia.
Qed.
Definition blank (k : mk) (y : obj) : Prop :=
  match k with
  | MGauge => y = OGauge 0
  | MGaugeF => y = OGaugeF 0
  | MHist | MTimer => exists alpha t, y = OExp (NewExpDecaySample N0 alpha t)
  end.
Lemma step_new (st : state) k ct o w' v : ctor_of (snd st) k = Some ct -> construct mexp ct o (fst st) = (w', Ok v) ->
  step mexp st (ONew k, o) = ((w', snd st ++ [v]), Some (Ok (RVal v))).
Proof.
  intros E C. unfold World.step. cbn [fst snd World.call]. unfold obind. rewrite E. unfold v_rv, bind. rewrite C. reflexivity.
Qed.
Lemma new_timer_sample o w : usenil w = false -> exists h, fst (new_timer mexp o w) = MkWorld (heap w ++ OExp (NewExpDecaySample N0 f_0015 (o_now o)) :: OHist (VExp (List.length (heap w))) :: h) (alive w ++ [List.length (heap w) + 6]) true false.
Proof.
  intros U. unfold new_timer. unfold unless_nil at 1. unfold bind at 1, gets. rewrite U.
  assert (E1 : new_exp 1028 f_0015 o w = (set_heap (heap w ++ [OExp (NewExpDecaySample N0 f_0015 (o_now o))]) w, Ok (VExp (List.length (heap w))))).
  { unfold new_exp, unless_nil, bind at 1, gets. rewrite U. change (1028 <? 0)%Z with false. cbv iota. unfold bind, ask, alloc, ret, N0. reflexivity. }
  unfold bind at 1. rewrite E1.
  assert (E2 : forall v w, usenil w = false -> new_hist v o w = (set_heap (heap w ++ [OHist v]) w, Ok (VHist (List.length (heap w))))).
  { intros v w0 U0. unfold new_hist, unless_nil, bind at 1, gets. rewrite U0. reflexivity. }
  unfold bind at 1. rewrite E2 by exact U. unfold bind at 1. set (w2 := set_heap _ _).
  destruct (new_meter_eq mexp o w2 U) as (h & E3 & L). rewrite E3. unfold bind, alloc, ret. cbn [fst set_heap heap usenil alive ticking]. subst w2. cbn [set_heap heap alive]. 
  rewrite !app_length. cbn [List.length]. rewrite <- !app_assoc. cbn [app]. replace (List.length (heap w) + 1 + 1 + 4) with (List.length (heap w) + 6) by lia. eexists. reflexivity.
Qed.
Lemma create1 (st : state) k os : inv st -> usenil (fst st) = false ->
  exists w' ex v l y, exec mexp st (fst (ctors k (List.length (snd st)))) os = ((w', snd st ++ ex), None) /\
    List.length (snd st ++ ex) = S (snd (ctors k (List.length (snd st)))) /\
    nth_error (snd st ++ ex) (snd (ctors k (List.length (snd st)))) = Some v /\ usenil w' = false /\
    (exists h, heap w' = heap (fst st) ++ h) /\ made w' k v /\ own w' v = Some l /\ (List.length (heap (fst st)) <= l)%nat /\ nth_error (heap w') l = Some y /\ blank k y.
Proof.
  intros I U. destruct k; cbn [ctors fst snd exec].
  - rewrite (step_new st NGauge KGauge (os 0) (set_heap (heap (fst st) ++ [OGauge 0]) (fst st)) (VGauge (List.length (heap (fst st))))); [|reflexivity|cbn [construct]; unfold unless_nil, bind, gets; rewrite U; reflexivity].
    exists (set_heap (heap (fst st) ++ [OGauge 0]) (fst st)), [VGauge (List.length (heap (fst st)))], (VGauge (List.length (heap (fst st)))), (List.length (heap (fst st))), (OGauge 0).
    cbn [heap set_heap usenil own made blank]. split; [reflexivity|]. split; [rewrite app_length; cbn; lia|]. split; [apply nth_end|]. split; [exact U|]. split; [eauto|]. split; [eauto|]. split; [reflexivity|]. split; [lia|]. split; [apply nth_end|reflexivity].
  - rewrite (step_new st NGaugeF KGaugeF (os 0) (set_heap (heap (fst st) ++ [OGaugeF 0]) (fst st)) (VGaugeF (List.length (heap (fst st))))); [|reflexivity|cbn [construct]; unfold unless_nil, bind, gets; rewrite U; reflexivity].
    exists (set_heap (heap (fst st) ++ [OGaugeF 0]) (fst st)), [VGaugeF (List.length (heap (fst st)))], (VGaugeF (List.length (heap (fst st)))), (List.length (heap (fst st))), (OGaugeF 0).
    cbn [heap set_heap usenil own made blank]. split; [reflexivity|]. split; [rewrite app_length; cbn; lia|]. split; [apply nth_end|]. split; [exact U|]. split; [eauto|]. split; [eauto|]. split; [reflexivity|]. split; [lia|]. split; [apply nth_end|reflexivity].
  - set (s := NewExpDecaySample N0 decay (o_now (os 0))). set (e := List.length (heap (fst st))).
    set (w1 := set_heap (heap (fst st) ++ [OExp s]) (fst st)).
    rewrite (step_new st (NExp 1028 decay) (KExp 1028 decay) (os 0) w1 (VExp e)); [|reflexivity|cbn [construct]; unfold new_exp, unless_nil, bind at 1, gets; rewrite U; change (1028 <? 0)%Z with false; cbv iota; reflexivity].
    set (st1 := (w1, snd st ++ [VExp e])).
    rewrite (step_new st1 (NHist (List.length (snd st))) (KHist (VExp e)) (os 1) (set_heap (heap w1 ++ [OHist (VExp e)]) w1) (VHist (S e))).
    2: { cbn [ctor_of st1 snd]. unfold arg. rewrite nth_end. reflexivity. }
    2: { cbn [construct st1 fst]. unfold new_hist, unless_nil, bind, gets. subst w1. cbn [usenil set_heap]. rewrite U. unfold alloc, ret. cbn [heap set_heap]. rewrite app_length. cbn [List.length]. subst e. rewrite Nat.add_comm. reflexivity. }
    cbn [st1 fst snd]. exists (set_heap (heap w1 ++ [OHist (VExp e)]) w1), [VExp e; VHist (S e)], (VHist (S e)), e, (OExp s).
    assert (Ee : nth_error (heap w1 ++ [OHist (VExp e)]) e = Some (OExp s)) by (apply nth_app_l; subst w1; apply nth_end).
    assert (Eh : nth_error (heap w1 ++ [OHist (VExp e)]) (S e) = Some (OHist (VExp e))).
    { replace (S e) with (List.length (heap w1)) by (subst w1; cbn [heap set_heap]; rewrite app_length; cbn [List.length]; subst e; lia). apply nth_end. }
    cbn [heap set_heap usenil own made blank]. split; [now rewrite <- app_assoc|]. split; [rewrite app_length; cbn; lia|]. split; [replace (snd st ++ [VExp e; VHist (S e)]) with ((snd st ++ [VExp e]) ++ [VHist (S e)]) by now rewrite <- app_assoc|].
    { replace (S (List.length (snd st))) with (List.length (snd st ++ [VExp e])) by (rewrite app_length; cbn; lia). apply nth_end. }
    split; [exact U|]. split; [subst w1; cbn [heap set_heap]; rewrite <- app_assoc; eauto|]. split; [exists (S e), e; split; auto; split; auto; exists s; split; auto; apply swf_new|]. split; [now rewrite Eh|]. split; [subst e; lia|]. split; [exact Ee|]. cbn. exists decay, (o_now (os 0)). reflexivity.
  - destruct (new_timer_eq mexp (os 0) (fst st) U) as (h & E & L). destruct (new_timer_sample (os 0) (fst st) U) as (h' & E'). rewrite E in E'. cbn [fst] in E'. injection E' as Eh.
    set (n := List.length (heap (fst st))) in *.
    rewrite (step_new st NTimer KTimer (os 0) _ _ eq_refl E). rewrite Eh.
    assert (E0 : forall y z r, nth_error (heap (fst st) ++ y :: z :: r) n = Some y /\ nth_error (heap (fst st) ++ y :: z :: r) (n + 1) = Some z).
    { intros y z r. subst n. split; [rewrite nth_error_app2, Nat.sub_diag by lia; reflexivity|]. rewrite nth_error_app2 by lia. rewrite Nat.add_comm, Nat.add_sub. reflexivity. }
    match goal with |- context [MkWorld (heap (fst st) ++ ?y :: ?z :: ?r)] => destruct (E0 y z r) as [E1 E2] end.
    assert (E3 : nth_error (heap (fst st) ++ OExp (NewExpDecaySample N0 f_0015 (o_now (os 0))) :: OHist (VExp n) :: h') (n + 7) = Some (OTimer (VHist (n + 1)) (VMeter (n + 6)))).
    { rewrite <- Eh. replace (n + 7) with (List.length (heap (fst st) ++ h)) by (rewrite app_length, L; reflexivity). apply nth_end. }
    match goal with |- context [MkWorld ?hh ?a ?b ?c] => exists (MkWorld hh a b c), [VTimer (n + 7)], (VTimer (n + 7)), n, (OExp (NewExpDecaySample N0 f_0015 (o_now (os 0)))) end.
    cbn [heap usenil own made blank]. split; [reflexivity|]. split; [rewrite app_length; cbn; lia|]. split; [apply nth_end|]. split; [reflexivity|]. split; [eauto|].
    split; [exists (n + 7), (n + 1), (n + 6), n; split; auto; split; auto; split; auto; eexists; split; [exact E1|apply swf_new]|]. split; [now rewrite E3, E2|]. split; [lia|]. split; [exact E1|eauto].
Qed.
Lemma exec_inv cs : forall (st : state) os, inv st -> inv (fst (exec mexp st cs os)).
Proof.
  induction cs as [|c cs IH]; intros st os I; cbn [exec]; [exact I|]. pose proof (proj1 (step_inv mexp st c (os 0) I)) as I1. destruct (step mexp st (c, os 0)) as [st' [[r|m]|]]; cbn [fst] in *; auto.
Qed.
Lemma made_app w w' k v : (exists h, heap w' = heap w ++ h) -> made w k v -> made w' k v /\ own w' v = own w v.
Proof.
  intros (h & E) M. assert (A : forall l y, nth_error (heap w) l = Some y -> nth_error (heap w') l = Some y) by (intros; rewrite E; now apply nth_app_l).
  destruct k; cbn in M |- *.
  - destruct M as (l & ->). split; eauto.
  - destruct M as (l & ->). split; eauto.
  - destruct M as (l & e & -> & El & (x & Ex & S)). split; [exists l, e; repeat split; auto; exists x; auto|]. cbn [own]. now rewrite El, (A _ _ El).
  - destruct M as (l & hl & m & e & -> & El & Eh & (x & Ex & S)). split; [exists l, hl, m, e; repeat split; auto; exists x; auto|]. cbn [own]. now rewrite El, (A _ _ El), Eh, (A _ _ Eh).
Qed.
Definition entry_made (st : state) (n : nat) (fk : string * mk) (gi : string * nat) : Prop :=
  fst fk = fst gi /\ exists v l y, nth_error (snd st) (snd gi) = Some v /\ made (fst st) (snd fk) v /\ own (fst st) v = Some l /\ (n <= l)%nat /\ nth_error (heap (fst st)) l = Some y /\ blank (snd fk) y.
Definition apart (st : state) (tab : list (string * nat)) : Prop :=
  forall i j f g l, nth_error tab i = Some f -> nth_error tab j = Some g -> owner st (snd f) = Some l -> owner st (snd g) = Some l -> i = j.
Lemma create cr : forall (st : state) os, inv st -> usenil (fst st) = false ->
  exists w' ex, exec mexp st (fst (creation (List.length (snd st)) cr)) os = ((w', snd st ++ ex), None) /\ usenil w' = false /\
    (exists h, heap w' = heap (fst st) ++ h) /\
    Forall2 (entry_made (w', snd st ++ ex) (List.length (heap (fst st)))) cr (snd (creation (List.length (snd st)) cr)) /\
    apart (w', snd st ++ ex) (snd (creation (List.length (snd st)) cr)).
Proof.
  induction cr as [|[f k] cr IH]; intros st os I U.
  - exists (fst st), []. cbn [creation fst snd exec]. rewrite app_nil_r. split; [destruct st; reflexivity|]. split; [exact U|]. split; [exists []; now rewrite app_nil_r|]. split; [constructor|]. intros i j f g l E. destruct i; discriminate.
  - rewrite creation_cons. cbn [fst snd]. rewrite exec_app.
    destruct (create1 st k os I U) as (w1 & ex1 & v & l & y & Ex & Ln & Ev & U1 & (h1 & H1) & M1 & O1 & Hl & Ey & B).
    pose proof (exec_inv (fst (ctors k (List.length (snd st)))) st os I) as I1. rewrite Ex in I1. cbn [fst] in I1. rewrite Ex.
    destruct (IH (w1, snd st ++ ex1) (fun n => os (n + List.length (fst (ctors k (List.length (snd st)))))) I1 U1) as (w' & ex2 & Ex2 & U' & (h2 & H2) & F & A).
    cbn [fst snd] in *. rewrite Ln in Ex2, F, A. rewrite <- app_assoc in *.
    exists w', (ex1 ++ ex2). split; [exact Ex2|]. split; [exact U'|]. split; [exists (h1 ++ h2); rewrite H2, H1; now rewrite <- app_assoc|].
    assert (Hlt : (l < List.length (heap w1))%nat) by (eapply nth_lt; eauto).
    destruct (made_app w1 w' k v (ex_intro _ h2 H2) M1) as [M1' O1'].
    assert (Ev' : nth_error (snd st ++ ex1 ++ ex2) (snd (ctors k (List.length (snd st)))) = Some v) by (rewrite app_assoc; now apply nth_app_l).
    split.
    + constructor.
      * split; [reflexivity|]. exists v, l, y. split; [exact Ev'|]. split; [exact M1'|]. split; [cbn [fst]; congruence|]. split; [exact Hl|]. split; [cbn [fst]; rewrite H2; now apply nth_app_l|exact B].
      * eapply F2_impl; [|exact F]. intros a b (E & v' & l' & y' & P & Q & R & S & T). split; [exact E|]. exists v', l', y'. repeat split; auto; try tauto. rewrite H1, app_length in S. lia.
    + assert (OW : owner (w', snd st ++ ex1 ++ ex2) (snd (ctors k (List.length (snd st)))) = Some l) by (unfold owner; cbn [fst snd]; rewrite Ev'; congruence).
      assert (FR : forall j g, nth_error (snd (creation (S (snd (ctors k (List.length (snd st))))) cr)) j = Some g -> owner (w', snd st ++ ex1 ++ ex2) (snd g) <> Some l).
      { intros j g Eg. apply nth_error_In in Eg. clear -F Eg Hlt. revert F Eg. generalize (snd (creation (S (snd (ctors k (List.length (snd st))))) cr)). intros tab F. induction F as [|a b la lb H F IH]; intros E; [contradiction|]. destruct E as [<-|E]; [|auto].
        destruct H as (_ & v' & l' & y' & P & Q & R & S & T). unfold owner. cbn [fst snd] in *. rewrite P, R. intros X. injection X as ->. lia. }
      intros i j a b l' Ea Eb Oa Ob. destruct i, j; cbn [nth_error] in Ea, Eb; auto.
      * injection Ea as <-. cbn [snd] in Oa. rewrite OW in Oa. injection Oa as <-. exfalso. exact (FR _ _ Eb Ob).
      * injection Eb as <-. cbn [snd] in Ob. rewrite OW in Ob. injection Ob as <-. exfalso. exact (FR _ _ Ea Oa).
      * f_equal. eapply A; eauto.
Qed.
Lemma create_nil cr : forall (st : state) os, usenil (fst st) = true ->
  exists ex, exec mexp st (fst (creation (List.length (snd st)) cr)) os = ((fst st, snd st ++ ex), None) /\
    Forall2 (fun fk gi => fst fk = fst gi /\ nth_error (snd st ++ ex) (snd gi) = Some (stub (snd fk))) cr (snd (creation (List.length (snd st)) cr)).
Proof.
  induction cr as [|[f k] cr IH]; intros st os U.
  - exists []. cbn [creation fst snd exec]. rewrite app_nil_r. split; [destruct st; reflexivity|constructor].
  - rewrite creation_cons. cbn [fst snd]. rewrite exec_app.
    assert (C : exists ex1, exec mexp st (fst (ctors k (List.length (snd st)))) os = ((fst st, snd st ++ ex1), None) /\ List.length (snd st ++ ex1) = S (snd (ctors k (List.length (snd st)))) /\ nth_error (snd st ++ ex1) (snd (ctors k (List.length (snd st)))) = Some (stub k)).
    { destruct k; cbn [ctors fst snd exec stub].
      - rewrite (step_new st NGauge KGauge (os 0) (fst st) VNilGauge); [|reflexivity|cbn [construct]; unfold unless_nil, bind, gets; rewrite U; reflexivity]. exists [VNilGauge]. split; [reflexivity|]. split; [rewrite app_length; cbn; lia|apply nth_end].
      - rewrite (step_new st NGaugeF KGaugeF (os 0) (fst st) VNilGaugeF); [|reflexivity|cbn [construct]; unfold unless_nil, bind, gets; rewrite U; reflexivity]. exists [VNilGaugeF]. split; [reflexivity|]. split; [rewrite app_length; cbn; lia|apply nth_end].
      - rewrite (step_new st (NExp 1028 decay) (KExp 1028 decay) (os 0) (fst st) VNilSample); [|reflexivity|cbn [construct]; unfold new_exp, unless_nil, bind at 1, gets; rewrite U; reflexivity].
        rewrite (step_new (fst st, snd st ++ [VNilSample]) (NHist (List.length (snd st))) (KHist VNilSample) (os 1) (fst st) VNilHist).
        2: { cbn [ctor_of snd]. unfold arg. rewrite nth_end. reflexivity. }
        2: { cbn [construct fst]. unfold new_hist, unless_nil, bind, gets. rewrite U. reflexivity. }
        cbn [fst snd]. rewrite <- app_assoc. exists [VNilSample; VNilHist]. split; [reflexivity|]. split; [rewrite app_length; cbn; lia|].
        replace (snd st ++ [VNilSample; VNilHist]) with ((snd st ++ [VNilSample]) ++ [VNilHist]) by now rewrite <- app_assoc.
        replace (S (List.length (snd st))) with (List.length (snd st ++ [VNilSample])) by (rewrite app_length; cbn; lia). apply nth_end.
      - rewrite (step_new st NTimer KTimer (os 0) (fst st) VNilTimer); [|reflexivity|cbn [construct]; unfold new_timer; unfold unless_nil at 1; unfold bind at 1, gets; rewrite U; reflexivity]. exists [VNilTimer]. split; [reflexivity|]. split; [rewrite app_length; cbn; lia|apply nth_end]. }
    destruct C as (ex1 & Ex & Ln & Ev). rewrite Ex.
    destruct (IH (fst st, snd st ++ ex1) (fun n => os (n + List.length (fst (ctors k (List.length (snd st)))))) U) as (ex2 & Ex2 & F). cbn [fst snd] in *. rewrite Ln in Ex2, F. rewrite <- app_assoc in *.
    exists (ex1 ++ ex2). split; [exact Ex2|]. constructor; [|exact F]. split; [reflexivity|]. cbn [snd]. rewrite app_assoc. now apply nth_app_l.
Qed.
End Create.

(** ** registration *)
Lemma concat_end l n : String.concat "" (l ++ [n]) = String.append (String.concat "" l) n.
Proof.
  induction l as [|a [|b l] IH]; [reflexivity|reflexivity|]. cbn [app] in *. change (String.concat "" (a :: b :: l ++ [n])) with (a ++ "" ++ String.concat "" (b :: l ++ [n]))%string.
  rewrite IH. change (String.concat "" (a :: b :: l)) with (a ++ "" ++ String.concat "" (b :: l))%string. cbn [String.append]. clear. generalize (String.concat "" (b :: l)). intros s. induction a; cbn [String.append]; congruence.
Qed.
Lemma full_inj v n n' : full v n = full v n' -> n = n'.
Proof. unfold full. rewrite !concat_end. generalize (String.concat "" (prefixes v)). intros s. induction s; cbn [String.append]; intros H; auto. injection H as H. auto. Qed.

Lemma at_field_ok (P : mk -> nat -> Prop) cr tab f k : Forall2 (fun fk gi => fst fk = fst gi /\ P (snd fk) (snd gi)) cr tab -> NoDup (map fst cr) -> In (f, k) cr -> P k (at_field tab f).
Proof.
  intros F. induction F as [|[a ka] [b ib] cr tab [E H] F IH]; intros ND HI; [contradiction|]. cbn [fst snd map] in *. subst b. inversion ND; subst. cbn [at_field]. destruct HI as [HI|HI].
  - injection HI as -> ->. now rewrite String.eqb_refl.
  - destruct (String.eqb_spec a f) as [->|D]; [|auto]. exfalso. apply H2. change f with (fst (f, k)). now apply in_map.
Qed.
Section Reg.
Variable mexp : f64 -> f64.
Lemma made_metric w k v : made w k v \/ v = stub k -> metric v = true.
Proof. intros [M| ->]; [|destruct k; reflexivity]. destruct k; cbn in M; repeat match goal with H : exists _, _ |- _ => destruct H | H : _ /\ _ |- _ => destruct H end; subst; reflexivity. Qed.
Lemma registers names x v tab : forall (st : state) os, inv st -> nth_error (snd st) x = Some v -> cls v = CReg ->
  (forall nf, In nf names -> exists i, nth_error (snd st) (at_field tab (snd nf)) = Some i /\ metric i = true) -> NoDup (map fst names) ->
  exists w', exec mexp st (registration x tab names) os = ((w', snd st), None) /\ inv (w', snd st) /\ usenil w' = usenil (fst st) /\
    (forall l y, nth_error (heap (fst st)) l = Some y -> cell y -> nth_error (heap w') l = Some y) /\
    (forall k v, made (fst st) k v -> made w' k v /\ own w' v = own (fst st) v) /\
    (forall nf, In nf names -> bound (registered w') v (fst nf) = match bound (registered (fst st)) v (fst nf) with Some j => Some j | None => nth_error (snd st) (at_field tab (snd nf)) end) /\
    (forall l n, (forall nf, In nf names -> base v <> Some l \/ n <> full v (fst nf)) -> registered w' l n = registered (fst st) l n).
Proof.
  induction names as [|[n f] names IH]; intros st os I E C H ND.
  - exists (fst st). cbn [registration map exec]. split; [destruct st; reflexivity|]. split; [destruct st; exact I|]. repeat split; auto. intros nf [].
  - destruct (H (n, f) (or_introl eq_refl)) as (i & Ei & Mi). cbn [fst snd] in Ei.
    destruct (RegistryProps.register_step mexp st x v n (at_field tab f) i (os 0) I E C Ei) as [R _].
    assert (EV : snd (fst (step mexp st (ORegister x n (at_field tab f), os 0))) = snd st).
    { unfold World.step. cbn [fst snd World.call]. unfold obind, only. rewrite E, Ei, C. cbn [class_eqb]. unfold bind. destruct (reg_register v n i (os 0) (fst st)) as [w1 [r|m]]; cbn [snd fst ret yields]; now rewrite ?app_nil_r. }
    pose proof (step_inv mexp st (ORegister x n (at_field tab f)) (os 0) I) as (I1 & _).
    assert (U1 : usenil (fst (fst (step mexp st (ORegister x n (at_field tab f), os 0)))) = usenil (fst st)) by (destruct (frame_step mexp st (ORegister x n (at_field tab f)) (os 0) ltac:(discriminate)) as (_ & _ & _ & Us & _); exact Us).
    pose proof (fun l y => untouched mexp st (ORegister x n (at_field tab f)) (os 0) l y I) as C1.
    pose proof (fun k v0 => made_step mexp st (ORegister x n (at_field tab f)) (os 0) k v0 I) as M1.
    pose proof (refine mexp st (ORegister x n (at_field tab f)) (os 0) I) as RR. cbn [after] in RR. rewrite E, Ei in RR.
    change (registration x tab ((n, f) :: names)) with (ORegister x n (at_field tab f) :: registration x tab names). cbn [exec].
    destruct (step mexp st (ORegister x n (at_field tab f), os 0)) as [st1 r1] eqn:S1. cbn [fst snd] in *. subst r1.
    destruct st1 as [w1 e1]. cbn [fst snd] in *. subst e1. cbn [map fst] in ND. inversion ND as [|? ? NI ND']; subst.
    destruct (IH (w1, snd st) (fun n => os (S n)) I1 E C (fun nf Hn => H nf (or_intror Hn)) ND') as (w' & Ex & I' & U' & C' & M' & B' & F'). cbn [fst snd] in *.
    exists w'. split; [destruct (bound (registered (fst st)) v n); exact Ex|]. split; [exact I'|]. split; [congruence|]. split; [|split; [|split]].
    + intros l y Ey Cy. apply C'; auto. apply C1; auto. destruct y; cbn in Cy; try contradiction; cbn; intros [Z|[]]; discriminate.
    + intros k v0 M0. destruct (M1 k v0 M0) as [A B]. destruct (M' k v0 A) as [A' B2]. split; congruence.
    + destruct (env_reg st x v I E C) as (lb & es & B & Es).
      assert (O1 : forall m, bound (registered w1) v m = if String.eqb m n then match bound (registered (fst st)) v n with Some j => Some j | None => Some i end else bound (registered (fst st)) v m).
      { intros m. unfold bound. rewrite B, RR. unfold add. rewrite B. destruct (registered (fst st) lb (full v n)) as [j|] eqn:Q.
        - destruct (String.eqb_spec m n) as [->|]; auto.
        - rewrite Mi. unfold put. rewrite Nat.eqb_refl. cbn [andb]. destruct (String.eqb_spec m n) as [->|D]; [now rewrite String.eqb_refl|]. destruct (String.eqb_spec (full v m) (full v n)) as [X|X]; auto. apply full_inj in X. contradiction. }
      intros nf [<-|Hn].
      * cbn [fst snd]. rewrite Ei.
        assert (X : bound (registered w') v n = bound (registered w1) v n).
        { unfold bound. rewrite B. apply F'. intros nf Hnf. right. intros X. apply full_inj in X. apply NI. rewrite X. now apply in_map. }
        rewrite X, O1, String.eqb_refl. destruct (bound (registered (fst st)) v n); reflexivity.
      * rewrite (B' nf Hn), O1. destruct (String.eqb_spec (fst nf) n) as [X|X]; [|reflexivity]. exfalso. apply NI. rewrite <- X. now apply in_map.
    + intros l m Hm. rewrite F' by (intros nf Hn; apply Hm; right; exact Hn). rewrite RR. unfold add. destruct (base v) as [lb|] eqn:B; [|reflexivity].
      destruct (registered (fst st) lb (full v n)); [reflexivity|]. rewrite Mi. unfold put.
      destruct (Hm (n, f) (or_introl eq_refl)) as [D|D].
      * destruct (Nat.eqb_spec l lb); [congruence|reflexivity].
      * cbn [fst] in D. destruct (String.eqb_spec m (full v n)); [contradiction|]. now rewrite andb_false_r.
Qed.

(** ** the tables of metrics *)
Definition entry (st : state) (k : mk) (i : nat) : Prop := exists v, nth_error (snd st) i = Some v /\ (made (fst st) k v \/ v = stub k).
Definition tab_ok (st : state) (cr : list (string * mk)) (tab : list (string * nat)) : Prop :=
  Forall2 (fun fk gi => fst fk = fst gi /\ entry st (snd fk) (snd gi)) cr tab /\ apart st tab.
Definition grows (st st' : state) : Prop :=
  (forall i v, nth_error (snd st) i = Some v -> nth_error (snd st') i = Some v) /\
  (forall k v, made (fst st) k v -> made (fst st') k v /\ own (fst st') v = own (fst st) v).
Lemma grows_refl st : grows st st. Proof. split; auto. Qed.
Lemma grows_trans a b c : grows a b -> grows b c -> grows a c.
Proof. intros [A B] [A' B']. split; auto. intros k v M. destruct (B k v M) as [M1 O1]. destruct (B' k v M1) as [M2 O2]. split; congruence. Qed.
Lemma grows_step (st : state) c o : inv st -> grows st (fst (step mexp st (c, o))).
Proof. intros I. split; [intros i v E; apply (step_env mexp); exact E|intros k v M; apply made_step; auto]. Qed.
Lemma grows_exec cs : forall (st : state) os, inv st -> grows st (fst (exec mexp st cs os)).
Proof.
  induction cs as [|c cs IH]; intros st os I; cbn [exec]; [apply grows_refl|]. pose proof (grows_step st c (os 0) I) as G1. pose proof (proj1 (step_inv mexp st c (os 0) I)) as I1.
  destruct (step mexp st (c, os 0)) as [st' [[r|m]|]]; cbn [fst] in *; auto; eapply grows_trans; eauto.
Qed.
Lemma owner_grows st st' k i : grows st st' -> entry st k i -> owner st' i = owner st i.
Proof. intros [A B] (v & E & M). unfold owner. rewrite E, (A _ _ E). destruct M as [M| ->]; [apply (B k v M)|destruct k; reflexivity]. Qed.
Lemma entry_grows st st' k i : grows st st' -> entry st k i -> entry st' k i.
Proof. intros [A B] (v & E & M). exists v. split; auto. destruct M as [M|M]; auto. left. apply (B k v M). Qed.
Lemma tab_ok_grows st st' cr tab : grows st st' -> tab_ok st cr tab -> tab_ok st' cr tab.
Proof.
  intros Gr [F A]. assert (OW : forall i f, nth_error tab i = Some f -> owner st' (snd f) = owner st (snd f)).
  { intros i f E. apply nth_error_In in E. clear A. induction F as [|a b la lb [_ H] F IH]; [contradiction|]. destruct E as [<-|E]; [|auto]. eapply owner_grows; eauto. }
  split; [eapply F2_impl; [|exact F]; intros a b [E H]; split; auto; eapply entry_grows; eauto|].
  intros i j f g l Ei Ej Oi Oj. rewrite (OW _ _ Ei) in Oi. rewrite (OW _ _ Ej) in Oj. eapply A; eauto.
Qed.
Lemma tab_apart st cr tab f g l : tab_ok st cr tab -> In f (map fst cr) -> In g (map fst cr) -> owner st (at_field tab f) = Some l -> owner st (at_field tab g) = Some l -> f = g.
Proof.
  intros [F A] Hf Hg Of Og.
  assert (X : forall f, In f (map fst cr) -> exists i, nth_error tab i = Some (f, at_field tab f)).
  { clear -F. induction F as [|a b la lb [E H] F IH]; intros f Hf; [contradiction|]. destruct a as [a ka], b as [b ib]. cbn [fst snd map] in *. subst b. cbn [at_field]. destruct (String.eqb_spec a f) as [->|D]; [exists 0; reflexivity|].
    destruct Hf as [->|Hf]; [congruence|]. destruct (IH f Hf) as (i & Ei). exists (S i). exact Ei. }
  destruct (X f Hf) as (i & Ei), (X g Hg) as (j & Ej). assert (i = j) by (eapply A; eauto). subst j. congruence.
Qed.
End Reg.
