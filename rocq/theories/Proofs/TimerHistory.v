(** What a timer made by NewTimer has recorded, after any program. *)
From Coq Require Import ZArith List String Bool Lia Arith Permutation.
From Verif.Model Require Import GoInt GoFloat GoBase Stats Uniform ExpDecay Conc Ewma Meter World.
From Verif.Spec Require Import Reservoir DecaySpec RegistrySpec TimerSpec.
From Verif.Proofs Require Import WorldBase WorldOps WorldCalls WorldStep WorldFrame RegistryProofs RegistryStep RegistryNew ExpDecayProofs MeterFrame TimerPrivate.
Import ListNotations.
Local Open Scope nat_scope.
Local Open Scope list_scope.

(** ** operations that leave an exponentially decaying sample alone *)
Section Keep.
Variable mexp : f64 -> f64.
Variables (e : nat) (x : expdecay).
Definition K (w : world) : Prop := nth_error (heap w) e = Some (OExp x).
Definition kp {A} (m : M A) : Prop := forall o w, K w -> K (fst (m o w)).
Lemma kp_bind {A B} (m : M A) (f : A -> M B) : kp m -> (forall r, kp (f r)) -> kp (bind m f).
Proof. intros H G o w q. unfold bind. specialize (H o w q). destruct (m o w) as [w' [r|msg]]; cbn [fst] in *; auto. now apply G. Qed.
Lemma kp_ret {A} (r : A) : kp (ret r). Proof. intros o w q. exact q. Qed.
Lemma kp_throw {A} m : kp (@throw A m). Proof. intros o w q. exact q. Qed.
Lemma kp_lift {A} (r : res A) : kp (lift r). Proof. intros o w q. exact q. Qed.
Lemma kp_ask {A} (f : orc -> A) : kp (ask f). Proof. intros o w q. exact q. Qed.
Lemma kp_load l : kp (load l). Proof. intros o w q. unfold load. destruct (nth_error _ _); exact q. Qed.
Lemma kp_alloc y : kp (alloc y). Proof. intros o w q. unfold K, alloc. cbn [fst heap set_heap]. now apply nth_app_l. Qed.
Lemma K_store w l y z : K w -> nth_error (heap w) l = Some y -> tag_of y <> TExp \/ l <> e -> K (set_heap (lset (heap w) l z) w).
Proof. intros q E D. unfold K. cbn [heap set_heap]. rewrite lset_nth_neq; auto. intros ->. unfold K in q. rewrite q in E. inversion E; subst. cbn in D. destruct D; congruence. Qed.
Lemma kp_update {A} (l : nat) (f : obj -> M A) : (forall y o w, K w -> nth_error (heap w) l = Some y -> K (fst (f y o w))) -> kp (bind (load l) f).
Proof. intros H o w q. unfold bind, load. destruct (nth_error (heap w) l) as [y|] eqn:E; [|exact q]. apply H; auto. Qed.
Lemma kp_ewma_do l op : kp (ewma_do l op).
Proof.
  unfold ewma_do. apply kp_update. intros y o w q E. destruct y; try exact q. destruct (cseq _ _) as [[e' r]|]; [|exact q].
  unfold bind, store, ret. cbn [fst]. apply (K_store w l _ _ q E). left; discriminate.
Qed.
Lemma kp_ewma_mut op v : kp (ewma_mut op v).
Proof. destruct v; cbn; auto using kp_throw, kp_ret. apply kp_bind; [apply kp_ewma_do|intros; apply kp_ret]. Qed.
Lemma kp_ewma_rate v : kp (ewma_rate v).
Proof. destruct v; cbn; auto using kp_throw, kp_ret, kp_ewma_do. Qed.
Lemma kp_update_snapshot m : kp (update_snapshot m).
Proof.
  unfold update_snapshot. do 3 (apply kp_bind; [apply kp_ewma_rate|intros ?]). unfold msnap_get.
  intros o w q. unfold bind at 1 2. unfold load. destruct (nth_error (heap w) (mo_snap m)) as [y|] eqn:E; [|exact q].
  destruct y; try exact q. unfold ret, bind, ask, store. cbn [fst]. apply (K_store w _ _ _ q E). left; discriminate.
Qed.
Lemma kp_mark n v : kp (meter_mark n v).
Proof.
  destruct v; cbn; auto using kp_throw, kp_ret. intros o w q. unfold meter_get. unfold bind at 1 2. unfold load.
  destruct (nth_error (heap w) l) as [y|] eqn:E; [|exact q]. destruct y; try exact q. cbn [ret mo_stopped].
  destruct stopped; [exact q|]. unfold msnap_get. unfold bind at 1 2. unfold load. cbn [mo_snap].
  destruct (nth_error (heap w) snap) as [y|] eqn:E1; [|exact q]. destruct y; try exact q. cbn [ret].
  match goal with |- K (fst (?m o w)) => enough (G : exists m', m = bind (store snap (OMeterSnap (wrap64 (count + n)) r1 r5 r15 mean)) m' /\ forall r, kp (m' r)) end.
  - destruct G as (m' & -> & G). unfold bind, store. apply G. apply (K_store w _ _ _ q E1). left; discriminate.
  - eexists. split; [reflexivity|]. intros ?. do 3 (apply kp_bind; [apply kp_ewma_mut|intros ?]). apply kp_update_snapshot.
Qed.
Lemma kp_sample_update n v : v <> VExp e -> kp (sample_update mexp n v).
Proof.
  intros D. destruct v; cbn [sample_update]; auto using kp_throw, kp_ret.
  - intros o w q. unfold uni_get, arr_get. unfold bind at 1 2. unfold load. destruct (nth_error (heap w) l) as [y|] eqn:E; [|exact q]. destruct y; try exact q. cbn [ret].
    unfold bind at 1 2. destruct (nth_error (heap w) arr) as [y|] eqn:E1; [|exact q]. destruct y; try exact q. cbn [ret]. unfold bind at 1, ask. cbn [fst].
    destruct (uni_update _ _ _) as [u r]. unfold bind, store, lift. cbn [fst]. assert (D' : arr <> l) by congruence.
    refine (K_store (set_heap (lset (heap w) arr (OArr (u_values u))) w) l (OUniform count size arr) _ (K_store w arr (OArr xs) _ q E1 (or_introl _)) _ (or_introl _)); try (cbn; congruence).
    cbn [heap set_heap]. rewrite lset_nth_neq by auto. exact E.
  - intros o w q. unfold exp_get. unfold bind at 1 2. unfold load. destruct (nth_error (heap w) l) as [y|] eqn:E; [|exact q]. destruct y; try exact q. cbn [ret].
    unfold bind at 1 2, ask. destruct (exp_update _ _ _ _ _) as [s' r]. unfold bind, store, lift. cbn [fst]. apply (K_store w _ _ _ q E). right. congruence.
Qed.
Lemma kp_sample_clear v : v <> VExp e -> kp (sample_clear v).
Proof.
  intros D. destruct v; cbn [sample_clear]; auto using kp_throw, kp_ret.
  - intros o w q. unfold uni_get. unfold bind at 1 2. unfold load. destruct (nth_error (heap w) l) as [y|] eqn:E; [|exact q]. destruct y; try exact q. cbn [ret].
    unfold bind, new_slice, alloc, store. cbn [fst]. eapply K_store; [unfold K; cbn [heap set_heap]; apply nth_app_l; exact q|cbn [heap set_heap]; apply nth_app_l; exact E|left; discriminate].
  - intros o w q. unfold exp_get. unfold bind at 1 2. unfold load. destruct (nth_error (heap w) l) as [y|] eqn:E; [|exact q]. destruct y; try exact q. cbn [ret].
    unfold bind, ask, store. cbn [fst]. apply (K_store w _ _ _ q E). right. congruence.
Qed.
Lemma K_hist {A} (f : val -> M A) v o w : (forall l s, v = VHist l -> nth_error (heap w) l = Some (OHist s) -> s <> VExp e) ->
  (forall s, s <> VExp e -> kp (f s)) -> K w -> K (fst (bind (hist_sample v) f o w)).
Proof.
  intros D F q. destruct v; try exact q; cbn [hist_sample].
  - unfold bind, load. destruct (nth_error (heap w) l) as [y|] eqn:E; [|exact q]. destruct y; try exact q. unfold ret. apply F; auto. eapply D; eauto.
  - unfold bind, load. destruct (nth_error (heap w) l) as [y|] eqn:E; [|exact q]. destruct y; try exact q. unfold ret. apply F; auto. discriminate.
  - unfold bind, ret. apply F; auto. discriminate.
Qed.
Lemma K_hist_update n v o w : (forall l s, v = VHist l -> nth_error (heap w) l = Some (OHist s) -> s <> VExp e) -> K w -> K (fst (hist_update mexp n v o w)).
Proof. intros D q. unfold hist_update. destruct v; try exact q; apply K_hist; auto using kp_sample_update. Qed.
Lemma K_hist_clear v o w : (forall l s, v = VHist l -> nth_error (heap w) l = Some (OHist s) -> s <> VExp e) -> K w -> K (fst (hist_clear v o w)).
Proof. intros D q. unfold hist_clear. destruct v; try exact q; apply K_hist; auto using kp_sample_clear. Qed.
Lemma K_unit {A B} (m : M A) (r : B) o w : K (fst (m o w)) -> K (fst (bind m (fun _ => ret r) o w)).
Proof. unfold bind, ret. destruct (m o w) as [w' [z|msg]]; auto. Qed.
Definition no_exp (w : world) (v : val) : Prop :=
  v <> VExp e /\ (forall l s, v = VHist l -> nth_error (heap w) l = Some (OHist s) -> s <> VExp e) /\
  (forall l h m l' s, v = VTimer l -> nth_error (heap w) l = Some (OTimer h m) -> h = VHist l' -> nth_error (heap w) l' = Some (OHist s) -> s <> VExp e).
Lemma K_timer_update d v o w : no_exp w v -> K w -> K (fst (timer_update mexp d v o w)).
Proof.
  intros (_ & _ & D) q. destruct v; try exact q. unfold timer_update. unfold bind at 1. destruct (timer_get_m w l o) as [(h & m & E & ->)|(msg & ->)]; [|exact q].
  unfold bind. assert (Kh : K (fst (hist_update mexp d h o w))) by (apply K_hist_update; eauto). destruct (hist_update mexp d h o w) as [w' [[]|]]; auto. apply kp_mark. exact Kh.
Qed.
Lemma K_timer_update_since d v o w : no_exp w v -> K w -> K (fst (timer_update_since mexp d v o w)).
Proof.
  intros (_ & _ & D) q. destruct v; try exact q. unfold timer_update_since. unfold bind at 1, ask. unfold bind at 1. destruct (timer_get_m w l o) as [(h & m & E & ->)|(msg & ->)]; [|exact q].
  unfold bind. match goal with |- context [hist_update mexp ?d0 h o w] => assert (Kh : K (fst (hist_update mexp d0 h o w))) by (apply K_hist_update; eauto); destruct (hist_update mexp d0 h o w) as [w' [[]|]] end; auto. apply kp_mark. exact Kh.
Qed.
Definition uses (en : env) (c : op) : option val :=
  match c with OClear y | OUpdate y _ | OTimeEnd y _ | OUpdateSince y _ => nth_error en y | _ => None end.
Lemma exp_step_keeps (st : state) c o : inv st -> K (fst st) -> (forall v, uses (snd st) c = Some v -> no_exp (fst st) v) -> K (fst (fst (step mexp st (c, o)))).
Proof.
  intros I q H. assert (D : In TExp (touch c) \/ ~ In TExp (touch c)) by (destruct c; cbn; intuition congruence).
  destruct D as [D|D]; [|apply untouched; auto; cbn; auto].
  unfold World.step.
  assert (R : forall m : M rv, K (fst (m o (fst st))) -> K (fst (fst (let (w, r) := m o (fst st) in match r with Ok r0 => ((w, snd st ++ yields r0), Some (Ok r0)) | Panic msg => ((w, snd st), Some (Panic msg)) end)))).
  { intros m. destruct (m o (fst st)) as [w' [z|msg]]; auto. }
  destruct c; cbn in D; try (exfalso; intuition congruence; fail); cbn [fst snd World.call]; unfold obind, only; cbn [uses] in H;
    destruct (nth_error (snd st) x0) as [v|]; try exact q; specialize (H v eq_refl); pose proof H as (H1 & H2 & H3).
  - unfold m_clear. destruct (cls v) eqn:C; try exact q; apply R; unfold unit_rv; apply K_unit.
    + destruct v; cbn in C; try discriminate; try exact q. unfold counter_mut. apply K_unit. unfold c_do, c_load. unfold bind at 1 2, load. destruct (nth_error (heap (fst st)) l) as [y|] eqn:E; [|exact q].
      destruct y; try exact q. unfold ret, bind, store. cbn [fst]. apply (K_store _ _ _ _ q E). left; discriminate.
    + apply kp_sample_clear; auto.
    + apply K_hist_clear; auto.
  - unfold m_update. destruct (cls v) eqn:C; try exact q; apply R; unfold unit_rv; apply K_unit.
    + destruct v; cbn in C; try discriminate; try exact q. unfold gauge_update. apply K_unit. unfold g_do. apply kp_update; [|exact q]. intros y o' w' q' E'. destruct y; try exact q'.
      unfold bind, store, ret. cbn [fst]. apply (K_store _ _ _ _ q' E'). left; discriminate.
    + apply kp_sample_update; auto.
    + apply K_hist_update; auto.
    + apply kp_ewma_mut; exact q.
    + apply K_timer_update; auto.
  - destruct (class_eqb (cls v) CTimer); [|exact q]. apply R. unfold unit_rv. apply K_unit. unfold timer_end. unfold bind, ask. apply K_timer_update; auto.
  - destruct (class_eqb (cls v) CTimer); [|exact q]. apply R. unfold unit_rv. apply K_unit. apply K_timer_update_since; auto.
Qed.
End Keep.

(** ** the count a meter has published *)
Section Count.
Variables (s : nat) (n : Z).
Definition cnt (w : world) : Prop := exists r1 r5 r15 m, nth_error (heap w) s = Some (OMeterSnap n r1 r5 r15 m).
Definition kc {A} (m : M A) : Prop := forall o w, cnt w -> cnt (fst (m o w)).
Lemma kc_bind {A B} (m : M A) (f : A -> M B) : kc m -> (forall r, kc (f r)) -> kc (bind m f).
Proof. intros H G o w q. unfold bind. specialize (H o w q). destruct (m o w) as [w' [r|msg]]; cbn [fst] in *; auto. now apply G. Qed.
Lemma kc_ret {A} (r : A) : kc (ret r). Proof. intros o w q. exact q. Qed.
Lemma kc_throw {A} m : kc (@throw A m). Proof. intros o w q. exact q. Qed.
Lemma cnt_store w l y z : cnt w -> nth_error (heap w) l = Some y -> tag_of y <> TMeterSnap \/ l <> s -> cnt (set_heap (lset (heap w) l z) w).
Proof. intros q E D. pose proof q as (r1 & r5 & r15 & m & q0). exists r1, r5, r15, m. cbn [heap set_heap]. rewrite lset_nth_neq; auto. intros ->. rewrite q0 in E. inversion E; subst. cbn in D. destruct D; congruence. Qed.
Lemma kc_ewma_do l op : kc (ewma_do l op).
Proof.
  unfold ewma_do. intros o w q. unfold bind at 1, load. destruct (nth_error (heap w) l) as [y|] eqn:E; [|exact q]. destruct y; try exact q. destruct (cseq _ _) as [[e' r]|]; [|exact q].
  unfold bind, store, ret. cbn [fst]. apply (cnt_store w l _ _ q E). left; discriminate.
Qed.
Lemma kc_ewma_mut op v : kc (ewma_mut op v).
Proof. destruct v; cbn; auto using kc_throw, kc_ret. apply kc_bind; [apply kc_ewma_do|intros; apply kc_ret]. Qed.
Lemma kc_ewma_rate v : kc (ewma_rate v).
Proof. destruct v; cbn; auto using kc_throw, kc_ret, kc_ewma_do. Qed.
Lemma kc_update_snapshot m : kc (update_snapshot m).
Proof.
  unfold update_snapshot. do 3 (apply kc_bind; [apply kc_ewma_rate|intros ?]). unfold msnap_get.
  intros o w q. unfold bind at 1 2. unfold load. destruct (nth_error (heap w) (mo_snap m)) as [y|] eqn:E; [|exact q].
  destruct y; try exact q. unfold ret, bind, ask, store. cbn [fst]. destruct (Nat.eq_dec (mo_snap m) s) as [Es|D]; [|apply (cnt_store w _ _ _ q E); auto].
  destruct q as (q1 & q5 & q15 & qm & q). rewrite Es in *. rewrite q in E. inversion E; subst. eexists _, _, _, _. cbn [heap set_heap s_count]. rewrite lset_nth_eq by (eapply nth_lt; eauto). reflexivity.
Qed.
Lemma kc_tick l : kc (meter_tick l).
Proof.
  unfold meter_tick, meter_get. intros o w q. unfold bind at 1 2. unfold load. destruct (nth_error (heap w) l) as [y|] eqn:E; [|exact q]. destruct y; try exact q. cbn [ret].
  match goal with |- cnt (fst (?m o w)) => enough (G : kc m) by (apply G; exact q) end.
  do 3 (apply kc_bind; [apply kc_ewma_mut|intros ?]). apply kc_update_snapshot.
Qed.
Lemma kc_tick_all ls : kc (tick_all ls).
Proof. induction ls as [|l ls IH]; cbn [tick_all]; [apply kc_ret|]. apply kc_bind; [apply kc_tick|intros ?; apply IH]. Qed.
End Count.
(** panics only because of a dangling pointer *)
Definition pd {A} (m : M A) : Prop := forall o w w' msg, m o w = (w', Panic msg) -> msg = msg_dangling.
Lemma pd_bind {A B} (m : M A) (f : A -> M B) : pd m -> (forall a, pd (f a)) -> pd (bind m f).
Proof. intros H G o w w' msg. unfold bind. destruct (m o w) as [w1 [a|x]] eqn:E; [apply G|]. intros X. inversion X; subst. eapply H; eauto. Qed.
Lemma pd_ret {A} (a : A) : pd (ret a). Proof. intros o w w' msg E. discriminate. Qed.
Lemma pd_store l y : pd (store l y). Proof. intros o w w' msg E. discriminate. Qed.
Lemma pd_ask {A} (f : orc -> A) : pd (ask f). Proof. intros o w w' msg E. discriminate. Qed.
Lemma pd_load l : pd (load l). Proof. intros o w w' msg. unfold load. destruct (nth_error _ _); intros X; inversion X; auto. Qed.
Lemma pd_dangling {A} : pd (@throw A msg_dangling). Proof. intros o w w' msg E. inversion E. auto. Qed.
Lemma pd_ewma_do l op : pd (ewma_do l op).
Proof. unfold ewma_do. apply pd_bind; [apply pd_load|intros []]; auto using pd_dangling. destruct (cseq _ _) as [[e' r]|]; auto using pd_dangling. apply pd_bind; [apply pd_store|intros; apply pd_ret]. Qed.
Lemma pd_msnap_get l : pd (msnap_get l).
Proof. unfold msnap_get. apply pd_bind; [apply pd_load|intros []]; auto using pd_dangling, pd_ret. Qed.
Lemma pd_update_snapshot sn a b c t st : pd (update_snapshot (MkM sn (VEwma a) (VEwma b) (VEwma c) t st)).
Proof. unfold update_snapshot. cbn [mo_a1 mo_a5 mo_a15 ewma_rate]. do 3 (apply pd_bind; [apply pd_ewma_do|intros ?]). apply pd_bind; [apply pd_msnap_get|intros ?]. apply pd_bind; [apply pd_ask|intros ?]. apply pd_store. Qed.
Lemma pd_ewma_mut op l : pd (ewma_mut op (VEwma l)).
Proof. cbn. apply pd_bind; [apply pd_ewma_do|intros; apply pd_ret]. Qed.
(** Mark of a meter that is not stopped counts, of one that is does nothing *)
Lemma mark_ok k s a b c t stp n m o w : mshape (heap w) -> nth_error (heap w) k = Some (OMeter s a b c t stp) -> cnt s n w ->
  match meter_mark m (VMeter k) o w with
  | (w', Ok _) => if stp then w' = w else cnt s (wrap64 (n + m)) w'
  | (_, Panic msg) => msg = msg_dangling
  end.
Proof.
  intros S E C. destruct (S _ _ _ _ _ _ _ E) as (-> & -> & -> & _). unfold meter_mark, meter_get. unfold bind at 1 2, load. rewrite E. cbn [ret mo_stopped]. destruct stp; [reflexivity|].
  destruct C as (r1 & r5 & r15 & mn & C). unfold msnap_get. unfold bind at 1 2, load. cbn [mo_snap]. rewrite C. cbn [ret s_count s_r1 s_r5 s_r15 s_mean]. unfold bind at 1, store.
  set (w1 := set_heap _ w). assert (C1 : cnt s (wrap64 (n + m)) w1) by (eexists _, _, _, _; subst w1; cbn [heap set_heap]; rewrite lset_nth_eq by (eapply nth_lt; eauto); reflexivity). clearbody w1.
  match goal with |- match ?m0 o w1 with _ => _ end => assert (G1 : kc s (wrap64 (n + m)) m0) end.
  { cbn [mo_a1 mo_a5 mo_a15]. do 3 (apply kc_bind; [apply kc_ewma_mut|intros ?]). apply kc_update_snapshot. }
  match goal with |- match ?m0 o w1 with _ => _ end => assert (G2 : pd m0) end.
  { cbn [mo_a1 mo_a5 mo_a15]. do 3 (apply pd_bind; [apply pd_ewma_mut|intros ?]). apply pd_update_snapshot. }
  match goal with |- match ?m0 o w1 with _ => _ end => specialize (G1 o w1 C1); specialize (G2 o w1); destruct (m0 o w1) as [w2 [[]|msg]] end; eauto.
Qed.

(** ** the history of a timer *)
Section Hist.
Variable mexp : f64 -> f64.
Variables (e hl k tl s : nat) (t0 : Z).
Definition sample_after (h : list xop) : expdecay := exp_run mexp (NewExpDecaySample 1028 f_0015 t0) h.
Record tinv (st : state) (h : list xop) (n : Z) : Prop := {
  t_priv : priv e hl k tl st;
  t_exp : nth_error (heap (fst st)) e = Some (OExp (sample_after h));
  t_meter : exists a b c t stp, nth_error (heap (fst st)) k = Some (OMeter s a b c t stp);
  t_count : cnt s n (fst st)
}.
Lemma priv_step st c o : priv e hl k tl st -> priv e hl k tl (fst (step mexp st (c, o))).
Proof.
  intros P. destruct (step_inv mexp st c o (p_inv _ _ _ _ _ P)) as (I' & L & (ex & Ee & _) & _).
  assert (Hr : forall r, snd (step mexp st (c, o)) = Some (Ok r) -> snd (fst (step mexp st (c, o))) = snd st ++ yields r).
  { intros r. unfold World.step. cbn [fst snd]. destruct (World.call mexp (snd st) c) as [m|]; [|discriminate]. destruct (m o (fst st)) as [w' [r'|]]; cbn [fst snd]; [|discriminate]. intros X; inversion X; auto. }
  assert (Hn : (forall r, snd (step mexp st (c, o)) <> Some (Ok r)) -> snd (fst (step mexp st (c, o))) = snd st).
  { unfold World.step. cbn [fst snd]. destruct (World.call mexp (snd st) c) as [m|]; [|auto]. destruct (m o (fst st)) as [w' [r'|]]; cbn [fst snd]; [|auto]. intros X. exfalso. eapply X; eauto. }
  pose proof (yields_good mexp e hl k tl st c o) as Y.
  assert (GE : Forall (good e hl k tl (heap (fst (fst (step mexp st (c, o)))))) (snd st)).
  { apply Forall_forall. intros v Hv. pose proof (p_env _ _ _ _ _ P) as G. rewrite Forall_forall in G. pose proof (proj2 (p_inv _ _ _ _ _ P)) as V. rewrite Forall_forall in V.
    eapply good_legal; [exact (proj1 (p_inv _ _ _ _ _ P))|exact L|apply V; auto|apply G; auto]. }
  pose proof L as (_ & LL & _).
  constructor; auto.
  - destruct (p_exp _ _ _ _ _ P) as (y & E & T). destruct (LL _ _ E) as (y' & E' & X). exists y'. split; auto. destruct y; cbn in T; try discriminate. destruct y'; cbn in X; try discriminate X; tauto.
  - destruct (LL _ _ (p_hist _ _ _ _ _ P)) as (y' & E' & X). cbn in X. congruence.
  - destruct (p_meter _ _ _ _ _ P) as (y & E & T). destruct (LL _ _ E) as (y' & E' & X). exists y'. split; auto. destruct y; cbn in T; try discriminate. destruct y'; cbn in X; try discriminate X; tauto.
  - destruct (LL _ _ (p_timer _ _ _ _ _ P)) as (y' & E' & X). cbn in X. congruence.
  - destruct (snd (step mexp st (c, o))) as [[r|msg]|] eqn:R.
    + rewrite (Hr r eq_refl). apply Forall_app. split; auto.
    + rewrite Hn; auto. intros r X. discriminate.
    + rewrite Hn; auto. intros r X. discriminate.
  - intros l n v Hv. rewrite (refine mexp st c o (p_inv _ _ _ _ _ P)) in Hv. apply after_origin in Hv. destruct Hv as [Hv|[Hv|Hv]].
    + eapply good_legal; [exact (proj1 (p_inv _ _ _ _ _ P))|exact L|apply (registered_vok _ _ _ _ (proj1 (p_inv _ _ _ _ _ P)) Hv)|eapply p_reg; eauto].
    + rewrite Forall_forall in GE. auto.
    + specialize (Y _ P Hv). cbn [yields] in Y. now inversion Y.
Qed.

Lemma meter_stays (st : state) c o : inv st -> (exists a b c0 t stp, nth_error (heap (fst st)) k = Some (OMeter s a b c0 t stp)) ->
  exists a b c0 t stp, nth_error (heap (fst (fst (step mexp st (c, o))))) k = Some (OMeter s a b c0 t stp).
Proof.
  intros I (a & b & c0 & t & stp & E). destruct (step_inv mexp st c o I) as (_ & (_ & L & _) & _). destruct (L _ _ E) as (y & E' & X).
  destruct y; cbn in X; try discriminate X. destruct X as (<- & _). eauto 10.
Qed.
(** the meter is hit only through the timer *)
Lemma no_hit st c : priv e hl k tl st -> records tl (snd st) c = false -> (forall y m, c <> OMark y m) -> ~ hits k (snd st) (fst st) c.
Proof.
  intros P R N H. assert (G : forall y v, nth_error (snd st) y = Some v -> meter_of (fst st) v = Some k -> v = VTimer tl).
  { intros y v E M. pose proof (p_env _ _ _ _ _ P) as F. rewrite Forall_forall in F. specialize (F v (nth_error_In _ _ E)). destruct v; cbn in M; try discriminate.
    - inversion M; subst. cbn in F. congruence.
    - destruct (nth_error (heap (fst st)) l) as [z|] eqn:El; [|discriminate]. destruct z; try discriminate. destruct m; try discriminate. inversion M; subst. destruct F as [->|F]; auto.
      destruct (F _ _ El) as [_ F2]. cbn in F2. congruence. }
  destruct c; cbn in H, R; try contradiction; try (eapply N; reflexivity); destruct H as (v & E & M); pose proof (G _ _ E M) as ->; rewrite E, Nat.eqb_refl in R; discriminate.
Qed.
Lemma mark_timer_none (st : state) y m o : priv e hl k tl st -> hits k (snd st) (fst st) (OMark y m) -> fst (step mexp st (OMark y m, o)) = st.
Proof.
  intros P (v & E & M). pose proof (p_env _ _ _ _ _ P) as F. rewrite Forall_forall in F. specialize (F v (nth_error_In _ _ E)). destruct v; cbn in M; try discriminate.
  - inversion M; subst. cbn in F. congruence.
  - unfold World.step. cbn [fst snd World.call]. unfold obind, only. rewrite E. reflexivity.
Qed.
Lemma good_no_exp st v : priv e hl k tl st -> In v (snd st) -> v <> VTimer tl -> no_exp e (fst st) v.
Proof.
  intros P H N. pose proof (p_env _ _ _ _ _ P) as F. rewrite Forall_forall in F. specialize (F v H). split; [|split].
  - intros ->. cbn in F. congruence.
  - intros l s0 -> E. destruct F as [_ F]. auto.
  - intros l h m l' s0 -> E -> E'. destruct F as [->|F]; [congruence|]. destruct (F _ _ E) as [[_ F1] _]. auto.
Qed.
Lemma tinv_other st h n c o : tinv st h n -> records tl (snd st) c = false -> tinv (fst (step mexp st (c, o))) h n.
Proof.
  intros T R. pose proof (t_priv _ _ _ T) as P. pose proof (p_inv _ _ _ _ _ P) as I. constructor.
  - now apply priv_step.
  - destruct (uses (snd st) c) as [v|] eqn:U.
    + assert (D : v = VTimer tl \/ v <> VTimer tl) by (destruct v; try (right; discriminate); destruct (Nat.eq_dec l tl); [left|right]; congruence). destruct D as [->|D].
      * assert (X : fst (step mexp st (c, o)) = st).
        { destruct c; cbn in U; try discriminate; cbn in R; try (rewrite U, Nat.eqb_refl in R; discriminate). unfold World.step. cbn [fst snd World.call]. unfold obind. rewrite U. reflexivity. }
        rewrite X. apply T.
      * apply (exp_step_keeps mexp e (sample_after h) st c o I); [apply T|]. intros v' Hv'. assert (v' = v) by congruence. subst v'. apply good_no_exp; auto.
        destruct c; cbn in U; try discriminate; eauto using nth_error_In.
    + apply (exp_step_keeps mexp e (sample_after h) st c o I); [apply T|]. intros v' Hv'. congruence.
  - apply meter_stays; auto. apply T.
  - destruct (t_meter _ _ _ T) as (a & b & c0 & t & stp & Ek). destruct (t_count _ _ _ T) as (r1 & r5 & r15 & m & Es).
    assert (Q0 : Q k s a b c0 t stp (OMeterSnap n r1 r5 r15 m) (fst st)) by (split; [apply (wf_shape _ (proj1 I))|auto]).
    assert (DR : c = ORound \/ c <> ORound) by (destruct c; auto; right; discriminate). destruct DR as [->|DR].
    + unfold World.step. cbn [fst snd World.call]. unfold unit_rv, tick_meters. unfold bind at 1 2 3. unfold gets, ask.
      pose proof (kc_tick_all s n (visit (o_order o) (alive (fst st))) o (fst st)) as G. destruct (tick_all _ o (fst st)) as [w [[]|]]; cbn [fst snd ret] in *; apply G; apply T.
    + assert (DM : (exists y m0, c = OMark y m0) \/ forall y m0, c <> OMark y m0) by (destruct c; eauto; right; discriminate).
      assert (X : fst (step mexp st (c, o)) = st \/ ~ hits k (snd st) (fst st) c).
      { destruct DM as [(y & m0 & ->)|DM]; [|right; apply no_hit; auto]. 
        destruct (nth_error (snd st) y) as [v|] eqn:E; [|right; intros (v & E' & _); congruence].
        destruct (meter_of (fst st) v) as [k'|] eqn:M; [|right; intros (v' & E' & M'); congruence].
        destruct (Nat.eq_dec k' k) as [->|D]; [left; apply mark_timer_none; auto; exists v; auto|right; intros (v' & E' & M'); congruence]. }
      destruct X as [->|X]; [apply T|]. exists r1, r5, r15, m. apply (step_keeps mexp k s a b c0 t stp (OMeterSnap n r1 r5 r15 m) eq_refl st c o I Q0). auto.
Qed.
Lemma record_call st c : records tl (snd st) c = true -> forall o, nth_error (heap (fst st)) tl = Some (OTimer (VHist hl) (VMeter k)) ->
  step mexp st (c, o) =
    match (hist_update mexp (duration c o) (VHist hl);; meter_mark 1 (VMeter k)) o (fst st) with
    | (w, Ok _) => ((w, snd st), Some (Ok RUnit))
    | (w, Panic msg) => ((w, snd st), Some (Panic msg))
    end.
Proof.
  intros R o E.
  assert (TG : timer_get (VTimer tl) o (fst st) = (fst st, Ok (VHist hl, VMeter k))) by (unfold timer_get, bind, load; rewrite E; reflexivity).
  destruct c; cbn in R; try discriminate; destruct (nth_error (snd st) x) as [v|] eqn:Ex; try discriminate; destruct v; try discriminate; apply Nat.eqb_eq in R; subst l;
    unfold World.step; cbn [fst snd World.call]; unfold obind, only; rewrite Ex; cbn [m_update cls class_eqb duration];
    unfold unit_rv, timer_end, timer_update, timer_update_since; unfold bind, ask in *; rewrite ?TG;
    destruct (hist_update mexp _ (VHist hl) o (fst st)) as [w [[]|]]; cbn [fst snd ret]; auto; destruct (meter_mark 1 (VMeter k) o w) as [w' [[]|]]; unfold ret; cbn [fst snd yields]; rewrite ?app_nil_r; auto.
Qed.
Lemma tinv_record st h n c o : tinv st h n -> records tl (snd st) c = true ->
  let h' := h ++ [XUpdate (o_now o) (duration c o) (o_rand o)] in few (map xop_event h') ->
  snd (step mexp st (c, o)) = Some (Ok RUnit) /\ snd (fst (step mexp st (c, o))) = snd st /\
  tinv (fst (step mexp st (c, o))) h' (if memn k (alive (fst st)) then wrap64 (n + 1) else n) /\ alive (fst (fst (step mexp st (c, o)))) = alive (fst st).
Proof.
  intros T R h' F. pose proof (t_priv _ _ _ T) as P. pose proof (p_inv _ _ _ _ _ P) as I.
  pose proof (record_call st c R o (p_timer _ _ _ _ _ P)) as S. 
  destruct (t_meter _ _ _ T) as (a & b & c0 & t & stp & Ek). 
  assert (A : alive (fst (fst (step mexp st (c, o)))) = alive (fst st)) by (apply unmoved; destruct c; auto; discriminate).
  assert (St : memn k (alive (fst st)) = negb stp).
  { destruct (memn k (alive (fst st))) eqn:Mk; [apply memn_in in Mk|assert (Nk : ~ In k (alive (fst st))) by (rewrite <- memn_in; congruence)]; rewrite (wf_alive _ (proj1 I)) in *.
    - destruct Mk as (? & ? & ? & ? & ? & Mk). rewrite Ek in Mk. inversion Mk; subst. reflexivity.
    - destruct stp; auto. exfalso. apply Nk. repeat eexists; eauto. }
  pose proof (exp_no_panic mexp 1028 f_0015 t0 h (XUpdate (o_now o) (duration c o) (o_rand o)) ltac:(lia) F) as NP. cbn [exp_step] in NP. fold (sample_after h) in NP.
  assert (HU : hist_update mexp (duration c o) (VHist hl) o (fst st) = (set_heap (lset (heap (fst st)) e (OExp (sample_after h'))) (fst st), Ok tt)).
  { unfold hist_update, hist_sample. unfold bind at 1 2, load. rewrite (p_hist _ _ _ _ _ P). unfold ret, sample_update, exp_get. unfold bind at 1 2, load. rewrite (t_exp _ _ _ T). unfold ret, ask. unfold bind at 1 2.
    subst h'. unfold sample_after at 2. rewrite exp_run_snoc. fold (sample_after h). cbn [exp_step]. destruct (exp_update mexp (sample_after h) (o_now o) (duration c o) (o_rand o)) as [x' r']. cbn [fst snd] in *. subst r'. reflexivity. }
  unfold bind in S. rewrite HU in S. set (w1 := set_heap _ (fst st)) in *.
  assert (E1 : nth_error (heap w1) e = Some (OExp (sample_after h'))) by (subst w1; cbn [heap set_heap]; apply lset_nth_eq; eapply nth_lt, T).
  assert (K1 : forall l y, nth_error (heap (fst st)) l = Some y -> tag_of y <> TExp -> nth_error (heap w1) l = Some y).
  { intros l y E N. subst w1. cbn [heap set_heap]. rewrite lset_nth_neq; auto. intros <-. rewrite (t_exp _ _ _ T) in E. inversion E; subst. cbn in N. congruence. }
  assert (SH : mshape (heap w1)).
  { intros l s' a' b' c' t' st' E. apply (wf_shape _ (proj1 I) l s' a' b' c' t' st'). subst w1. cbn [heap set_heap] in E. destruct (Nat.eq_dec e l) as [<-|D]; [rewrite lset_nth_eq in E by (eapply nth_lt, T); discriminate|rewrite lset_nth_neq in E; auto]. }
  assert (C1 : cnt s n w1) by (destruct (t_count _ _ _ T) as (r1 & r5 & r15 & m & Es); exists r1, r5, r15, m; apply K1; [auto|discriminate]).
  assert (Ek1 : nth_error (heap w1) k = Some (OMeter s a b c0 t stp)) by (apply K1; [auto|discriminate]).
  pose proof (mark_ok k s a b c0 t stp n 1 o w1 SH Ek1 C1) as MO.
  pose proof (kp_mark e (sample_after h') 1 (VMeter k) o w1 E1) as KE.
  destruct (step_inv mexp st c o I) as (_ & _ & _ & ND).
  destruct (meter_mark 1 (VMeter k) o w1) as [w2 [[]|msg]].
  - split; [rewrite S; auto|]. split; [rewrite S; auto|]. split; auto. constructor.
    + now apply priv_step.
    + rewrite S. exact KE.
    + apply meter_stays; auto. apply T.
    + rewrite S, St. cbn [fst]. destruct stp; cbn [negb]; [subst w2|]; auto.
  - exfalso. apply ND. rewrite S. cbn [snd]. now rewrite MO.
Qed.
End Hist.

(** ** making a timer *)
(** NewTimer, and the calls that use it *)
Definition makes_timer (c : op) : bool :=
  match c with
  | ONew NTimer | ONewRegistered NTimer _ _ | OGetOrRegisterFn _ _ NTimer | OGetOrRegisterX GTimer _ _ => true
  | _ => false
  end.
Section Make.
Variable mexp : f64 -> f64.
Lemma old_good w h' v : wf w -> vok (heap w) v -> let n := List.length (heap w) in
  (forall l o, l < n -> fixed o -> nth_error h' l = Some o -> nth_error (heap w) l = Some o) -> good n (n + 1) (n + 6) (n + 7) h' v.
Proof.
  intros W V n B.
  assert (G0 : forall u, vok (heap w) u -> good0 n (n + 1) (n + 6) h' u).
  { intros u Vu. destruct u; cbn; auto; pose proof (vok_lt _ _ _ Vu eq_refl) as Lt; fold n in Lt; try lia. split; [lia|]. intros s E. apply (B l (OHist s) Lt Logic.I) in E.
    pose proof (wf_obj _ W _ _ E) as O. cbn in O. intros ->. destruct O as [_ O]. cbn in O. apply tagat_lt in O. fold n in O. lia. }
  destruct v; try (apply G0; auto; fail). cbn. right. intros hh m E. pose proof (vok_lt _ _ _ V eq_refl) as Lt. fold n in Lt. apply (B l (OTimer hh m) Lt Logic.I) in E.
  pose proof (wf_obj _ W _ _ E) as O. cbn in O. split; apply G0; tauto.
Qed.
Lemma made (st : state) c o tl : inv st -> makes_timer c = true -> snd (step mexp st (c, o)) = Some (Ok (RVal (VTimer tl))) ->
  let n := List.length (heap (fst st)) in n <= tl ->
  tl = n + 7 /\ tinv mexp n (n + 1) (n + 6) (n + 7) (n + 2) (o_now o) (fst (step mexp st (c, o))) [] 0 /\ In (n + 6) (alive (fst (fst (step mexp st (c, o))))).
Proof.
  intros I M R n Lt. destruct (step_inv mexp st c o I) as (I' & L & _).
  assert (OLD : forall l es nm, nth_error (heap (fst st)) l = Some (OReg es) -> lookup nm es = Some (VTimer tl) -> False).
  { intros l es nm El Lk. apply lookup_In in Lk. pose proof (wf_obj _ (proj1 I) _ _ El) as O. cbn in O. destruct O as [_ O]. rewrite Forall_forall in O. specialize (O _ Lk). cbn in O. destruct O as [_ O]. apply tagat_lt in O. fold n in O. lia. }
  assert (X : usenil (fst st) = false /\ exists w1, construct mexp KTimer o (fst st) = (w1, Ok (VTimer tl)) /\ alive (fst (fst (step mexp st (c, o)))) = alive w1 /\
      (heap (fst (fst (step mexp st (c, o)))) = heap w1 \/ exists l y es, nth_error (heap w1) l = Some (OReg y) /\ heap (fst (fst (step mexp st (c, o)))) = lset (heap w1) l (OReg es)) /\
      snd (fst (step mexp st (c, o))) = snd st ++ [VTimer tl]).
  { assert (U : forall w i, construct mexp KTimer o (fst st) = (w, Ok i) -> i = VTimer tl -> usenil (fst st) = false).
    { intros w i C ->. cbn [construct] in C. unfold new_timer, unless_nil, bind, gets in C. destruct (usenil (fst st)); [inversion C|reflexivity]. }
    revert R. destruct c; try discriminate; [destruct k; try discriminate|destruct k; try discriminate|destruct k; try discriminate|destruct k; try discriminate]; clear M; unfold World.step; cbn [fst snd World.call ctor_of regk_new]; unfold obind, only.
    - unfold v_rv, bind. destruct (construct mexp KTimer o (fst st)) as [w1 [i|]] eqn:C; cbn [fst snd ret]; intros X; inversion X; subst. split; [eapply U; eauto|]. exists w1. cbn [yields]. auto.
    - destruct (nth_error (snd st) r) as [v|] eqn:Er; [|discriminate]. destruct (class_eqb (cls v) CReg) eqn:Cv; [apply class_eqb_eq in Cv|discriminate].
      destruct (env_reg st r v I Er Cv) as (l & es & Bs & Es). unfold v_rv. unfold bind. rewrite (reg_gor_std l v Bs), (std_gor_ok o (fst st) l es _ _ Es (pres_mk mexp KTimer)).
      destruct (lookup (full v name) es) as [i|] eqn:Lk; [unfold ret; cbn [fst snd]; intros X; inversion X; subst; exfalso; eauto|].
      pose proof (pres_mk mexp KTimer o (fst st)) as F. destruct (construct mexp KTimer o (fst st)) as [w1 [i|]] eqn:C; cbn [fst snd ret]; intros X; inversion X; subst. cbn [fst] in F. split; [eapply U; eauto|].
      exists w1. cbn [yields alive set_heap heap is_metric cls]. repeat (split; auto). right. exists l, es. eexists. split; [eapply fr_same; eauto|reflexivity].
    - cbn [has_new_registered]. destruct (reg_arg (snd st) r) as [v|] eqn:Er; [|discriminate]. destruct (reg_arg_ok st r v I Er) as (l & es & Bs & Es & _).
      unfold v_rv. unfold bind. rewrite (new_registered_ok mexp o (fst st) v l es KTimer name Bs Es).
      pose proof (pres_mk mexp KTimer o (fst st)) as F. destruct (construct mexp KTimer o (fst st)) as [w1 [i|]] eqn:C; cbn [fst snd ret]; intros X; inversion X; subst. cbn [fst] in F. split; [eapply U; eauto|].
      exists w1. destruct (lookup (full v name) es); cbn [yields alive set_heap heap is_metric cls]; repeat (split; auto). right. exists l, es. eexists. split; [eapply fr_same; eauto|reflexivity].
    - destruct (reg_arg (snd st) r) as [v|] eqn:Er; [|discriminate]. destruct (reg_arg_ok st r v I Er) as (l & es & Bs & Es & _).
      destruct (ctor_arg mexp st GTimer KTimer o I eq_refl) as (w1 & i & C & Kc). unfold v_rv. unfold bind. rewrite (gor_x_ok mexp o (fst st) v l es GTimer KTimer name w1 i Bs Es C Kc).
      pose proof (pres_mk mexp KTimer o (fst st)) as F. rewrite C in F. cbn [fst] in F.
      destruct (lookup (full v name) es) as [y|] eqn:Lk.
      + destruct (class_eqb (cls y) (regk_class GTimer)); unfold ret; cbn [fst snd]; intros X; inversion X; subst; exfalso; eauto.
      + unfold ret. cbn [fst snd]. intros X; inversion X; subst. split; [eapply U; eauto|]. exists w1. cbn [yields alive set_heap heap]. repeat (split; auto). right. exists l, es. eexists. split; [eapply fr_same; eauto|reflexivity]. }
  destruct X as (U & w1 & C & A & H & En). cbn [construct] in C. destruct (new_timer_layout mexp o (fst st) U) as (a & b & c0 & Lay & _). fold n in Lay. rewrite Lay in C. injection C as C1 C2. split; auto. subst tl.
  assert (NTH : forall j y, tag_of y <> TReg -> nth_error (heap w1) j = Some y -> nth_error (heap (fst (fst (step mexp st (c, o))))) j = Some y).
  { intros j y T E. destruct H as [->|(l & z & es & El & ->)]; auto. rewrite lset_nth_neq; auto. intros ->. rewrite E in El. inversion El; subst. cbn in T. congruence. }
  assert (BACK : forall j y, fixed y -> nth_error (heap (fst (fst (step mexp st (c, o))))) j = Some y -> nth_error (heap w1) j = Some y).
  { intros j y T E. destruct H as [Hh|(l & z & es & El & Hh)]; rewrite Hh in E; auto. destruct (Nat.eq_dec l j) as [->|D]; [rewrite lset_nth_eq in E by (eapply nth_lt; eauto); inversion E; subst; destruct T|rewrite lset_nth_neq in E; auto]. }
  assert (AT : forall j y, nth_error [OExp (NewExpDecaySample 1028 f_0015 (o_now o)); OHist (VExp n); OMeterSnap 0 0 0 0 0; a; b; c0; OMeter (n + 2) (VEwma (n + 3)) (VEwma (n + 4)) (VEwma (n + 5)) (o_now o) false; OTimer (VHist (n + 1)) (VMeter (n + 6))] j = Some y -> nth_error (heap w1) (n + j) = Some y).
  { intros j y E. rewrite <- C1. cbn [heap]. unfold n. rewrite nth_app_r. exact E. }
  assert (E0 : nth_error (heap (fst (fst (step mexp st (c, o))))) n = Some (OExp (NewExpDecaySample 1028 f_0015 (o_now o)))) by (apply NTH; [discriminate|]; replace n with (n + 0) by lia; apply AT; reflexivity).
  assert (E1 : nth_error (heap (fst (fst (step mexp st (c, o))))) (n + 1) = Some (OHist (VExp n))) by (apply NTH; [discriminate|]; apply AT; reflexivity).
  assert (E2 : nth_error (heap (fst (fst (step mexp st (c, o))))) (n + 2) = Some (OMeterSnap 0 0 0 0 0)) by (apply NTH; [discriminate|]; apply AT; reflexivity).
  assert (E6 : nth_error (heap (fst (fst (step mexp st (c, o))))) (n + 6) = Some (OMeter (n + 2) (VEwma (n + 3)) (VEwma (n + 4)) (VEwma (n + 5)) (o_now o) false)) by (apply NTH; [discriminate|]; apply AT; reflexivity).
  assert (E7 : nth_error (heap (fst (fst (step mexp st (c, o))))) (n + 7) = Some (OTimer (VHist (n + 1)) (VMeter (n + 6)))) by (apply NTH; [discriminate|]; apply AT; reflexivity).
  assert (OG : forall v, vok (heap (fst st)) v -> good n (n + 1) (n + 6) (n + 7) (heap (fst (fst (step mexp st (c, o))))) v).
  { intros v V. apply (old_good (fst st)); [apply I|auto|]. intros l y Ll Fy E. apply BACK in E; auto. rewrite <- C1 in E. cbn [heap] in E. now rewrite nth_error_app1 in E by auto. }
  split.
  - constructor.
    + constructor; auto.
      * eexists. split; [exact E0|reflexivity].
      * eexists. split; [exact E6|reflexivity].
      * rewrite En. apply Forall_app. split; [|constructor; [cbn; auto|constructor]]. eapply Forall_impl; [|exact (proj2 I)]. exact OG.
      * intros l nm v Hv. rewrite (refine mexp st c o I) in Hv. apply after_origin in Hv. destruct Hv as [Hv|[Hv|Hv]].
        -- apply OG. apply (registered_vok _ _ _ _ (proj1 I) Hv).
        -- apply OG. pose proof (proj2 I) as V. rewrite Forall_forall in V. auto.
        -- rewrite R in Hv. inversion Hv; subst v. cbn. auto.
    + exact E0.
    + repeat eexists. exact E6.
    + repeat eexists. exact E2.
  - rewrite A, <- C1. cbn [alive]. apply in_or_app. right. left. reflexivity.
Qed.
End Make.
