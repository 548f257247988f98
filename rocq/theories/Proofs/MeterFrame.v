(** What a meter publishes changes only when that meter is marked or ticked, and
    not at all once it is stopped. *)
From Coq Require Import ZArith List String Bool Lia Arith Permutation.
From Verif.Model Require Import GoInt GoFloat GoBase Stats Uniform ExpDecay Conc Ewma World.
From Verif.Spec Require Import RegistrySpec.
From Verif.Proofs Require Import WorldBase WorldStep WorldFrame RegistryProofs RegistryStep MeterRun.
Import ListNotations.
Local Open Scope nat_scope.
Local Open Scope list_scope.

Section Keep.
Variable mexp : f64 -> f64.
(** a meter [k] and what it publishes *)
Variables (k s : nat) (a b c : val) (t : Z) (stp : bool) (x : obj).
Hypothesis X : tag_of x = TMeterSnap.
Definition Q (w : world) : Prop :=
  mshape (heap w) /\ nth_error (heap w) k = Some (OMeter s a b c t stp) /\ nth_error (heap w) s = Some x.
Definition keeps {A} (m : M A) : Prop := forall o w, Q w -> Q (fst (m o w)).

Lemma keeps_bind {A B} (m : M A) (f : A -> M B) : keeps m -> (forall r, keeps (f r)) -> keeps (bind m f).
Proof. intros H K o w q. unfold bind. specialize (H o w q). destruct (m o w) as [w' [r|msg]]; cbn [fst] in *; auto. now apply K. Qed.
Lemma keeps_ret {A} (r : A) : keeps (ret r). Proof. intros o w q. exact q. Qed.
Lemma keeps_throw {A} m : keeps (@throw A m). Proof. intros o w q. exact q. Qed.
Lemma keeps_lift {A} (r : res A) : keeps (lift r). Proof. intros o w q. exact q. Qed.
Lemma keeps_ask {A} (f : orc -> A) : keeps (ask f). Proof. intros o w q. exact q. Qed.
Lemma keeps_gets {A} (f : world -> A) : keeps (gets f). Proof. intros o w q. exact q. Qed.
Lemma keeps_load l : keeps (load l). Proof. intros o w q. unfold load. destruct (nth_error _ _); exact q. Qed.
Lemma keeps_alloc y : tag_of y <> TMeter -> keeps (alloc y).
Proof.
  intros N o w (S & K & P). unfold alloc. cbn [fst]. split; [|split]; cbn [heap set_heap]; try (apply nth_app_l; auto).
  intros l s' a' b' c' t' st' E. destruct (lt_dec l (List.length (heap w))) as [L|L]; [rewrite nth_error_app1 in E by auto; eapply S; eauto|].
  rewrite nth_error_app2 in E by lia. destruct (l - List.length (heap w)) as [|j]; cbn in E; [inversion E; subst; cbn in N; congruence|destruct j; discriminate].
Qed.
(** overwriting an object that is neither a meter nor a published struct, or another struct *)
Lemma Q_store w l y z : Q w -> nth_error (heap w) l = Some y -> tag_of z = tag_of y -> tag_of y <> TMeter ->
  (tag_of y = TMeterSnap -> l <> s) -> Q (set_heap (lset (heap w) l z) w).
Proof.
  intros (S & K & P) E Tg N D. assert (Dk : l <> k) by (intros ->; rewrite K in E; inversion E; subst; cbn in N; congruence).
  assert (Ds : l <> s) by (intros ->; apply D; congruence).
  split; [|split]; cbn [heap set_heap]; try (rewrite lset_nth_neq; auto).
  intros l' s' a' b' c' t' st' E'. destruct (Nat.eq_dec l l') as [->|D']; [|rewrite lset_nth_neq in E' by auto; eapply S; eauto].
  rewrite lset_nth_eq in E' by (eapply nth_lt; eauto). inversion E'; subst. cbn in Tg. congruence.
Qed.
(** read an object of one kind and overwrite it with one of the same kind *)
Lemma keeps_update {A} (l : nat) (f : obj -> M A) : (forall y, match f y with m => forall o w, Q w -> nth_error (heap w) l = Some y -> Q (fst (m o w)) end) -> keeps (bind (load l) f).
Proof. intros H o w q. unfold bind, load. destruct (nth_error (heap w) l) as [y|] eqn:E; [|exact q]. apply H; auto. Qed.
Lemma keeps_ewma_do l op : keeps (ewma_do l op).
Proof.
  unfold ewma_do. apply keeps_update. intros y o w q E. destruct y; try exact q. destruct (cseq _ _) as [[e' r]|]; [|exact q]. cbn [fst].
  unfold bind, store, ret. cbn [fst]. eapply Q_store; eauto; cbn; congruence.
Qed.
Lemma keeps_ewma_mut op v : keeps (ewma_mut op v).
Proof. destruct v; cbn; auto using keeps_throw, keeps_ret. apply keeps_bind; [apply keeps_ewma_do|intros; apply keeps_ret]. Qed.
Lemma keeps_ewma_rate v : keeps (ewma_rate v).
Proof. destruct v; cbn; auto using keeps_throw, keeps_ret, keeps_ewma_do. Qed.
Lemma keeps_update_snapshot m : mo_snap m <> s -> keeps (update_snapshot m).
Proof.
  intros D. unfold update_snapshot. do 3 (apply keeps_bind; [apply keeps_ewma_rate|intros ?]). unfold msnap_get.
  intros o w q. unfold bind at 1. unfold bind at 1. unfold load. destruct (nth_error (heap w) (mo_snap m)) as [y|] eqn:E; [|exact q].
  destruct y; try exact q. unfold ret, bind, ask, store. cbn [fst]. eapply Q_store; eauto; cbn; congruence.
Qed.
Lemma other_snap w l s' a' b' c' t' st' : Q w -> nth_error (heap w) l = Some (OMeter s' a' b' c' t' st') -> l <> k -> s' <> s.
Proof. intros (S & K & P) E D. pose proof (S _ _ _ _ _ _ _ E). pose proof (S _ _ _ _ _ _ _ K). lia. Qed.
Lemma keeps_mark n v : (forall l, v = VMeter l -> l <> k \/ stp = true) -> keeps (meter_mark n v).
Proof.
  intros H. destruct v; cbn; auto using keeps_throw, keeps_ret. intros o w q. unfold meter_get. unfold bind at 1 2. unfold load.
  destruct (nth_error (heap w) l) as [y|] eqn:E; [|exact q]. destruct y; try exact q. cbn [ret mo_stopped].
  destruct stopped; [exact q|]. assert (D : l <> k) by (destruct (H l eq_refl) as [|St]; auto; intros ->; destruct q as (_ & K & _); rewrite K in E; congruence).
  pose proof (other_snap w l _ _ _ _ _ _ q E D) as Ds. unfold msnap_get. unfold bind at 1 2. unfold load. cbn [mo_snap].
  destruct (nth_error (heap w) snap) as [y|] eqn:E1; [|exact q]. destruct y; try exact q. cbn [ret].
  match goal with |- Q (fst (?m o w)) => enough (K : keeps m \/ exists m', m = bind (store snap (OMeterSnap (wrap64 (count + n)) r1 r5 r15 mean)) m' /\ forall r, keeps (m' r)) end.
  - destruct K as [K|(m' & -> & K)]; [apply K; exact q|]. unfold bind, store. apply K. eapply Q_store; eauto; cbn; congruence.
  - right. eexists. split; [reflexivity|]. intros ?. do 3 (apply keeps_bind; [apply keeps_ewma_mut|intros ?]). apply keeps_update_snapshot. exact Ds.
Qed.
Lemma keeps_tick l : l <> k -> keeps (meter_tick l).
Proof.
  intros D o w q. unfold meter_tick, meter_get. unfold bind at 1 2. unfold load. destruct (nth_error (heap w) l) as [y|] eqn:E; [|exact q]. destruct y; try exact q. cbn [ret].
  pose proof (other_snap w l _ _ _ _ _ _ q E D) as Ds.
  match goal with |- Q (fst (?m o w)) => enough (K : keeps m) by (apply K; exact q) end.
  do 3 (apply keeps_bind; [apply keeps_ewma_mut|intros ?]). apply keeps_update_snapshot. exact Ds.
Qed.
Lemma keeps_tick_all ls : ~ In k ls -> keeps (tick_all ls).
Proof.
  induction ls as [|l ls IH]; cbn [tick_all]; intros N; [apply keeps_ret|]. apply keeps_bind; [apply keeps_tick; intros ->; apply N; left; auto|]. intros ?. apply IH. intros H. apply N. now right.
Qed.
(** sample and histogram updates *)
Lemma keeps_sample_update n v : keeps (sample_update mexp n v).
Proof.
  destruct v; cbn [sample_update]; auto using keeps_throw, keeps_ret.
  - intros o w q. unfold uni_get, arr_get. unfold bind at 1 2. unfold load. destruct (nth_error (heap w) l) as [y|] eqn:E; [|exact q]. destruct y; try exact q. cbn [ret].
    unfold bind at 1 2. destruct (nth_error (heap w) arr) as [y|] eqn:E1; [|exact q]. destruct y; try exact q. cbn [ret]. unfold bind at 1, ask. cbn [fst].
    destruct (uni_update _ _ _) as [u r]. unfold bind, store, lift. cbn [fst].
    assert (D : arr <> l) by congruence.
    apply (Q_store _ l (OUniform count size arr)); [apply (Q_store _ arr (OArr xs)); [exact q|exact E1|reflexivity|discriminate|discriminate]| |reflexivity|discriminate|discriminate].
    cbn [heap set_heap]. rewrite lset_nth_neq by auto. exact E.
  - intros o w q. unfold exp_get. unfold bind at 1 2. unfold load. destruct (nth_error (heap w) l) as [y|] eqn:E; [|exact q]. destruct y; try exact q. cbn [ret].
    unfold bind at 1 2, ask. destruct (exp_update _ _ _ _ _) as [s' r]. unfold bind, store, lift. cbn [fst]. apply (Q_store _ l (OExp x0)); [exact q|exact E|reflexivity|discriminate|discriminate].
Qed.
Lemma keeps_hist_update n v : keeps (hist_update mexp n v).
Proof.
  unfold hist_update. assert (K : keeps (s0 <- hist_sample v;; sample_update mexp n s0)).
  { apply keeps_bind; [|intros; apply keeps_sample_update]. destruct v; cbn; auto using keeps_ret, keeps_throw; (apply keeps_bind; [apply keeps_load|]; intros []; auto using keeps_ret, keeps_throw). }
  destruct v; auto using keeps_throw.
Qed.

(** ** calls *)
(** the call marks meter [k]: it is a Mark of it or an update of a timer that has it *)
Definition hits (e : env) (w : world) (cl : op) : Prop :=
  match cl with
  | OMark y _ | OUpdate y _ | OTimeEnd y _ | OUpdateSince y _ => exists v, nth_error e y = Some v /\ meter_of w v = Some k
  | _ => False
  end.
Lemma timer_get_m w l o : (exists h m, nth_error (heap w) l = Some (OTimer h m) /\ timer_get (VTimer l) o w = (w, Ok (h, m))) \/ exists msg, timer_get (VTimer l) o w = (w, Panic msg).
Proof.
  unfold timer_get, bind, load. destruct (nth_error (heap w) l) as [y|] eqn:E; [|right; eauto]. destruct y; cbn; try (right; eexists; reflexivity). left. eauto.
Qed.
Lemma Q_timer_update d v o w : Q w -> (stp = true \/ meter_of w v <> Some k) -> Q (fst (timer_update mexp d v o w)).
Proof.
  intros q H. destruct v; try exact q. unfold timer_update. unfold bind at 1. destruct (timer_get_m w l o) as [(h & m & E & ->)|(msg & ->)]; [|exact q].
  assert (K : keeps (hist_update mexp d h;; meter_mark 1 m)); [|apply K; exact q].
  apply keeps_bind; [apply keeps_hist_update|intros _]. apply keeps_mark. intros l0 ->. destruct H as [H|H]; auto. left. intros ->. apply H. cbn [meter_of]. now rewrite E.
Qed.
Lemma Q_timer_update_since d v o w : Q w -> (stp = true \/ meter_of w v <> Some k) -> Q (fst (timer_update_since mexp d v o w)).
Proof.
  intros q H. destruct v; try exact q. unfold timer_update_since. unfold bind at 1, ask. unfold bind at 1. destruct (timer_get_m w l o) as [(h & m & E & ->)|(msg & ->)]; [|exact q].
  match goal with |- Q (fst (?m0 o w)) => assert (K : keeps m0); [|apply K; exact q] end.
  apply keeps_bind; [apply keeps_hist_update|intros _]. apply keeps_mark. intros l0 ->. destruct H as [H|H]; auto. left. intros ->. apply H. cbn [meter_of]. now rewrite E.
Qed.
Lemma Q_unit {A B} (m : M A) (r : B) o w : Q (fst (m o w)) -> Q (fst (bind m (fun _ => ret r) o w)).
Proof. unfold bind, ret. destruct (m o w) as [w' [z|msg]]; auto. Qed.

Lemma step_keeps (st : state) cl o : inv st -> Q (fst st) -> (stp = true \/ ~ hits (snd st) (fst st) cl /\ cl <> ORound) ->
  nth_error (heap (fst (fst (step mexp st (cl, o))))) s = Some x.
Proof.
  intros I q H. pose proof q as (_ & K & P).
  assert (D : In TMeterSnap (touch cl) \/ ~ In TMeterSnap (touch cl)) by (destruct cl; cbn; intuition congruence).
  destruct D as [D|D]; [|apply untouched; auto; congruence].
  assert (G : Q (fst (fst (step mexp st (cl, o)))) -> nth_error (heap (fst (fst (step mexp st (cl, o))))) s = Some x) by (intros (_ & _ & Z); exact Z).
  apply G. clear G. unfold World.step.
  assert (R : forall m : M rv, Q (fst (m o (fst st))) -> Q (fst (fst (let (w, r) := m o (fst st) in match r with Ok r0 => ((w, snd st ++ yields r0), Some (Ok r0)) | Panic msg => ((w, snd st), Some (Panic msg)) end)))).
  { intros m. destruct (m o (fst st)) as [w' [z|msg]]; auto. }
  destruct cl; cbn in D; try (exfalso; intuition congruence; fail); cbn [fst snd World.call]; unfold obind, only.
  - (* a round of ticks *)
    destruct H as [St|[_ N]]; [|congruence]. apply R. unfold unit_rv. apply Q_unit. unfold tick_meters. unfold bind at 1 2, gets, ask. apply keeps_tick_all; auto.
    intros Hk. apply (Permutation_in _ (MeterRun.visit_perm _ _ (wf_nodup _ (proj1 I)))) in Hk. apply (wf_alive _ (proj1 I)) in Hk. destruct Hk as (? & ? & ? & ? & ? & Hk). rewrite K in Hk. congruence.
  - (* Update *)
    destruct (nth_error (snd st) x0) as [v|] eqn:E; [|exact q]. unfold m_update. destruct (cls v) eqn:C; try exact q; apply R; unfold unit_rv; apply Q_unit.
    + destruct v; cbn in C; try discriminate; try exact q. unfold gauge_update. apply Q_unit. unfold g_do. apply keeps_update; [|exact q]. intros y o' w' q' E'. destruct y; try exact q'.
      unfold bind, store, ret. cbn [fst]. apply (Q_store _ l (OGauge n0)); [exact q'|exact E'|reflexivity|discriminate|discriminate].
    + apply keeps_sample_update; exact q.
    + apply keeps_hist_update; exact q.
    + apply keeps_ewma_mut; exact q.
    + apply Q_timer_update; [exact q|]. destruct H as [H|[H _]]; auto. right. intros M. apply H. cbn. eauto.
  - destruct (nth_error (snd st) x0) as [v|] eqn:E; [|exact q]. destruct (class_eqb (cls v) CMeter); [|exact q]. apply R. unfold unit_rv. apply Q_unit. apply keeps_mark; [|exact q].
    intros l ->. destruct H as [H|[H _]]; auto. left. intros ->. apply H. cbn. exists (VMeter k). auto.
  - destruct (nth_error (snd st) x0) as [v|] eqn:E; [|exact q]. destruct (class_eqb (cls v) CTimer); [|exact q]. apply R. unfold unit_rv. apply Q_unit. unfold timer_end. unfold bind, ask.
    apply Q_timer_update; [exact q|]. destruct H as [H|[H _]]; auto. right. intros M. apply H. cbn. eauto.
  - destruct (nth_error (snd st) x0) as [v|] eqn:E; [|exact q]. destruct (class_eqb (cls v) CTimer); [|exact q]. apply R. unfold unit_rv. apply Q_unit.
    apply Q_timer_update_since; [exact q|]. destruct H as [H|[H _]]; auto. right. intros M. apply H. cbn. eauto.
Qed.
End Keep.
