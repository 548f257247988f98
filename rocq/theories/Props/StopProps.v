(** Property C36: what stops meters. *)
From Coq Require Import ZArith List String Bool Lia Arith Permutation.
From Verif.Model Require Import GoInt GoFloat GoBase World.
From Verif.Spec Require Import RegistrySpec.
From Verif.Proofs Require Import WorldBase WorldStep WorldFrame RegistryProofs RegistryStep RegistryNew MeterFrame AliveProofs.
From Verif.Props Require Import SnapshotProps.
Import ListNotations.
Local Open Scope nat_scope.
Local Open Scope list_scope.

Lemma vok_meter w v k : wf w -> vok (heap w) v -> meter_of w v = Some k -> exists s a b c t stp x,
  nth_error (heap w) k = Some (OMeter s a b c t stp) /\ nth_error (heap w) s = Some x /\ tag_of x = TMeterSnap /\ (stp = false <-> In k (alive w)).
Proof.
  intros W V M.
  assert (T : tagat (heap w) k TMeter).
  { destruct v; cbn in M; try discriminate; [inversion M; subst; exact V|]. destruct (nth_error (heap w) l) as [y|] eqn:E; [|discriminate]. destruct y; try discriminate. destruct m; try discriminate. inversion M; subst.
    pose proof (wf_obj _ W _ _ E) as O. cbn in O. tauto. }
  destruct T as (y & E & T). destruct y; cbn in T; try discriminate. pose proof (wf_obj _ W _ _ E) as O. cbn in O.
  assert (S : tagat (heap w) snap TMeterSnap) by tauto. destruct S as (x & Ex & Tx).
  exists snap, a1, a5, a15, start, stopped, x. repeat (split; [assumption|]). rewrite (wf_alive _ W k). split.
  - intros ->. repeat eexists; eauto.
  - intros (? & ? & ? & ? & ? & H). congruence.
Qed.
Lemma meter_of_step mexp (st : state) c o v : inv st -> vok (heap (fst st)) v -> meter_of (fst (fst (step mexp st (c, o)))) v = meter_of (fst st) v.
Proof.
  intros I V. destruct v; auto. cbn [meter_of]. destruct V as (y & E & T). destruct y; cbn in T; try discriminate.
  destruct (step_inv mexp st c o I) as (_ & (_ & L & _) & _). destruct (L _ _ E) as (y' & E' & X). cbn in X. rewrite E, E'. destruct y'; try discriminate X. inversion X; subst. reflexivity.
Qed.
Lemma frozen_step mexp (st : state) cl o k s a b c t x : inv st -> tag_of x = TMeterSnap ->
  nth_error (heap (fst st)) k = Some (OMeter s a b c t true) -> nth_error (heap (fst st)) s = Some x ->
  nth_error (heap (fst (fst (step mexp st (cl, o))))) k = Some (OMeter s a b c t true) /\ nth_error (heap (fst (fst (step mexp st (cl, o))))) s = Some x.
Proof.
  intros I T K S. destruct (step_inv mexp st cl o I) as (_ & (_ & L & _) & _). destruct (L _ _ K) as (y & E & X). split.
  - rewrite E. destruct y; cbn in X; try discriminate X. destruct X as (-> & -> & -> & -> & -> & X). now rewrite (X eq_refl).
  - apply (step_keeps mexp k s a b c t true x T st cl o I); auto. split; [apply (wf_shape _ (proj1 I))|auto].
Qed.
Lemma run_cons mexp st c o q : run mexp st ((c, o) :: q) = run mexp (fst (step mexp st (c, o))) q.
Proof. reflexivity. Qed.
Lemma frozen_run mexp q : forall st k s a b c t x, inv st -> tag_of x = TMeterSnap ->
  nth_error (heap (fst st)) k = Some (OMeter s a b c t true) -> nth_error (heap (fst st)) s = Some x ->
  nth_error (heap (fst (run mexp st q))) k = Some (OMeter s a b c t true) /\ nth_error (heap (fst (run mexp st q))) s = Some x.
Proof.
  induction q as [|[cl o] q IH]; intros st k s a b c t x I T K S; [auto|]. rewrite run_cons. destruct (frozen_step mexp st cl o k s a b c t x I T K S) as [K' S'].
  apply IH; auto. apply step_inv; auto.
Qed.
Lemma meter_of_run mexp q : forall (st : state) v, inv st -> vok (heap (fst st)) v -> meter_of (fst (run mexp st q)) v = meter_of (fst st) v /\ vok (heap (fst (run mexp st q))) v /\ inv (run mexp st q).
Proof.
  induction q as [|[c o] q IH]; intros st v I V; [auto|]. rewrite run_cons. destruct (step_inv mexp st c o I) as (I' & L & _).
  assert (V' : vok (heap (fst (fst (step mexp st (c, o))))) v) by (eapply legalh_vok; eauto). destruct (IH _ v I' V') as (A & B & C). rewrite A. split; auto. apply meter_of_step; auto.
Qed.
(** what is read of a meter, or of a timer's meter, is in the published struct *)
Lemma mrate_of mexp (st : state) x v k s a b c t stp y r o : nth_error (snd st) x = Some v -> meter_of (fst st) v = Some k ->
  nth_error (heap (fst st)) k = Some (OMeter s a b c t stp) -> nth_error (heap (fst st)) s = Some y ->
  snd (step mexp st (OMRate x r, o)) = match y with OMeterSnap n r1 r5 r15 m => Some (Ok (RF (float64frombits (rate_bits r (MkS n r1 r5 r15 m))))) | _ => Some (Panic msg_dangling) end.
Proof.
  intros E M K S. unfold World.step. cbn [fst snd World.call]. unfold obind. rewrite E.
  assert (R : meter_rate r (VMeter k) o (fst st) = (fst st, match y with OMeterSnap n r1 r5 r15 m => Ok (float64frombits (rate_bits r (MkS n r1 r5 r15 m))) | _ => Panic msg_dangling end)).
  { unfold meter_rate, meter_view, meter_get, msnap_get, bind, load. rewrite K. cbn [ret mo_snap]. rewrite S. destruct y; reflexivity. }
  destruct v; cbn in M; try discriminate; cbn [cls].
  - inversion M; subst. unfold f_rv, bind. rewrite R. destruct y; reflexivity.
  - destruct (nth_error (heap (fst st)) l) as [z|] eqn:El; [|discriminate]. destruct z; try discriminate. destruct m; try discriminate. inversion M; subst.
    unfold f_rv, timer_rate, timer_get, bind, load. rewrite El. cbn [ret]. rewrite R. destruct y; reflexivity.
Qed.
Lemma mcount_of mexp (st : state) x k s a b c t stp y o : nth_error (snd st) x = Some (VMeter k) ->
  nth_error (heap (fst st)) k = Some (OMeter s a b c t stp) -> nth_error (heap (fst st)) s = Some y ->
  snd (step mexp st (OCount x, o)) = match y with OMeterSnap n _ _ _ _ => Some (Ok (RZ n)) | _ => Some (Panic msg_dangling) end.
Proof.
  intros E K S. unfold World.step. cbn [fst snd World.call]. unfold obind. rewrite E. cbn [m_count cls]. unfold z_rv, meter_count, meter_view, meter_get, msnap_get, bind, load.
  rewrite K. cbn [ret mo_snap]. rewrite S. destruct y; reflexivity.
Qed.

(** ** C36 *)
(** [k] ranges over the meters there are (addresses in use); a call changes which of
    them are ticked exactly as [stops_meter] (Spec/RegistrySpec.v) says: Stop of the
    meter or of a timer that has it, Unregister of a name that holds one of these,
    UnregisterAll of a registry that holds one; any other ticked meter stays ticked,
    and a meter that is no longer ticked never is again *)
Theorem C36_exactly : forall mexp p c o k, let st := reach mexp p in k < List.length (heap (fst st)) ->
  (In k (alive (fst (fst (step mexp st (c, o))))) <-> In k (alive (fst st)) /\ ~ stops_meter (snd st) (fst st) c k).
Proof. intros mexp p c o k st Hk. exact (alive_step mexp st c o k (reach_inv mexp p) Hk). Qed.

(** in particular *)
Theorem C36_unregister : forall mexp p x v n i k o, let st := reach mexp p in
  nth_error (snd st) x = Some v -> bound (registered (fst st)) v n = Some i -> meter_of (fst st) i = Some k ->
  ~ In k (alive (fst (fst (step mexp st (OUnregister x n, o))))).
Proof.
  intros mexp p x v n i k o st. assert (I : inv st) by exact (reach_inv mexp p). clearbody st. intros E B M.
  assert (L : k < List.length (heap (fst st))).
  { assert (V : vok (heap (fst st)) i).
    { unfold bound in B. destruct (base v) as [l|]; [|discriminate]. unfold registered in B. destruct (nth_error (heap (fst st)) l) as [y|] eqn:El; [|discriminate]. destruct y; try discriminate.
      rewrite <- lookup_find in B. apply lookup_In in B. pose proof (wf_obj _ (proj1 I) _ _ El) as O. cbn in O. destruct O as [_ O]. rewrite Forall_forall in O. specialize (O _ B). cbn in O. tauto. }
    destruct (vok_meter _ i k (proj1 I) V M) as (s & a & b & c & t & stp & y & K & _). eapply nth_lt; eauto. }
  rewrite (alive_step mexp st (OUnregister x n) o k I L). intros [_ H]. apply H. cbn. eauto.
Qed.
Theorem C36_unregister_all : forall mexp p x v l n i k o, let st := reach mexp p in
  nth_error (snd st) x = Some v -> base v = Some l -> registered (fst st) l n = Some i -> meter_of (fst st) i = Some k ->
  ~ In k (alive (fst (fst (step mexp st (OUnregisterAll x, o))))).
Proof.
  intros mexp p x v l n i k o st. assert (I : inv st) by exact (reach_inv mexp p). clearbody st. intros E B R M.
  assert (L : k < List.length (heap (fst st))).
  { assert (V : vok (heap (fst st)) i).
    { unfold registered in R. destruct (nth_error (heap (fst st)) l) as [y|] eqn:El; [|discriminate]. destruct y; try discriminate.
      rewrite <- lookup_find in R. apply lookup_In in R. pose proof (wf_obj _ (proj1 I) _ _ El) as O. cbn in O. destruct O as [_ O]. rewrite Forall_forall in O. specialize (O _ R). cbn in O. tauto. }
    destruct (vok_meter _ i k (proj1 I) V M) as (s & a & b & c & t & stp & y & K & _). eapply nth_lt; eauto. }
  rewrite (alive_step mexp st (OUnregisterAll x) o k I L). intros [_ H]. apply H. cbn. exists v, l, n, i. auto.
Qed.
(** a meter that is not ticked (any more) stays so, and whatever is called afterwards,
    its rates and count, or the rates of the timer it belongs to, never change again *)
Theorem C36_frozen : forall mexp p x v k q o o', let st := reach mexp p in let st2 := run mexp st q in
  nth_error (snd st) x = Some v -> meter_of (fst st) v = Some k -> ~ In k (alive (fst st)) ->
  ~ In k (alive (fst st2)) /\
  (forall r, snd (step mexp st2 (OMRate x r, o')) = snd (step mexp st (OMRate x r, o))) /\
  (v = VMeter k -> snd (step mexp st2 (OCount x, o')) = snd (step mexp st (OCount x, o))).
Proof.
  intros mexp p x v k q o o' st st2. assert (I : inv st) by exact (reach_inv mexp p). subst st2. clearbody st. intros E M N.
  assert (V : vok (heap (fst st)) v) by (destruct I as [_ F]; rewrite Forall_forall in F; apply F; eapply nth_error_In; eauto).
  destruct (vok_meter _ v k (proj1 I) V M) as (s & a & b & c & t & stp & y & K & S & T & A). assert (stp = true) by (destruct stp; auto; exfalso; tauto). subst stp.
  destruct (frozen_run mexp q st k s a b c t y I T K S) as [K2 S2]. destruct (meter_of_run mexp q st v I V) as (M2 & V2 & I2). rewrite M in M2.
  assert (E2 : nth_error (snd (run mexp st q)) x = Some v) by (apply run_env; auto).
  split; [|split].
  - rewrite (wf_alive _ (proj1 I2) k). intros (? & ? & ? & ? & ? & H). congruence.
  - intros r. rewrite (mrate_of mexp st x v k s a b c t true y r o E M K S). rewrite (mrate_of mexp _ x v k s a b c t true y r o' E2 M2 K2 S2). reflexivity.
  - intros ->. rewrite (mcount_of mexp st x k s a b c t true y o E K S). rewrite (mcount_of mexp _ x k s a b c t true y o' E2 K2 S2). reflexivity.
Qed.
(** a ticked meter stays ticked through any program none of whose calls stops it *)
Theorem C36_stays : forall mexp q p k, let st := reach mexp p in In k (alive (fst st)) ->
  (forall q1 c o q2, q = q1 ++ (c, o) :: q2 -> ~ stops_meter (snd (run mexp st q1)) (fst (run mexp st q1)) c k) ->
  In k (alive (fst (run mexp st q))).
Proof.
  intros mexp q p k st. assert (I : inv st) by exact (reach_inv mexp p). clearbody st. revert st I. induction q as [|[c o] q IH]; intros st I A N; [auto|].
  assert (L : k < List.length (heap (fst st))) by (apply (wf_alive _ (proj1 I)) in A; destruct A as (? & ? & ? & ? & ? & A); eapply nth_lt; eauto).
  rewrite run_cons. apply IH.
  - apply step_inv; auto.
  - apply (alive_step mexp st c o k I L). split; auto. exact (N [] c o q eq_refl).
  - intros q1 c' o' q2 ->. exact (N ((c, o) :: q1) c' o' q2 eq_refl).
Qed.
(** a timer under "t", a meter under "m", and a meter whose name was taken: unregistering
    "t" stops the timer's meter only, UnregisterAll stops both, and the rejected meter
    (position 3) is still ticked *)
Definition meters3 : list (op * orc) :=
  [(ONewRegistered NTimer "t" None, orc0); (ONewRegistered NMeter "m" None, orc0); (ONewRegistered NMeter "m" None, orc0)].
Example C36_example : forall mexp, let st := reach mexp meters3 in
  nth_error (snd st) 1 = Some (VTimer 9) /\ registered (fst st) 0 "t" = Some (VTimer 9) /\ meter_of (fst st) (VTimer 9) = Some 8 /\
  registered (fst st) 0 "m" = Some (VMeter 14) /\ nth_error (snd st) 3 = Some (VMeter 19) /\
  alive (fst st) = [8; 14; 19] /\
  alive (fst (fst (step mexp st (OUnregister 0 "t", orc0)))) = [14; 19] /\
  alive (fst (fst (step mexp st (OUnregisterAll 0, orc0)))) = [19] /\
  alive (fst (fst (step mexp st (OStop 3, orc0)))) = [8; 14].
Proof. intros mexp. repeat split. Qed.
