(** Which calls change the set of ticked meters. *)
From Coq Require Import ZArith List String Bool Lia Arith Permutation.
From Verif.Model Require Import GoInt GoFloat GoBase Meter World.
From Verif.Spec Require Import RegistrySpec.
From Verif.Proofs Require Import WorldBase WorldStep WorldFrame RegistryProofs RegistryStep RegistryNew MeterRun.
Import ListNotations.
Local Open Scope nat_scope.
Local Open Scope list_scope.

(** the ticked meters among the old objects stay the same *)
Definition gr (w w' : world) : Prop :=
  List.length (heap w) <= List.length (heap w') /\ forall k, k < List.length (heap w) -> (In k (alive w') <-> In k (alive w)).
Definition grows {A} (m : M A) : Prop := forall o w, gr w (fst (m o w)).
Lemma gr_refl w : gr w w. Proof. split; auto. tauto. Qed.
Lemma gr_trans a b c : gr a b -> gr b c -> gr a c.
Proof. intros [L H] [L' H']. split; [lia|]. intros k Hk. rewrite H' by lia. apply H; auto. Qed.
Lemma grows_bind {A B} (m : M A) (f : A -> M B) : grows m -> (forall a, grows (f a)) -> grows (bind m f).
Proof.
  intros H K o w. unfold bind. specialize (H o w). destruct (m o w) as [w' [a|msg]]; cbn [fst] in *; auto. eapply gr_trans; [exact H|apply K].
Qed.
Lemma grows_pres {A} T (m : M A) : pres T false m -> grows m.
Proof. intros H o w. destruct (H o w) as (L & _ & G & _). destruct (G eq_refl) as [E _]. split; auto. rewrite E. tauto. Qed.
Definition all_tag (t : tag) : bool := true.
Section Exp.
Variable mexp : f64 -> f64.
Lemma grows_construct ct : grows (construct mexp ct).
Proof.
  destruct (makes_meter ct) eqn:M; [|apply (grows_pres all_tag), pres_construct; congruence].
  destruct ct; try discriminate M; intros o w; cbn [construct]; destruct (usenil w) eqn:U.
  - unfold new_meter, unless_nil, bind, gets. rewrite U. apply gr_refl.
  - destruct (new_meter_eq mexp o w U) as (h & -> & L). cbn [fst]. split; cbn [heap alive]; [rewrite app_length; lia|]. intros k Hk. rewrite in_app_iff. cbn. intuition lia.
  - unfold new_timer, unless_nil, bind, gets. rewrite U. apply gr_refl.
  - destruct (new_timer_eq mexp o w U) as (h & -> & L). cbn [fst]. split; cbn [heap alive]; [rewrite !app_length; lia|]. intros k Hk. rewrite in_app_iff. cbn. intuition lia.
Qed.
Lemma grows_ret {A} (a : A) : grows (ret a). Proof. intros o w. apply gr_refl. Qed.
Lemma grows_reg_register v n i : grows (reg_register v n i).
Proof. apply (grows_pres all_tag), pres_reg_register. reflexivity. Qed.
Lemma grows_gor v n mk : grows mk -> grows (reg_get_or_register v n mk).
Proof.
  intros H. revert n. induction v; intros nm; cbn [reg_get_or_register]; try (apply (grows_pres all_tag), pres_throw); auto.
  unfold std_get_or_register. apply grows_bind; [apply (grows_pres all_tag); unfold entries_get; apply pres_bind; [apply pres_load|]; intros []; first [apply pres_ret|apply pres_throw]|].
  intros es. destruct (lookup nm es); [apply grows_ret|]. apply grows_bind; auto. intros i. apply grows_bind; [apply (grows_pres all_tag), pres_std_register; reflexivity|]. intros _. apply grows_ret.
Qed.
Lemma grows_call e c m : call mexp e c = Some m -> (forall b, c <> OSetNil b) -> match c with OStop _ | OUnregister _ _ | OUnregisterAll _ => False | _ => True end -> grows m.
Proof.
  intros H N Hc. destruct (moves c) eqn:Mv.
  2: { apply (grows_pres (tin (touch c))). rewrite <- Mv. eapply pres_call; eauto. }
  destruct c; cbn in Mv; try discriminate; try tauto; cbn [World.call] in H; unfold obind in H.
  - destruct (ctor_of e k) as [ct|]; [|discriminate]. inversion H; subst. unfold v_rv. apply grows_bind; [apply grows_construct|intros; apply grows_ret].
  - destruct (nth_error e r) as [v|]; [|discriminate]. destruct (ctor_of e k) as [ct|]; [|discriminate]. unfold only in H. destruct (class_eqb (cls v) CReg); inversion H; subst.
    unfold v_rv. apply grows_bind; [apply grows_gor, grows_construct|intros; apply grows_ret].
  - destruct (has_new_registered k); [|discriminate]. destruct (ctor_of e k) as [ct|]; [|discriminate]. destruct (reg_arg e r) as [v|]; inversion H; subst.
    unfold v_rv, new_registered. apply grows_bind; [|intros; apply grows_ret]. apply grows_bind; [apply grows_construct|]. intros i. apply grows_bind; [apply grows_reg_register|intros; apply grows_ret].
  - destruct (ctor_of e (regk_new k)) as [ct|]; [|discriminate]. destruct (reg_arg e r) as [v|]; inversion H; subst.
    unfold v_rv, get_or_register_x. apply grows_bind; [|intros; apply grows_ret]. apply grows_bind.
    + destruct k; try (apply grows_gor, grows_construct). apply grows_bind; [apply grows_construct|]. intros g. apply grows_gor, grows_ret.
    + intros v0. unfold assert_class. destruct (class_eqb _ _); [apply grows_ret|apply (grows_pres all_tag), pres_throw].
Qed.
Lemma stops_alive ks w w' k : stops ks w w' -> (In k (alive w') <-> In k (alive w) /\ ~ In k ks).
Proof.
  intros (A & _). rewrite A, filter_In. split; intros [H1 H2]; split; auto.
  - intros Hk. assert (memn k ks = true) by (unfold memn; apply existsb_exists; exists k; split; auto; apply Nat.eqb_refl). rewrite H in H2. discriminate.
  - destruct (memn k ks) eqn:M; auto. unfold memn in M. apply existsb_exists in M. destruct M as (y & Hy & E). apply Nat.eqb_eq in E. subst. contradiction.
Qed.
(** the exact effect of every call on the ticked meters among the existing ones *)
Lemma alive_step (st : state) c o k : inv st -> k < List.length (heap (fst st)) ->
  (In k (alive (fst (fst (step mexp st (c, o))))) <-> In k (alive (fst st)) /\ ~ stops_meter (snd st) (fst st) c k).
Proof.
  intros I Hk.
  assert (G : match c with OStop _ | OUnregister _ _ | OUnregisterAll _ => False | _ => True end -> (In k (alive (fst (fst (step mexp st (c, o))))) <-> In k (alive (fst st)) /\ ~ stops_meter (snd st) (fst st) c k)).
  { intros Hc. assert (S : ~ stops_meter (snd st) (fst st) c k) by (destruct c; cbn; tauto).
    assert (D : (exists b, c = OSetNil b) \/ forall b, c <> OSetNil b) by (destruct c; eauto; right; discriminate).
    destruct D as [(b & ->)|D]; [cbn; tauto|].
    unfold World.step. cbn [fst snd]. destruct (World.call mexp (snd st) c) as [m|] eqn:C; [|cbn [fst]; tauto].
    destruct (grows_call _ _ _ C D Hc o (fst st)) as [_ E]. specialize (E k Hk). destruct (m o (fst st)) as [w' [r|msg]]; cbn [fst] in *; tauto. }
  destruct c; try (apply G; exact Logic.I); clear G; unfold World.step; cbn [fst snd World.call]; unfold obind, only.
  - destruct (nth_error (snd st) x) as [v|] eqn:E; [|cbn [fst]; split; [intros H; split; auto; intros (v & Ev & _); congruence|tauto]].
    assert (V : vok (heap (fst st)) v) by (destruct I as [_ F]; rewrite Forall_forall in F; apply F; eapply nth_error_In; eauto).
    assert (Z : forall ks, (In k ks <-> meter_of (fst st) v = Some k) -> (~ In k ks <-> ~ stops_meter (snd st) (fst st) (OStop x) k)).
    { intros ks Hks. cbn [stops_meter]. rewrite Hks. split; intros A B; apply A; [destruct B as (v' & Ev & Mv); congruence|eauto]. }
    destruct (stop_value_ok o (fst st) v (proj1 I) V) as (w' & S & St & _).
    assert (Zs : In k (alive w') <-> In k (alive (fst st)) /\ ~ stops_meter (snd st) (fst st) (OStop x) k).
    { rewrite (stops_alive _ _ _ k St), <- (Z (olist (meter_of (fst st) v))); [tauto|]. destruct (meter_of (fst st) v); cbn; intuition congruence. }
    destruct (cls v) eqn:C; try (unfold stop_value in S; rewrite C in S; inversion S; subst w'; cbn [fst]; exact Zs);
      unfold stop_value in S; rewrite C in S; unfold unit_rv, bind; rewrite S; cbn [fst ret]; exact Zs.
  - destruct (nth_error (snd st) r) as [v|] eqn:E; [|cbn [fst]; split; [intros H; split; auto; intros (v & i & Ev & _); congruence|tauto]].
    destruct (class_eqb (cls v) CReg) eqn:C; [|cbn [fst]; split; [intros H; split; auto; intros (v' & i & Ev & B & _)|tauto]].
    2: { assert (v' = v) by congruence. subst. unfold bound in B. destruct (base v) eqn:Bv; [|discriminate]. rewrite (base_cls _ _ Bv) in C. discriminate. }
    apply class_eqb_eq in C. destruct (env_reg st r v I E C) as (l & es & B & Es). unfold unit_rv, bind. rewrite (reg_unregister_std l v B).
    destruct (std_unregister_ok o (fst st) l es (full v name) (proj1 I) Es) as (w' & -> & St & _). cbn [fst ret]. rewrite (stops_alive _ _ _ k St). cbn [stops_meter].
    enough (F : In k (match lookup (full v name) es with Some v0 => olist (meter_of (fst st) v0) | None => [] end) <->
       exists v0 i, nth_error (snd st) r = Some v0 /\ bound (registered (fst st)) v0 name = Some i /\ meter_of (fst st) i = Some k) by (rewrite F; tauto).
    assert (Bn : bound (registered (fst st)) v name = lookup (full v name) es) by (unfold bound; rewrite B; apply registered_at; auto).
    split.
    + intros H. destruct (lookup (full v name) es) as [i|]; [|destruct H]. exists v, i. split; auto. split; auto. destruct (meter_of (fst st) i); cbn in H; intuition congruence.
    + intros (v0 & i & Ev & Bi & Mi). assert (v0 = v) by congruence. subst. rewrite Bn in Bi. rewrite Bi, Mi. left. auto.
  - destruct (nth_error (snd st) r) as [v|] eqn:E; [|cbn [fst]; split; [intros H; split; auto; intros (v & l & n & i & Ev & _); congruence|tauto]].
    destruct (class_eqb (cls v) CReg) eqn:C; [|cbn [fst]; split; [intros H; split; auto; intros (v' & l & n & i & Ev & B & _)|tauto]].
    2: { assert (v' = v) by congruence. subst. rewrite (base_cls _ _ B) in C. discriminate. }
    apply class_eqb_eq in C. destruct (env_reg st r v I E C) as (l & es & B & Es). unfold unit_rv, bind. rewrite (reg_unregister_all_std l v B).
    destruct (std_unregister_all_ok o (fst st) l es (proj1 I) Es) as (w' & ks & -> & St & Ks & _). cbn [fst ret]. rewrite (stops_alive _ _ _ k St), (Ks k). cbn [stops_meter].
    split; intros [H1 H2]; split; auto; intros H; apply H2.
    + destruct H as (v' & l' & n & i & Ev & Bv & Ri & Mi). assert (v' = v) by congruence. subst. assert (l' = l) by congruence. subst. exists n, i. rewrite (registered_at _ _ _ n Es) in Ri. auto.
    + destruct H as (n & i & Li & Mi). exists v, l, n, i. rewrite (registered_at _ _ _ n Es). auto.
Qed.
End Exp.
