(** Effects of the calls that run health checks. *)
From Coq Require Import ZArith List String Bool Lia Arith Permutation.
From Verif.Model Require Import GoInt GoFloat GoBase World.
From Verif.Spec Require Import RegistrySpec HealthSpec.
From Verif.Proofs Require Import WorldBase WorldOps WorldCalls WorldStep WorldFrame RegistryProofs RegistryStep.
Import ListNotations.
Local Open Scope nat_scope.
Local Open Scope list_scope.

Lemma bind_ok {A B} (m : M A) (f : A -> M B) o w w1 a : m o w = (w1, Ok a) -> bind m f o w = f a o w1.
Proof. unfold bind. now intros ->. Qed.
Lemma bind_panic {A B} (m : M A) (f : A -> M B) o w w1 msg : m o w = (w1, Panic msg) -> bind m f o w = (w1, Panic msg).
Proof. unfold bind. now intros ->. Qed.
Definition outcome (b : bool) : res unit := if b then Panic msg_user else Ok tt.
Lemma health_acts_ok o l f acts : forall w e, nth_error (heap w) l = Some (OHealth e f) ->
  exists w', health_acts (VHealth l) acts o w = (w', outcome (panics acts)) /\
    nth_error (heap w') l = Some (OHealth (verdict acts e) f) /\ (forall k, k <> l -> nth_error (heap w') k = nth_error (heap w) k).
Proof.
  induction acts as [|a acts IH]; intros w e E; cbn [health_acts].
  - exists w. split; [reflexivity|]. split; auto.
  - assert (S : forall x, exists w', health_set (VHealth l) x o w = (w', Ok tt) /\ nth_error (heap w') l = Some (OHealth x f) /\ (forall k, k <> l -> nth_error (heap w') k = nth_error (heap w) k)).
    { intros x. unfold health_set, bind, load, store. rewrite E. eexists. split; [reflexivity|]. cbn [heap set_heap]. split.
      - apply lset_nth_eq. eapply nth_lt; eauto.
      - intros k D. apply lset_nth_neq. auto. }
    destruct a as [|x|]; cbn [health_act].
    + destruct (S None) as (w1 & R & E1 & K). destruct (IH w1 None E1) as (w2 & R2 & E2 & K2). exists w2. unfold bind. rewrite R, R2. split; [reflexivity|]. split; auto. intros k D. rewrite K2; auto.
    + destruct (S x) as (w1 & R & E1 & K). destruct (IH w1 x E1) as (w2 & R2 & E2 & K2). exists w2. unfold bind. rewrite R, R2. split; [reflexivity|]. split; auto. intros k D. rewrite K2; auto.
    + exists w. split; [reflexivity|]. split; auto.
Qed.
Lemma health_check_ok o l f w e : nth_error (heap w) l = Some (OHealth e f) ->
  exists w', health_check (VHealth l) o w = (w', outcome (panics (o_health o f e))) /\
    nth_error (heap w') l = Some (OHealth (run_of o f e) f) /\ (forall k, k <> l -> nth_error (heap w') k = nth_error (heap w) k).
Proof.
  intros E. destruct (health_acts_ok o l f (o_health o f e) w e E) as (w' & R & K). exists w'. split; auto.
  unfold health_check. unfold bind, load, ask. rewrite E. exact R.
Qed.

(** check [l] after one metric has been looked at *)
Definition sees (l : nat) (o : orc) (f : nat) (n : nat) (e : option err) {A} (r : res A) (h' : list obj) : Prop :=
  exists k, k <= n /\ (forall a, r = Ok a -> k = n) /\ nth_error h' l = Some (OHealth (Nat.iter k (run_of o f) e) f).
Definition count (l : nat) (vs : list val) : nat := List.length (filter (is_check l) vs).

Lemma iter_S n (g : option err -> option err) e : Nat.iter n g (g e) = Nat.iter (S n) g e.
Proof. induction n; [reflexivity|]. change (g (Nat.iter n g (g e)) = g (Nat.iter (S n) g e)). now rewrite IHn. Qed.
Lemma check_one v l o f w e : vok (heap w) v -> cls v = CHealth -> nth_error (heap w) l = Some (OHealth e f) ->
  nth_error (heap (fst (health_check v o w))) l = Some (OHealth (Nat.iter (count l [v]) (run_of o f) e) f).
Proof.
  intros V C E. destruct v; cbn in C; try discriminate; [|exact E]. destruct V as (x & Ex & T). destruct x; cbn in T; try discriminate.
  destruct (health_check_ok o l0 f0 w e0 Ex) as (w' & -> & E' & K). cbn [fst]. unfold count. cbn [filter is_check].
  destruct (Nat.eqb_spec l0 l) as [->|D]; cbn [List.length Nat.iter nat_rect]; [|now rewrite K by auto]. rewrite E in Ex. inversion Ex; subst. exact E'.
Qed.
Lemma check_each_sees l o f vs : forall w e, wf w -> Forall (vok (heap w)) vs -> nth_error (heap w) l = Some (OHealth e f) ->
  sees l o f (count l vs) e (snd (check_each vs o w)) (heap (fst (check_each vs o w))).
Proof.
  induction vs as [|v vs IH]; intros w e W F E; cbn [check_each].
  - exists 0. repeat split; auto.
  - inversion F as [|? ? V F']; subst.
    assert (G : exists w1 r, (match cls v with CHealth => health_check v | _ => ret tt end) o w = (w1, r) /\ wf w1 /\ Forall (vok (heap w1)) vs /\
      nth_error (heap w1) l = Some (OHealth (Nat.iter (count l [v]) (run_of o f) e) f)).
    { destruct (class_eqb (cls v) CHealth) eqn:C.
      - assert (C' : cls v = CHealth) by (destruct (cls v); try discriminate C; reflexivity). rewrite C'.
        destruct (t_health_check (fun _ => False) v o w W (conj C' V)) as (W1 & L1 & _). destruct (health_check v o w) as [w1 r] eqn:R. exists w1, r. cbn [fst] in *. split; auto. split; auto. split.
        + eapply Forall_impl; [|exact F']. intros u. apply (legalh_vok _ _ _ _ L1).
        + pose proof (check_one v l o f w e V C' E) as K. rewrite R in K. exact K.
      - exists w, (Ok tt). assert (Z : count l [v] = 0) by (unfold count; destruct v; try reflexivity; discriminate C). rewrite Z. split; [destruct v; try reflexivity; discriminate C|auto]. }
    destruct G as (w1 & r & R & W1 & F1 & E1). unfold bind. rewrite R.
    assert (Cn : count l (v :: vs) = count l [v] + count l vs) by (unfold count; cbn [filter]; destruct (is_check l v); reflexivity).
    destruct r as [[]|msg]; cbn [fst snd].
    + destruct (IH w1 _ W1 F1 E1) as (k & K1 & K2 & K3). exists (count l [v] + k). rewrite Cn. split; [lia|]. split; [intros a Ha; rewrite (K2 a Ha); reflexivity|].
      rewrite K3. do 2 f_equal. clear. assert (B : count l [v] <= 1) by (unfold count; cbn; destruct (is_check l v); cbn; lia).
      destruct (count l [v]) as [|[|j]]; [reflexivity| |lia]. cbn [Nat.add]. apply iter_S.
    + exists (count l [v]). rewrite Cn. split; [lia|]. split; [discriminate|exact E1].
Qed.

(** the metrics that are no health checks do not write to health checks *)
Definition not_health (t : tag) : bool := negb (tag_eqb t THealth).
Lemma get_all_frame v : cls v <> CHealth -> pres not_health false (get_all_one v).
Proof.
  intros C. unfold get_all_one. destruct (cls v); try (exfalso; apply C; reflexivity); try apply pres_ret.
  - apply pres_bind; [apply pres_counter_count; reflexivity|intros; apply pres_ret].
  - apply pres_bind; [apply pres_gauge_value; reflexivity|intros; apply pres_ret].
  - apply pres_bind; [apply pres_gaugef_value; reflexivity|intros; apply pres_ret].
  - apply pres_bind; [apply pres_hist_snapshot|intros h]. apply pres_bind; [apply pres_hist_percentiles; reflexivity|intros ps].
    apply pres_bind; [apply pres_hist_count|intros n]. repeat (apply pres_bind; [apply pres_hist_stat|intros ?]). apply pres_ret.
  - apply pres_bind; [apply pres_meter_snapshot|intros m]. apply pres_bind; [apply pres_meter_count|intros n]. repeat (apply pres_bind; [apply pres_meter_rate|intros ?]). apply pres_ret.
  - apply pres_bind; [apply pres_timer_snapshot|intros h]. apply pres_bind; [apply pres_timer_percentiles; reflexivity|intros ps].
    apply pres_bind; [apply pres_timer_count|intros n]. do 4 (apply pres_bind; [apply pres_timer_stat|intros ?]). repeat (apply pres_bind; [apply pres_timer_rate|intros ?]). apply pres_ret.
Qed.
Lemma get_all_one_sees v l o f w e : wf w -> vok (heap w) v -> nth_error (heap w) l = Some (OHealth e f) ->
  nth_error (heap (fst (get_all_one v o w))) l = Some (OHealth (Nat.iter (count l [v]) (run_of o f) e) f).
Proof.
  intros W V E. destruct (class_eqb (cls v) CHealth) eqn:C.
  - assert (C' : cls v = CHealth) by (destruct (cls v); try discriminate C; reflexivity). unfold get_all_one. rewrite C'.
    pose proof (check_one v l o f w e V C' E) as K. unfold bind. destruct (health_check v o w) as [w1 [[]|msg]]; cbn [fst] in *; auto.
    assert (H : fst (health_error v o w1) = w1). { destruct v; try reflexivity. unfold health_error, bind, load. destruct (nth_error (heap w1) l0) as [x|]; [destruct x|]; reflexivity. }
    destruct (health_error v o w1) as [w2 [x|msg]]; cbn [fst ret] in *; subst; auto.
  - assert (Z : count l [v] = 0) by (unfold count; destruct v; try reflexivity; discriminate C). rewrite Z. cbn [Nat.iter nat_rect].
    assert (D : cls v <> CHealth) by (intros H; rewrite H in C; discriminate).
    destruct (t_get_all_one (fun _ => False) (fun x => x) 0 v o w W V) as (_ & L & _). destruct L as (_ & L & _). destruct (L _ _ E) as (y & Ey & X). rewrite Ey.
    destruct y; cbn in X; try discriminate X. subst f0.
    destruct (get_all_frame v D o w) as (_ & Fr & _). specialize (Fr l (OHealth e0 f)). rewrite <- E. symmetry. apply Fr; auto. eapply nth_lt; eauto.
Qed.
Lemma get_all_each_sees l o f es : forall w e, wf w -> Forall (vok (heap w)) (map snd es) -> nth_error (heap w) l = Some (OHealth e f) ->
  sees l o f (count l (map snd es)) e (snd (get_all_each es o w)) (heap (fst (get_all_each es o w))).
Proof.
  induction es as [|[n v] es IH]; intros w e W F E; cbn [get_all_each map snd].
  - exists 0. repeat split; auto.
  - inversion F as [|? ? V F']; subst. cbn [snd] in V. pose proof (get_all_one_sees v l o f w e W V E) as E1.
    destruct (t_get_all_one (fun _ => False) (fun x => x) 0 v o w W V) as (W1 & L1 & _).
    assert (Cn : count l (v :: map snd es) = count l [v] + count l (map snd es)) by (unfold count; cbn [filter]; destruct (is_check l v); reflexivity).
    destruct (get_all_one v o w) as [w1 [r|msg]] eqn:R; cbn [fst snd] in *; [rewrite (bind_ok _ _ _ _ _ _ R)|rewrite (bind_panic _ _ _ _ _ _ R)].
    + assert (F1 : Forall (vok (heap w1)) (map snd es)) by (eapply Forall_impl; [|exact F']; intros u; apply (legalh_vok _ _ _ _ L1)).
      destruct (IH w1 _ W1 F1 E1) as (k & K1 & K2 & K3). exists (count l [v] + k). rewrite Cn. split; [lia|]. split.
      * intros a Ha. unfold bind in Ha. destruct (get_all_each es o w1) as [w2 [rs|msg]]; cbn [snd] in *; [|discriminate]. rewrite (K2 rs eq_refl). reflexivity.
      * match goal with |- nth_error ?h l = _ => replace h with (heap (fst (get_all_each es o w1))) end; [|unfold bind; destruct (get_all_each es o w1) as [w2 [rs|msg]]; reflexivity].
        rewrite K3. do 2 f_equal. clear. assert (B : count l [v] <= 1) by (unfold count; cbn; destruct (is_check l v); cbn; lia).
        destruct (count l [v]) as [|[|j]]; [reflexivity| |lia]. cbn [Nat.add]. apply iter_S.
    + exists (count l [v]). rewrite Cn. split; [lia|]. split; [discriminate|exact E1].
Qed.

(** the names of a check in a registry *)
Lemma count_names (es : list (string * val)) l order : NoDup (map fst es) ->
  exists ns, NoDup ns /\ count l (map snd (in_order order es)) = List.length ns /\ forall nm, In nm ns <-> lookup nm es = Some (VHealth l).
Proof.
  intros ND. exists (map fst (filter (fun kv => is_check l (snd kv)) es)). split; [apply nodup_fst_filter; auto|]. split.
  - unfold count. rewrite map_length. transitivity (List.length (filter (is_check l) (map snd es))).
    + apply Permutation_length. assert (P : Permutation (map snd (in_order order es)) (map snd es)) by apply Permutation_map, in_order_perm.
      clear -P. induction P; cbn; auto; try (destruct (is_check l x); auto); try (destruct (is_check l y); auto); try constructor; auto. eapply perm_trans; eauto.
    + induction es as [|[n v] es IH]; cbn [map filter snd]; auto. inversion ND; subst. destruct (is_check l v); cbn; auto.
  - intros nm. rewrite in_map_iff. split.
    + intros ([n v] & <- & H). apply filter_In in H. destruct H as [H C]. cbn in *. destruct v; try discriminate C. cbn in C. apply Nat.eqb_eq in C. subst. apply in_lookup; auto.
    + intros H. exists (nm, VHealth l). split; auto. apply filter_In. split; [apply lookup_in; auto|]. cbn. apply Nat.eqb_refl.
Qed.
Lemma base_ok w v b : vok (heap w) v -> base v = Some b -> tagat (heap w) b TReg.
Proof. induction v; cbn; intros V B; try discriminate; [inversion B; subst; exact V|]. destruct V as [_ V]. auto. Qed.
Lemma base_reg w v : cls v = CReg -> vok (heap w) v -> exists b, base v = Some b.
Proof. induction v; cbn; intros C V; try discriminate; eauto. destruct V as [C' V]. eauto. Qed.
Lemma reg_run_base v b : base v = Some b -> reg_run_healthchecks v = std_run_healthchecks b.
Proof. induction v; cbn; intros B; try discriminate; [inversion B; reflexivity|auto]. Qed.
Lemma reg_get_all_base v b : base v = Some b -> reg_get_all v = std_get_all b.
Proof. induction v; cbn; intros B; try discriminate; [inversion B; reflexivity|auto]. Qed.
(** checks none of whose functions panics *)
Lemma check_each_ok o vs : forall w, wf w -> Forall (vok (heap w)) vs ->
  (forall l e f, In (VHealth l) vs -> nth_error (heap w) l = Some (OHealth e f) -> forall e', panics (o_health o f e') = false) ->
  snd (check_each vs o w) = Ok tt.
Proof.
  induction vs as [|v vs IH]; intros w W F H; cbn [check_each]; [reflexivity|]. inversion F as [|? ? V F']; subst.
  destruct (class_eqb (cls v) CHealth) eqn:C.
  - assert (C' : cls v = CHealth) by (destruct (cls v); try discriminate C; reflexivity). rewrite C'.
    destruct (t_health_check (fun _ => False) v o w W (conj C' V)) as (W1 & L1 & _).
    assert (F1 : Forall (vok (heap (fst (health_check v o w)))) vs) by (eapply Forall_impl; [|exact F']; intros u; apply (legalh_vok _ _ _ _ L1)).
    destruct v; cbn in C'; try discriminate; [|unfold bind, ret; cbn [health_check ret]; apply IH; auto; intros; eapply H; eauto; now right].
    destruct V as (z & Ez & T). destruct z; cbn in T; try discriminate. destruct (health_check_ok o l f w e Ez) as (w1 & R & E1 & K). rewrite R in *. cbn [fst] in *.
    rewrite (H l e f (or_introl eq_refl) Ez e) in R. rewrite (bind_ok _ _ _ _ _ _ R). apply IH; auto. intros l' e' f' Hl E'. destruct (Nat.eq_dec l' l) as [->|D].
    + rewrite E1 in E'. inversion E'; subst. eapply H; [right; eauto|eauto].
    + rewrite K in E' by auto. eapply H; [right; eauto|eauto].
  - replace (match cls v with CHealth => health_check v | _ => ret tt end) with (@ret unit tt) by (destruct v; try reflexivity; discriminate C). unfold bind, ret. apply IH; auto. intros; eapply H; eauto; now right.
Qed.
