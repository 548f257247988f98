(** Where the values that calls return come from: the program held them before, a registry had
    them, they are new, or they are of a kind that gives no access to averages, meters, timers, counters, gauges and health checks. *)
From Coq Require Import ZArith List String Bool Lia Arith Permutation.
From Verif.Model Require Import GoInt GoFloat GoBase Stats Uniform ExpDecay Conc Ewma World.
From Verif.Spec Require Import RegistrySpec.
From Verif.Proofs Require Import WorldBase WorldCalls WorldStep WorldFrame RegistryProofs RegistryStep RegistryNew TimerPrivate.
From Verif.Props Require Import RegistryProps.
Import ListNotations.
Local Open Scope nat_scope.
Local Open Scope list_scope.

(** values through which nothing happens to averages, meters and timers, counters, gauges and checks *)
Definition dead (v : val) : Prop :=
  match v with VEwma _ | VMeter _ | VTimer _ | VCounter _ | VGauge _ | VGaugeF _ | VHealth _ => False | _ => True end.
Section Origin.
Variable mexp : f64 -> f64.
(** the heap [h'] is that of [w1], with a registry possibly changed *)
Definition but_reg (w1 : world) (h' : list obj) : Prop := h' = heap w1 \/ exists l y es, nth_error (heap w1) l = Some (OReg y) /\ h' = lset (heap w1) l (OReg es).
Definition made_now (st : state) (o : orc) (w' : world) (v : val) : Prop :=
  exists nk ct w1, ctor_of (snd st) nk = Some ct /\ construct mexp ct o (fst st) = (w1, Ok v) /\ alive w' = alive w1 /\ but_reg w1 (heap w').
Definition origin (st : state) (o : orc) (w' : world) (v : val) : Prop :=
  In v (snd st) \/ (exists l n, registered (fst st) l n = Some v) \/ dead v \/ made_now st o w' v.

Ltac gvs := repeat first
  [ apply gv_ret; solve [auto | cbn; auto]
  | apply gv_throw
  | apply gv_bind; intros ?
  | match goal with |- gv _ (match ?x with _ => _ end) => destruct x end ].
Lemma gv_snap_dead v m : m_snapshot v = Some m -> gv (fun r => forall i, r = RVal i -> dead i) m.
Proof.
  assert (K : forall n : M val, gv dead n -> gv (fun r => forall i, r = RVal i -> dead i) (v_rv n)).
  { intros n H o w w' r. unfold v_rv, bind. destruct (n o w) as [w1 [a|]] eqn:E; [|discriminate]. intros R i ->. inversion R; subst. eapply H; eauto. }
  unfold m_snapshot. intros H. destruct v; cbn [cls] in H; inversion H; subst; clear H; apply K;
    cbn [counter_snapshot gauge_snapshot gaugef_snapshot sample_snapshot hist_snapshot ewma_snapshot meter_snapshot timer_snapshot]; gvs.
Qed.

Lemma yields_origin st c o r : inv st -> snd (step mexp st (c, o)) = Some (Ok r) ->
  Forall (origin st o (fst (fst (step mexp st (c, o))))) (yields r).
Proof.
  intros I H.
  set (st' := fst (step mexp st (c, o))) in *.
  assert (GE : forall v, In v (snd st) -> origin st o (fst st') v) by (intros; left; auto).
  assert (GR : forall l n v, registered (fst st) l n = Some v -> origin st o (fst st') v) by (intros; right; left; eauto).
  assert (GD : forall w v, dead v -> origin st o w v) by (intros; right; right; left; auto).
  assert (ST : forall m w r', World.call mexp (snd st) c = Some m -> m o (fst st) = (w, Ok r') -> r' = r /\ fst st' = w).
  { intros m w r' Hm Hw. subst st'. revert H. unfold World.step. cbn [fst snd]. rewrite Hm, Hw. cbn [fst snd]. intros X. inversion X; auto. }
  assert (SOME : exists m, World.call mexp (snd st) c = Some m /\ m o (fst st) = (fst st', Ok r)).
  { subst st'. revert H. unfold World.step. cbn [fst snd]. destruct (World.call mexp (snd st) c) as [m|]; [|discriminate]. destruct (m o (fst st)) as [w [r'|]] eqn:E; cbn [fst snd]; [|discriminate].
    intros X. inversion X; subst. eauto. }
  destruct SOME as (m & Hm & Hw). clear ST.
  assert (NV : (forall i, r = RVal i -> origin st o (fst st') i) -> (forall kvs, r = RPairs kvs -> Forall (origin st o (fst st')) (map snd kvs)) -> Forall (origin st o (fst st')) (yields r)).
  { intros A1 A2. destruct r; cbn; auto. }
  assert (VRV : forall n : M val, m = v_rv n -> (forall w i, n o (fst st) = (w, Ok i) -> fst st' = w -> origin st o w i) -> Forall (origin st o (fst st')) (yields r)).
  { intros n -> K. unfold v_rv, bind in Hw. destruct (n o (fst st)) as [w [i|]] eqn:E; [|discriminate]. unfold ret in Hw. injection Hw as Ew Er. rewrite <- Er. cbn [yields]. constructor; auto. rewrite <- Ew. apply (K w i); auto. }
  assert (UNIT : forall n, m = unit_rv n -> Forall (origin st o (fst st')) (yields r)).
  { intros n ->. unfold unit_rv, bind in Hw. destruct (n o (fst st)) as [w [i|]]; [|discriminate]. inversion Hw; subst. constructor. }
  assert (ZRV : forall n, m = z_rv n -> Forall (origin st o (fst st')) (yields r)).
  { intros n ->. unfold z_rv, bind in Hw. destruct (n o (fst st)) as [w [i|]]; [|discriminate]. inversion Hw; subst. constructor. }
  assert (FRV : forall n, m = f_rv n -> Forall (origin st o (fst st')) (yields r)).
  { intros n ->. unfold f_rv, bind in Hw. destruct (n o (fst st)) as [w [i|]]; [|discriminate]. inversion Hw; subst. constructor. }
  assert (BRV : forall A (n : M A) f, m = bind n (fun a => ret (f a)) -> (forall a, yields (f a) = []) -> Forall (origin st o (fst st')) (yields r)).
  { intros A n f -> K. unfold bind in Hw. destruct (n o (fst st)) as [w [i|]]; [|discriminate]. inversion Hw; subst. rewrite K. constructor. }
  destruct c; cbn [World.call] in Hm; unfold obind, only in Hm;
    repeat match type of Hm with
    | context [match nth_error (snd st) ?x with _ => _ end] => let E := fresh "E" in destruct (nth_error (snd st) x) as [?v|] eqn:E; [|discriminate]
    | context [if class_eqb (cls ?v) ?c then _ else _] => let C := fresh "C" in destruct (class_eqb (cls v) c) eqn:C; [apply class_eqb_eq in C|discriminate]
    end.
  - inversion Hm; subst. inversion Hw; subst. constructor.
  - destruct (ctor_of (snd st) k) as [ct|] eqn:Ek; inversion Hm; subst. eapply VRV; [reflexivity|]. intros w i E Ew. right; right; right. exists k, ct, w. repeat split; auto. now left.
  - destruct (arg (snd st) CSlice slice) as [[]|]; try discriminate. inversion Hm; subst. eapply VRV; [reflexivity|]. intros w i X Ew. inversion X; subst. now apply GD.
  - inversion Hm; subst. eapply VRV; [reflexivity|]. intros w i X Ew. inversion X; subst. now apply GD.
  - inversion Hm; subst. eapply VRV; [reflexivity|]. intros w i X Ew. inversion X; subst. now apply GD.
  - destruct (arg (snd st) CReg r0) as [u|]; inversion Hm; subst. eapply VRV; [reflexivity|]. intros w i X Ew. inversion X; subst. now apply GD.
  - inversion Hm; subst. eapply VRV; [reflexivity|]. intros w i X Ew. inversion X; subst. now apply GD.
  - destruct (arg (snd st) CSlice x) as [u|]; inversion Hm; subst. eapply UNIT; reflexivity.
  - destruct (arg (snd st) CSlice x) as [u|]; inversion Hm; subst. unfold slice_read in Hw. destruct u; try discriminate. unfold bind in Hw. destruct (arr_get l o (fst st)) as [w [a|]]; inversion Hw; subst. constructor.
  - inversion Hm; subst. inversion Hw; subst. constructor; [now apply GD|constructor].
  - inversion Hm; subst. eapply UNIT; reflexivity.
  - inversion Hm; subst. eapply UNIT; reflexivity.
  - inversion Hm; subst. eapply UNIT; reflexivity.
  - unfold m_clear in Hm. destruct (cls v); inversion Hm; subst; eapply UNIT; reflexivity.
  - unfold m_count in Hm. destruct (cls v); inversion Hm; subst; eapply ZRV; reflexivity.
  - unfold m_value in Hm. destruct (cls v); inversion Hm; subst; first [eapply ZRV; reflexivity|eapply FRV; reflexivity].
  - unfold m_update in Hm. destruct (cls v); inversion Hm; subst; eapply UNIT; reflexivity.
  - inversion Hm; subst. eapply UNIT; reflexivity.
  - (* snapshots *) pose proof (gv_snap_dead v m Hm o (fst st) _ r Hw) as K. apply NV; [intros i Hi; apply GD; apply K; auto|].
    intros kvs ->. exfalso. unfold m_snapshot in Hm.
    assert (K2 : exists n, m = v_rv n) by (destruct (cls v); inversion Hm; eauto). destruct K2 as (n & ->). unfold v_rv, bind in Hw. destruct (n o (fst st)) as [w [i|]]; inversion Hw.
  - assert (K : gv (fun r => yields r = []) m).
    { unfold m_stat in Hm. assert (KS : forall u, gv (fun r => yields r = []) (sample_stat s u)).
      { intros u. assert (S : forall xs, yields (stat_of s xs) = []) by (intros; destruct s; reflexivity). unfold sample_stat. destruct u; try (apply gv_bind; intros; apply gv_ret; apply S). apply gv_ret. destruct s; reflexivity. }
      assert (KH : forall u, gv (fun r => yields r = []) (hist_stat s u)) by (intros u; unfold hist_stat; apply gv_bind; intros; apply KS).
      destruct (cls v); inversion Hm; subst; auto. unfold timer_stat. apply gv_bind. intros []. apply KH. }
    rewrite (K _ _ _ _ Hw). constructor.
  - destruct (m_percentiles [p] v); inversion Hm; subst. eapply FRV; reflexivity.
  - destruct (m_percentiles ps v); inversion Hm; subst. eapply BRV; reflexivity.
  - inversion Hm; subst. eapply ZRV; reflexivity.
  - inversion Hm; subst. eapply VRV; [reflexivity|]. intros w i X _. apply GD.
    assert (K : gv dead (sample_values v)) by (unfold sample_values; destruct v; gvs). exact (K _ _ _ _ X).
  - inversion Hm; subst. eapply VRV; [reflexivity|]. intros w i X <-. apply GD. pose proof (proj2 I) as V. rewrite Forall_forall in V.
    specialize (V v (nth_error_In _ _ E)). destruct v; cbn in C; try discriminate; cbn [hist_sample] in X.
    + unfold bind, load in X. destruct (nth_error (heap (fst st)) l) as [y|] eqn:El; [|discriminate]. destruct y; try discriminate. inversion X; subst.
      pose proof (wf_obj _ (proj1 I) _ _ El) as O. cbn in O. destruct i; cbn in O; destruct O; try discriminate; exact Logic.I.
    + unfold bind, load in X. destruct (nth_error (heap (fst st)) l) as [y|] eqn:El; [|discriminate]. destruct y; try discriminate. inversion X; subst. exact Logic.I.
    + inversion X; subst. exact Logic.I.
  - inversion Hm; subst. eapply UNIT; reflexivity.
  - inversion Hm; subst. eapply FRV; reflexivity.
  - inversion Hm; subst. eapply UNIT; reflexivity.
  - destruct (cls v); inversion Hm; subst; eapply FRV; reflexivity.
  - destruct (cls v); inversion Hm; subst; eapply UNIT; reflexivity.
  - inversion Hm; subst. unfold timer_begin in Hw. destruct v; try discriminate; inversion Hw; subst; constructor.
  - inversion Hm; subst. eapply UNIT; reflexivity.
  - inversion Hm; subst. eapply UNIT; reflexivity.
  - inversion Hm; subst. eapply UNIT; reflexivity.
  - inversion Hm; subst. eapply BRV; reflexivity.
  - inversion Hm; subst. eapply UNIT; reflexivity.
  - inversion Hm; subst. eapply UNIT; reflexivity.
  - (* Get *) inversion Hm; subst. eapply VRV; [reflexivity|]. intros w i X <-. destruct (env_reg st r0 v I E C) as (l & es & Bs & Es). rewrite (reg_get_std l v Bs), (std_get_ok l es (fst st) o Es) in X. injection X as _ <-.
    destruct (lookup (full v name) es) as [i|] eqn:Lk; [|now apply GD]. apply (GR l (full v name)). rewrite (registered_at _ _ es); auto.
  - (* GetOrRegister *) inversion Hm; subst. eapply VRV; [reflexivity|]. intros w i X <-. destruct (env_reg st r0 v I E C) as (l & es & Bs & Es). rewrite (reg_gor_std l v Bs), (std_gor_ok o (fst st) l es _ _ Es (pres_ret _ _ _)) in X.
    destruct (lookup (full v name) es) as [i'|] eqn:Lk; [injection X as _ <-; apply (GR l (full v name)); rewrite (registered_at _ _ es); auto|]. unfold ret in X. injection X as _ <-. apply GE. eapply nth_error_In; eauto.
  - (* GetOrRegister of a function *) destruct (ctor_of (snd st) k) as [ct|] eqn:Ek; [|discriminate]. destruct (class_eqb (cls v) CReg) eqn:C; [apply class_eqb_eq in C|discriminate].
    inversion Hm; subst. eapply VRV; [reflexivity|]. intros w i X <-. destruct (env_reg st r0 v I E C) as (l & es & Bs & Es). rewrite (reg_gor_std l v Bs), (std_gor_ok o (fst st) l es _ _ Es (pres_mk mexp ct)) in X.
    destruct (lookup (full v name) es) as [i'|] eqn:Lk; [injection X as _ <-; apply (GR l (full v name)); rewrite (registered_at _ _ es); auto|].
    pose proof (pres_mk mexp ct o (fst st)) as F. destruct (construct mexp ct o (fst st)) as [w1 [i1|]] eqn:Ec; [|discriminate]. cbn [fst] in F. assert (MN : forall w', alive w' = alive w1 -> but_reg w1 (heap w') -> origin st o w' i1) by (intros w' Ha Hh; right; right; right; exists k, ct, w1; repeat split; auto).
    injection X as <- <-. destruct (is_metric i1); [|apply MN; [reflexivity|now left]]. cbn [heap set_heap]. apply MN; [reflexivity|]. right. exists l, es. eexists. split; [eapply fr_same; eauto|reflexivity].
  - inversion Hm; subst. eapply BRV; reflexivity.
  - inversion Hm; subst. unfold bind in Hw. destruct (std_register default_reg name v o (fst st)) as [w [[a|]|]]; inversion Hw; subst. constructor.
  - inversion Hm; subst. eapply UNIT; reflexivity.
  - inversion Hm; subst. eapply UNIT; reflexivity.
  - (* Each *) destruct (each_step mexp st r0 v o I E C) as (l & es & kvs & Bs & Es & S & K). rewrite S in H. cbn [snd] in H. inversion H; subst r. cbn [yields]. apply Forall_forall. intros i Hi. apply in_map_iff in Hi. destruct Hi as ([n i'] & <- & Hi). cbn [snd].
    subst kvs. apply filter_In in Hi. destruct Hi as [Hi _]. apply (Permutation_in _ (in_order_perm _ _)) in Hi. apply (GR l n). apply (in_registered _ _ es); auto. apply I.
  - inversion Hm; subst. eapply BRV; reflexivity.
  - inversion Hm; subst. eapply UNIT; reflexivity.
  - (* NewRegisteredX *) destruct (has_new_registered k); [|discriminate]. destruct (ctor_of (snd st) k) as [ct|] eqn:Ek; [|discriminate]. destruct (reg_arg (snd st) r0) as [v|] eqn:Er; [|discriminate].
    inversion Hm; subst. eapply VRV; [reflexivity|]. intros w i X <-. destruct (reg_arg_ok st r0 v I Er) as (l & es & Bs & Es & _). rewrite (new_registered_ok mexp o (fst st) v l es ct name Bs Es) in X.
    pose proof (pres_mk mexp ct o (fst st)) as F. destruct (construct mexp ct o (fst st)) as [w1 [i1|]] eqn:Ec; [|discriminate]. cbn [fst] in F. assert (MN : forall w', alive w' = alive w1 -> but_reg w1 (heap w') -> origin st o w' i1) by (intros w' Ha Hh; right; right; right; exists k, ct, w1; repeat split; auto).
    injection X as <- <-. destruct (lookup (full v name) es); [apply MN; [reflexivity|now left]|]. destruct (is_metric i1); [|apply MN; [reflexivity|now left]]. cbn [heap set_heap]. apply MN; [reflexivity|]. right. exists l, es. eexists. split; [eapply fr_same; eauto|reflexivity].
  - (* GetOrRegisterX *) destruct (ctor_of (snd st) (regk_new k)) as [ct|] eqn:Ek; [|discriminate]. destruct (reg_arg (snd st) r0) as [v|] eqn:Er; [|discriminate].
    inversion Hm; subst. eapply VRV; [reflexivity|]. intros w i X <-. destruct (reg_arg_ok st r0 v I Er) as (l & es & Bs & Es & _). destruct (ctor_arg mexp st k ct o I Ek) as (w1 & i1 & Ec & Kc).
    rewrite (gor_x_ok mexp o (fst st) v l es k ct name w1 i1 Bs Es Ec Kc) in X.
    pose proof (pres_mk mexp ct o (fst st)) as F. rewrite Ec in F. cbn [fst] in F. assert (MN : forall w', alive w' = alive w1 -> but_reg w1 (heap w') -> origin st o w' i1) by (intros w' Ha Hh; right; right; right; exists (regk_new k), ct, w1; repeat split; auto).
    destruct (lookup (full v name) es) as [y|] eqn:Lk.
    + destruct (class_eqb (cls y) (regk_class k)); [|discriminate]. injection X as _ <-. apply (GR l (full v name)). rewrite (registered_at _ _ es); auto.
    + injection X as <- <-. cbn [heap set_heap]. apply MN; [reflexivity|]. right. exists l, es. eexists. split; [eapply fr_same; eauto|reflexivity].
Qed.
End Origin.
