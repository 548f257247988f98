(** Constructors make new objects; meters they make are ticked. *)
From Coq Require Import ZArith List String Bool Lia Arith.
From Verif.Model Require Import GoInt GoFloat GoBase Stats Uniform ExpDecay Ewma World.
From Verif.Spec Require Import RegistrySpec.
From Verif.Proofs Require Import WorldBase WorldStep WorldFrame RegistryProofs RegistryStep.
Import ListNotations.
Local Open Scope nat_scope.
Local Open Scope list_scope.

(** the object a value points to *)
Definition loc_of (v : val) : option nat :=
  match v with
  | VCounter l | VGauge l | VGaugeF l | VHealth l | VUniform l | VExp l | VSampleSnap l | VHist l | VHistSnap l | VEwma l | VMeter l
  | VMeterSnap l | VTimer l | VTimerSnap l => Some l
  | _ => None
  end.
Lemma tagat_lt h l t : tagat h l t -> l < List.length h.
Proof. intros (x & E & _). eapply nth_lt; eauto. Qed.
Lemma vok_lt h v l : vok h v -> loc_of v = Some l -> l < List.length h.
Proof. destruct v; cbn; intros V H; inversion H; subst; try (eapply tagat_lt; exact V); destruct V; eapply tagat_lt; eauto. Qed.

Section Exp.
Variable mexp : f64 -> f64.

(** [m] returns a value pointing to an object that was not there before *)
Definition makes (m : M val) : Prop := forall o w, usenil w = false ->
  match m o w with
  | (w', Ok i) => usenil w' = false /\ List.length (heap w) <= List.length (heap w') /\ exists l, loc_of i = Some l /\ List.length (heap w) <= l
  | (w', Panic _) => True
  end.
Lemma makes_alloc x f : (forall l, loc_of (f l) = Some l) -> makes (unless_nil VNil (l <- alloc x;; ret (f l))).
Proof. intros F o w U. unfold unless_nil, bind, gets, alloc, ret. rewrite U. cbn [usenil set_heap heap]. split; auto. split; [rewrite app_length; cbn; lia|]. exists (List.length (heap w)). split; auto. Qed.
Lemma makes_stub s s' m : makes (unless_nil s m) -> makes (unless_nil s' m).
Proof. intros H o w U. specialize (H o w U). unfold unless_nil, bind, gets in *. rewrite U in *. exact H. Qed.
Lemma new_meter_eq o w : usenil w = false ->
  exists h, new_meter mexp o w = (MkWorld (heap w ++ h) (alive w ++ [List.length (heap w) + 4]) true false, Ok (VMeter (List.length (heap w) + 4))) /\ List.length h = 5.
Proof.
  intros U. eexists. unfold new_meter, unless_nil, bind, gets, alloc, ask, new_ewma, unless_nil, bind, gets, alloc, ret. rewrite U.
  cbn [usenil set_heap heap alive ticking]. rewrite U. cbn [usenil set_heap heap alive ticking]. rewrite U. cbn [usenil set_heap heap alive ticking]. rewrite U. cbn [usenil set_heap heap alive ticking].
  rewrite ?U. rewrite <- !app_assoc. cbn [app]. split; [rewrite !app_length; cbn [List.length]; reflexivity|reflexivity].
Qed.
Lemma new_timer_eq o w : usenil w = false ->
  exists h, new_timer mexp o w =
      (MkWorld ((heap w ++ h) ++ [OTimer (VHist (List.length (heap w) + 1)) (VMeter (List.length (heap w) + 6))])
         (alive w ++ [List.length (heap w) + 6]) true false, Ok (VTimer (List.length (heap w) + 7))) /\ List.length h = 7.
Proof.
  intros U. unfold new_timer.
  assert (E1 : exists x, new_exp 1028 f_0015 o w = (set_heap (heap w ++ [x]) w, Ok (VExp (List.length (heap w))))).
  { eexists. unfold new_exp, unless_nil, bind at 1, gets. rewrite U. change (1028 <? 0)%Z with false. cbv iota. unfold bind, ask, alloc, ret. reflexivity. }
  destruct E1 as (x & E1). unfold unless_nil, bind at 1, gets. rewrite U. unfold bind at 1. rewrite E1.
  assert (E2 : forall v w, usenil w = false -> new_hist v o w = (set_heap (heap w ++ [OHist v]) w, Ok (VHist (List.length (heap w))))).
  { intros v w0 U0. unfold new_hist, unless_nil, bind at 1, gets. rewrite U0. reflexivity. }
  unfold bind at 1. rewrite E2 by exact U. unfold bind at 1. set (w2 := set_heap _ _).
  destruct (new_meter_eq o w2 U) as (h & E3 & L). rewrite E3. unfold bind, alloc, ret. cbn [set_heap heap usenil alive ticking]. subst w2. cbn [set_heap heap alive].
  exists ([x; OHist (VExp (List.length (heap w)))] ++ h). rewrite <- !app_assoc. cbn [app List.length]. rewrite !app_length. cbn [List.length]. rewrite L. split; [|reflexivity].
  replace (List.length (heap w) + 2 + 4) with (List.length (heap w) + 6) by lia. replace (List.length (heap w) + S (S 5)) with (List.length (heap w) + 7) by lia. reflexivity.
Qed.
Lemma makes_construct e k ct : (forall f, k <> NFuncGauge f) -> (forall f, k <> NFuncGaugeF f) -> ctor_of e k = Some ct -> makes (construct mexp ct).
Proof.
  intros N1 N2 H.
  destruct k; cbn in H; try (destruct (arg e CSample s)); try (destruct (arg e CHist h); cbn in H; [destruct (arg e CMeter m)|]); inversion H; subst; cbn [construct];
    try (eapply makes_stub; apply makes_alloc; reflexivity); try (exfalso; first [eapply N1; reflexivity|eapply N2; reflexivity]).
  - intros o w U. unfold new_uniform, unless_nil, bind, gets. rewrite U. match goal with |- context [(?a <? 0)%Z] => destruct (a <? 0)%Z; [exact Logic.I|] end. unfold new_slice, bind, alloc, ret.
    cbn [set_heap heap usenil]. split; auto. split; [rewrite !app_length; cbn; lia|]. eexists. split; [reflexivity|]. rewrite ?app_length; lia.
  - intros o w U. unfold new_exp, unless_nil, bind, gets. rewrite U. match goal with |- context [(?a <? 0)%Z] => destruct (a <? 0)%Z; [exact Logic.I|] end. unfold bind, alloc, ret, ask.
    cbn [set_heap heap usenil]. split; auto. split; [rewrite app_length; cbn; lia|]. eexists. split; [reflexivity|]. rewrite ?app_length; lia.
  - intros o w U. destruct (new_meter_eq o w U) as (h & -> & L). cbn [usenil heap]. split; auto. split; [rewrite app_length; lia|]. eexists. split; [reflexivity|]. rewrite ?app_length; lia.
  - intros o w U. destruct (new_timer_eq o w U) as (h & -> & L). cbn [usenil heap]. split; auto. rewrite !app_length. split; [lia|]. eexists. split; [reflexivity|]. lia.
Qed.
(** a value that was not there before: no variable and no registry holds it *)
Lemma fresh_value (st : state) k ct o w' i : inv st -> usenil (fst st) = false -> (forall f, k <> NFuncGauge f) -> (forall f, k <> NFuncGaugeF f) ->
  ctor_of (snd st) k = Some ct -> construct mexp ct o (fst st) = (w', Ok i) ->
  ~ In i (snd st) /\ forall l n, registered (fst st) l n <> Some i.
Proof.
  intros I U N1 N2 E C. pose proof (makes_construct (snd st) k ct N1 N2 E o (fst st) U) as H. rewrite C in H. destruct H as (_ & _ & l & L & G).
  assert (V : ~ vok (heap (fst st)) i) by (intros V; pose proof (vok_lt _ _ _ V L); lia).
  destruct I as [W F]. split.
  - intros Hi. rewrite Forall_forall in F. auto.
  - intros k0 n R. unfold registered in R. destruct (nth_error (heap (fst st)) k0) as [x|] eqn:Ek; [|discriminate]. destruct x; try discriminate.
    rewrite <- lookup_find in R. apply lookup_In in R. pose proof (wf_obj _ W _ _ Ek) as O. cbn in O. destruct O as [_ O]. rewrite Forall_forall in O.
    specialize (O _ R). cbn in O. tauto.
Qed.
Lemma ticked_value (st : state) k ct o w' i : usenil (fst st) = false -> new_meter_kind k = true ->
  ctor_of (snd st) k = Some ct -> construct mexp ct o (fst st) = (w', Ok i) ->
  exists m, meter_of w' i = Some m /\ alive w' = alive (fst st) ++ [m] /\ ticking w' = true /\ List.length (heap (fst st)) <= m.
Proof.
  intros U N E C. destruct k; cbn in N; try discriminate; cbn in E; inversion E; subst; cbn [construct] in C.
  - destruct (new_meter_eq o (fst st) U) as (h & H & L). rewrite H in C. inversion C; subst. eexists. split; [reflexivity|]. split; [reflexivity|]. split; [reflexivity|]. lia.
  - destruct (new_timer_eq o (fst st) U) as (h & H & L). rewrite H in C. inversion C; subst. cbn [meter_of heap alive ticking].
    rewrite nth_error_app2 by (rewrite app_length; lia). rewrite app_length, L, Nat.sub_diag. cbn. eexists. split; [reflexivity|]. split; [reflexivity|]. split; [reflexivity|]. lia.
Qed.
End Exp.
