(** The histogram, sample and meter of a timer made by NewTimer are its own: no
    program can get hold of them, so only calls on the timer reach them. *)
From Coq Require Import ZArith List String Bool Lia Arith Permutation.
From Verif.Model Require Import GoInt GoFloat GoBase Stats Uniform ExpDecay Conc Ewma World.
From Verif.Spec Require Import RegistrySpec.
From Verif.Proofs Require Import WorldBase WorldCalls WorldStep WorldFrame RegistryProofs RegistryStep RegistryNew.
From Verif.Props Require Import RegistryProps.
Import ListNotations.
Local Open Scope nat_scope.
Local Open Scope list_scope.

Definition inert (v : val) : Prop := match v with VExp _ | VHist _ | VMeter _ | VTimer _ => False | _ => True end.
Section Priv.
Variable mexp : f64 -> f64.
(** the timer [tl], its histogram [hl], that one's sample [e], and its meter [k] *)
Variables e hl k tl : nat.

(** what a program holds gives no access to these *)
Definition good0 (h : list obj) (v : val) : Prop :=
  match v with
  | VExp l => l <> e
  | VHist l => l <> hl /\ forall s, nth_error h l = Some (OHist s) -> s <> VExp e
  | VMeter l => l <> k
  | _ => True
  end.
Definition good (h : list obj) (v : val) : Prop :=
  match v with
  | VTimer l => l = tl \/ forall hh m, nth_error h l = Some (OTimer hh m) -> good0 h hh /\ good0 h m
  | _ => good0 h v
  end.
Lemma inert_good h v : inert v -> good h v.
Proof. destruct v; cbn; tauto. Qed.
Lemma class_good h v : match cls v with CSample | CHist | CMeter | CTimer => False | _ => True end -> good h v.
Proof. destruct v; cbn; tauto. Qed.
Lemma good_good0 h v : cls v <> CTimer -> good h v -> good0 h v.
Proof. destruct v; cbn; tauto. Qed.

Definition fixed (o : obj) : Prop := match o with OHist _ | OTimer _ _ => True | _ => False end.
Lemma good0_back h h' v : (forall l o, fixed o -> nth_error h' l = Some o -> vok h v -> loc_of v = Some l -> nth_error h l = Some o) -> vok h v -> good0 h v -> good0 h' v.
Proof. intros B V. destruct v; cbn; auto. intros [D S]. split; auto. intros s E. apply S. apply (B l (OHist s) Logic.I E V eq_refl). Qed.
Lemma good0_same h h' v : (forall l o, fixed o -> nth_error h' l = Some o -> nth_error h l = Some o) -> good0 h v -> good0 h' v.
Proof. intros B. destruct v; cbn; auto. intros [D S]. split; auto. intros s E. apply S. apply (B l (OHist s) Logic.I E). Qed.
Lemma good_same h h' v : (forall l o, fixed o -> nth_error h' l = Some o -> nth_error h l = Some o) -> good h v -> good h' v.
Proof.
  intros B. destruct v; try (apply good0_same; auto); cbn; auto. intros [D|S]; auto. right. intros hh m E. apply (B l (OTimer hh m) Logic.I) in E. destruct (S hh m E).
  split; eapply good0_same; eauto.
Qed.
Lemma good0_legal U h h' v : legalh U h h' -> vok h v -> good0 h v -> good0 h' v.
Proof.
  intros (_ & L & _) V. apply good0_back; auto. intros l o F E _ Lv. pose proof (vok_lt _ _ _ V Lv) as Lt. apply nth_error_Some in Lt.
  destruct (nth_error h l) as [x|] eqn:Ex; [|congruence]. destruct (L _ _ Ex) as (x' & E' & C). rewrite E in E'. inversion E'; subst x'. destruct x, o; cbn in F, C; try tauto; try discriminate; congruence.
Qed.
Lemma good_legal U w w' v : wf w -> legal U w w' -> vok (heap w) v -> good (heap w) v -> good (heap w') v.
Proof.
  intros W L V. pose proof L as LG. unfold legal in LG. destruct v; try (apply (good0_legal U); auto); cbn; auto. intros [D|S]; auto. right. intros hh m E.
  pose proof (vok_lt _ _ _ V eq_refl) as Lt. apply nth_error_Some in Lt. destruct (nth_error (heap w) l) as [x|] eqn:Ex; [|congruence].
  destruct L as (A & L & B). destruct (L _ _ Ex) as (x' & E' & C). rewrite E in E'. inversion E'; subst x'. destruct x; cbn in C; try discriminate. inversion C; subst.
  destruct (S _ _ eq_refl) as [S1 S2]. pose proof (wf_obj _ W _ _ Ex) as O. cbn in O. split; (eapply good0_legal; [exact LG| |]; tauto).
Qed.

(** ** the values calls return *)
Definition gv {A} (P : A -> Prop) (m : M A) : Prop := forall o w w' a, m o w = (w', Ok a) -> P a.
Lemma gv_bind {A B} P (m : M A) (f : A -> M B) : (forall a, gv P (f a)) -> gv P (bind m f).
Proof. intros H o w w' b. unfold bind. destruct (m o w) as [w1 [a|]]; [|discriminate]. apply H. Qed.
Lemma gv_ret {A} (P : A -> Prop) a : P a -> gv P (ret a).
Proof. intros H o w w' b E. inversion E; subst; auto. Qed.
Lemma gv_throw {A} (P : A -> Prop) m : gv P (throw m).
Proof. intros o w w' b E. discriminate. Qed.
Ltac gvs := repeat first
  [ apply gv_ret; solve [auto | cbn; auto]
  | apply gv_throw
  | apply gv_bind; intros ?
  | match goal with |- gv _ (match ?x with _ => _ end) => destruct x end ].
Lemma gv_snap v m : m_snapshot v = Some m -> gv (fun r => forall i, r = RVal i -> inert i) m.
Proof.
  assert (K : forall n : M val, gv inert n -> gv (fun r => forall i, r = RVal i -> inert i) (v_rv n)).
  { intros n H o w w' r. unfold v_rv, bind. destruct (n o w) as [w1 [a|]] eqn:E; [|discriminate]. intros R i ->. inversion R; subst. eapply H; eauto. }
  unfold m_snapshot. intros H. destruct v; cbn [cls] in H; inversion H; subst; clear H; apply K;
    cbn [counter_snapshot gauge_snapshot gaugef_snapshot sample_snapshot hist_snapshot ewma_snapshot meter_snapshot timer_snapshot]; gvs.
Qed.

(** what the constructors make *)
Lemma new_meter_layout o w : usenil w = false -> let n := List.length (heap w) in
  exists a b c, new_meter mexp o w =
    (MkWorld (heap w ++ [OMeterSnap 0 0 0 0 0; a; b; c; OMeter n (VEwma (n + 1)) (VEwma (n + 2)) (VEwma (n + 3)) (o_now o) false]) (alive w ++ [n + 4]) true false, Ok (VMeter (n + 4))) /\
    tag_of a = TEwma /\ tag_of b = TEwma /\ tag_of c = TEwma.
Proof.
  intros U n. do 3 eexists. unfold new_meter, unless_nil, bind, gets, alloc, ask, new_ewma, unless_nil, bind, gets, alloc, ret. rewrite U.
  cbn [usenil set_heap heap alive ticking]. rewrite U. cbn [usenil set_heap heap alive ticking]. rewrite U. cbn [usenil set_heap heap alive ticking]. rewrite U. cbn [usenil set_heap heap alive ticking].
  rewrite ?U. rewrite <- !app_assoc. cbn [app]. rewrite !app_length. cbn [List.length]. fold n. split; [reflexivity|]. repeat split.
Qed.
Lemma new_timer_layout o w : usenil w = false -> let n := List.length (heap w) in
  exists a b c, new_timer mexp o w =
    (MkWorld (heap w ++ [OExp (NewExpDecaySample 1028 f_0015 (o_now o)); OHist (VExp n);
         OMeterSnap 0 0 0 0 0; a; b; c; OMeter (n + 2) (VEwma (n + 3)) (VEwma (n + 4)) (VEwma (n + 5)) (o_now o) false;
         OTimer (VHist (n + 1)) (VMeter (n + 6))]) (alive w ++ [n + 6]) true false, Ok (VTimer (n + 7))) /\
    tag_of a = TEwma /\ tag_of b = TEwma /\ tag_of c = TEwma.
Proof.
  intros U n. unfold new_timer.
  assert (E1 : new_exp 1028 f_0015 o w = (set_heap (heap w ++ [OExp (NewExpDecaySample 1028 f_0015 (o_now o))]) w, Ok (VExp n))).
  { unfold new_exp, unless_nil, bind at 1, gets. rewrite U. change (1028 <? 0)%Z with false. cbv iota. unfold bind, ask, alloc, ret. change (Z.to_nat 1028) with 1028. reflexivity. }
  unfold unless_nil, bind at 1, gets. rewrite U. unfold bind at 1. rewrite E1.
  assert (E2 : forall v w, usenil w = false -> new_hist v o w = (set_heap (heap w ++ [OHist v]) w, Ok (VHist (List.length (heap w))))).
  { intros v w0 U0. unfold new_hist, unless_nil, bind at 1, gets. rewrite U0. reflexivity. }
  unfold bind at 1. rewrite E2 by exact U. unfold bind at 1. set (w2 := set_heap _ (set_heap _ _)).
  destruct (new_meter_layout o w2 U) as (a & b & c & E3 & T). rewrite E3. exists a, b, c. split; auto. unfold bind, alloc, ret. cbn [set_heap heap usenil alive ticking]. subst w2. cbn [set_heap heap alive].
  rewrite !app_length. cbn [List.length]. fold n. unfold set_heap. cbn [heap alive ticking usenil]. rewrite <- !app_assoc. cbn [app].
  rewrite <- !(Nat.add_assoc n). cbn [Nat.add]. reflexivity.
Qed.

(** a new object is not one of the timer's *)
Definition below (h : list obj) : Prop := e < List.length h /\ hl < List.length h /\ k < List.length h /\ tl < List.length h.
Definition cgood (h : list obj) (ct : ctor) : Prop :=
  match ct with KHist s => cls s = CSample /\ good0 h s | KCustomTimer a b => (vok h a /\ good0 h a) /\ vok h b /\ good0 h b | _ => True end.
Lemma nth_app_r {A} (l r : list A) j : nth_error (l ++ r) (List.length l + j) = nth_error r j.
Proof. rewrite nth_error_app2 by lia. f_equal. lia. Qed.
Lemma nth_snoc {A} (l : list A) x : nth_error (l ++ [x]) (List.length l) = Some x.
Proof. rewrite nth_error_app2 by lia. now rewrite Nat.sub_diag. Qed.
Lemma construct_good ct o w w' i : below (heap w) -> cgood (heap w) ct -> construct mexp ct o w = (w', Ok i) -> good (heap w') i.
Proof.
  intros (B1 & B2 & B3 & B4) G C. set (n := List.length (heap w)) in *.
  assert (S : forall stub m, unless_nil stub m o w = (w', Ok i) -> inert stub -> (usenil w = false -> m o w = (w', Ok i) -> good (heap w') i) -> good (heap w') i).
  { intros stub m H Hs Hm. unfold unless_nil, bind, gets in H. destruct (usenil w); [inversion H; subst; now apply inert_good|auto]. }
  destruct ct; cbn [construct] in C; try (apply (S _ _ C Logic.I); intros U H; inversion H; subst; exact Logic.I).
  - unfold new_uniform in C. apply (S _ _ C Logic.I). intros U H. destruct (size <? 0)%Z; [discriminate|]. inversion H; subst. exact Logic.I.
  - unfold new_exp in C. apply (S _ _ C Logic.I). intros U H. destruct (size <? 0)%Z; [discriminate|]. inversion H; subst. cbn. fold n. lia.
  - unfold new_hist in C. apply (S _ _ C Logic.I). intros U H. inversion H; subst. cbn. fold n. split; [lia|]. intros s' E. unfold n in E. rewrite nth_snoc in E. inversion E; subst.
    destruct G as [Cs G]. destruct s'; cbn in *; congruence.
  - destruct (usenil w) eqn:U; [unfold new_meter in C; apply (S _ _ C Logic.I); congruence|]. destruct (new_meter_layout o w U) as (a & b & c & H & _). rewrite H in C. inversion C; subst. cbn. fold n. lia.
  - destruct (usenil w) eqn:U; [unfold new_timer in C; apply (S _ _ C Logic.I); congruence|]. destruct (new_timer_layout o w U) as (a & b & c & H & _). rewrite H in C. inversion C; subst. cbn [good heap]. fold n.
    right. intros hh m E. unfold n in E. rewrite nth_app_r in E. inversion E; subst. cbn. fold n. split; [|lia]. split; [lia|]. intros s E2. unfold n in E2. rewrite nth_app_r in E2. inversion E2; subst.
    fold n. intros Z. inversion Z. lia.
  - apply (S _ _ C Logic.I). intros U H. inversion H; subst. cbn [good heap set_heap]. fold n. right. intros hh m0 E. unfold n in E. rewrite nth_snoc in E. inversion E; subst. destruct G as ((V1 & G1) & V2 & G2).
    assert (Bk : forall v, vok (heap w) v -> good0 (heap w) v -> good0 (heap w ++ [OTimer hh m0]) v).
    { intros v V. apply good0_back; auto. intros l o' F E' _ Lv. pose proof (vok_lt _ _ _ V Lv). rewrite nth_error_app1 in E' by auto. exact E'. }
    auto.
Qed.

(** ** the invariant *)
Record priv (st : state) : Prop := {
  p_inv : inv st;
  p_exp : tagat (heap (fst st)) e TExp;
  p_hist : nth_error (heap (fst st)) hl = Some (OHist (VExp e));
  p_meter : tagat (heap (fst st)) k TMeter;
  p_timer : nth_error (heap (fst st)) tl = Some (OTimer (VHist hl) (VMeter k));
  p_env : Forall (good (heap (fst st))) (snd st);
  p_reg : forall l n v, registered (fst st) l n = Some v -> good (heap (fst st)) v
}.
Lemma registered_vok w l n v : wf w -> registered w l n = Some v -> vok (heap w) v /\ is_metric v = true.
Proof.
  intros W R. unfold registered in R. destruct (nth_error (heap w) l) as [y|] eqn:El; [|discriminate]. destruct y; try discriminate.
  rewrite <- lookup_find in R. apply lookup_In in R. pose proof (wf_obj _ W _ _ El) as O. cbn in O. destruct O as [_ O]. rewrite Forall_forall in O. specialize (O _ R). cbn in O. tauto.
Qed.
Lemma after_origin en c r m l n v : after en c r m l n = Some v -> m l n = Some v \/ In v en \/ r = Some (Ok (RVal v)).
Proof.
  intros H.
  assert (A : forall u n' i, add m u n' i l n = Some v -> m l n = Some v \/ i = v).
  { intros u n' i. unfold add. destruct (base u) as [b|]; auto. destruct (m b (full u n')); auto. destruct (metric i); auto. unfold put. destruct (_ && _); auto. intros E; inversion E; auto. }
  destruct c; cbn in H; auto;
    repeat match type of H with
    | context [match nth_error en ?x with _ => _ end] => let E := fresh "E" in destruct (nth_error en x) eqn:E; auto
    | context [match reg_or_default en ?x with _ => _ end] => destruct (reg_or_default en x); auto
    | context [match r with _ => _ end] => destruct r as [[[]|]|]; auto
    end; try (apply A in H; destruct H as [H|H]; auto; subst; eauto using nth_error_In; fail).
  - apply (A (VReg default_reg)) in H. destruct H as [H|H]; auto; subst; eauto using nth_error_In.
  - unfold drop in H. destruct (base v0); auto. unfold put in H. destruct (_ && _); auto. discriminate.
  - unfold drop_all in H. destruct (base v0); auto. unfold clear in H. destruct (_ =? _); auto. discriminate.
Qed.
Lemma priv_below st : priv st -> below (heap (fst st)).
Proof. intros P. repeat split; [eapply tagat_lt, p_exp; auto|eapply nth_lt, p_hist; auto|eapply tagat_lt, p_meter; auto|eapply nth_lt, p_timer; auto]. Qed.
Lemma arg_good (st : state) c x v : priv st -> c <> CTimer -> arg (snd st) c x = Some v -> cls v = c /\ vok (heap (fst st)) v /\ good0 (heap (fst st)) v.
Proof.
  intros P N A. unfold arg in A. destruct (nth_error (snd st) x) as [u|] eqn:E; [|discriminate]. apply nth_error_In in E.
  pose proof (p_env _ P) as G. rewrite Forall_forall in G. pose proof (proj2 (p_inv _ P)) as V. rewrite Forall_forall in V. specialize (G _ E). specialize (V _ E).
  assert (C : cls v = c /\ u = v) by (destruct c, (cls u) eqn:C; try discriminate; inversion A; subst; auto). destruct C as [<- ->]. split; auto. split; auto. apply good_good0; auto.
Qed.
Lemma ctor_good (st : state) nk ct : priv st -> ctor_of (snd st) nk = Some ct -> cgood (heap (fst st)) ct.
Proof.
  intros P H. destruct nk; cbn in H; unfold obind in H; try (inversion H; subst; exact Logic.I).
  - destruct (arg (snd st) CSample s) as [v|] eqn:A; inversion H; subst. apply arg_good in A; auto; [|discriminate]. cbn. tauto.
  - destruct (arg (snd st) CHist h) as [v|] eqn:A; [|discriminate]. destruct (arg (snd st) CMeter m) as [u|] eqn:B; inversion H; subst.
    apply arg_good in A; auto; [|discriminate]. apply arg_good in B; auto; [|discriminate]. cbn. tauto.
Qed.
Lemma set_reg_back w l y es : nth_error (heap w) l = Some (OReg y) -> forall l' o, fixed o -> nth_error (lset (heap w) l (OReg es)) l' = Some o -> nth_error (heap w) l' = Some o.
Proof.
  intros E l' o F H. destruct (Nat.eq_dec l l') as [->|D]; [|rewrite lset_nth_neq in H; auto]. rewrite lset_nth_eq in H by (eapply nth_lt; eauto). inversion H; subst. destruct F.
Qed.

Lemma yields_good st c o r : priv st -> snd (step mexp st (c, o)) = Some (Ok r) ->
  Forall (good (heap (fst (fst (step mexp st (c, o)))))) (yields r).
Proof.
  intros P H. pose proof (p_inv _ P) as I. destruct (step_inv mexp st c o I) as (I' & L & _).
  pose proof (priv_below _ P) as B.
  set (st' := fst (step mexp st (c, o))) in *.
  assert (GE : forall v, In v (snd st) -> good (heap (fst st')) v).
  { intros v Hv. pose proof (p_env _ P) as G. rewrite Forall_forall in G. pose proof (proj2 I) as V. rewrite Forall_forall in V. eapply good_legal; eauto using (proj1 I). }
  assert (GR : forall l n v, registered (fst st) l n = Some v -> good (heap (fst st')) v).
  { intros l n v Hv. eapply good_legal; [exact (proj1 I)|exact L|apply (registered_vok _ _ _ _ (proj1 I) Hv)|eapply p_reg; eauto]. }
  assert (ST : forall m w r', World.call mexp (snd st) c = Some m -> m o (fst st) = (w, Ok r') -> r' = r /\ fst st' = w).
  { intros m w r' Hm Hw. subst st'. revert H. unfold World.step. cbn [fst snd]. rewrite Hm, Hw. cbn [fst snd]. intros X. inversion X; auto. }
  assert (SOME : exists m, World.call mexp (snd st) c = Some m /\ m o (fst st) = (fst st', Ok r)).
  { subst st'. revert H. unfold World.step. cbn [fst snd]. destruct (World.call mexp (snd st) c) as [m|]; [|discriminate]. destruct (m o (fst st)) as [w [r'|]] eqn:E; cbn [fst snd]; [|discriminate].
    intros X. inversion X; subst. eauto. }
  destruct SOME as (m & Hm & Hw). clear ST.
  assert (NV : (forall i, r = RVal i -> good (heap (fst st')) i) -> (forall kvs, r = RPairs kvs -> Forall (good (heap (fst st'))) (map snd kvs)) -> Forall (good (heap (fst st'))) (yields r)).
  { intros A1 A2. destruct r; cbn; auto. }
  assert (VRV : forall n : M val, m = v_rv n -> (forall w i, n o (fst st) = (w, Ok i) -> fst st' = w -> good (heap w) i) -> Forall (good (heap (fst st'))) (yields r)).
  { intros n -> K. unfold v_rv, bind in Hw. destruct (n o (fst st)) as [w [i|]] eqn:E; [|discriminate]. unfold ret in Hw. injection Hw as Ew Er. rewrite <- Er. cbn [yields]. constructor; auto. rewrite <- Ew. apply (K w i); auto. }
  assert (UNIT : forall n, m = unit_rv n -> Forall (good (heap (fst st'))) (yields r)).
  { intros n ->. unfold unit_rv, bind in Hw. destruct (n o (fst st)) as [w [i|]]; [|discriminate]. inversion Hw; subst. constructor. }
  assert (ZRV : forall n, m = z_rv n -> Forall (good (heap (fst st'))) (yields r)).
  { intros n ->. unfold z_rv, bind in Hw. destruct (n o (fst st)) as [w [i|]]; [|discriminate]. inversion Hw; subst. constructor. }
  assert (FRV : forall n, m = f_rv n -> Forall (good (heap (fst st'))) (yields r)).
  { intros n ->. unfold f_rv, bind in Hw. destruct (n o (fst st)) as [w [i|]]; [|discriminate]. inversion Hw; subst. constructor. }
  assert (BRV : forall A (n : M A) f, m = bind n (fun a => ret (f a)) -> (forall a, yields (f a) = []) -> Forall (good (heap (fst st'))) (yields r)).
  { intros A n f -> K. unfold bind in Hw. destruct (n o (fst st)) as [w [i|]]; [|discriminate]. inversion Hw; subst. rewrite K. constructor. }
  destruct c; cbn [World.call] in Hm; unfold obind, only in Hm;
    repeat match type of Hm with
    | context [match nth_error (snd st) ?x with _ => _ end] => let E := fresh "E" in destruct (nth_error (snd st) x) as [?v|] eqn:E; [|discriminate]
    | context [if class_eqb (cls ?v) ?c then _ else _] => let C := fresh "C" in destruct (class_eqb (cls v) c) eqn:C; [apply class_eqb_eq in C|discriminate]
    end.
  - inversion Hm; subst. inversion Hw; subst. constructor.
  - destruct (ctor_of (snd st) k0) as [ct|] eqn:Ek; inversion Hm; subst. eapply VRV; [reflexivity|]. intros w i E Ew. eapply construct_good; eauto using ctor_good.
  - destruct (arg (snd st) CSlice slice) as [[]|]; try discriminate. inversion Hm; subst. eapply VRV; [reflexivity|]. intros w i X Ew. inversion X; subst. exact Logic.I.
  - inversion Hm; subst. eapply VRV; [reflexivity|]. intros w i X Ew. inversion X; subst. exact Logic.I.
  - inversion Hm; subst. eapply VRV; [reflexivity|]. intros w i X Ew. inversion X; subst. exact Logic.I.
  - destruct (arg (snd st) CReg r0) as [u|]; inversion Hm; subst. eapply VRV; [reflexivity|]. intros w i X Ew. inversion X; subst. exact Logic.I.
  - inversion Hm; subst. eapply VRV; [reflexivity|]. intros w i X Ew. inversion X; subst. exact Logic.I.
  - destruct (arg (snd st) CSlice x) as [u|]; inversion Hm; subst. eapply UNIT; reflexivity.
  - destruct (arg (snd st) CSlice x) as [u|]; inversion Hm; subst. unfold slice_read in Hw. destruct u; try discriminate. unfold bind in Hw. destruct (arr_get l o (fst st)) as [w [a|]]; inversion Hw; subst. constructor.
  - inversion Hm; subst. inversion Hw; subst. constructor; [exact Logic.I|constructor].
  - inversion Hm; subst. eapply UNIT; reflexivity.
  - inversion Hm; subst. eapply UNIT; reflexivity.
  - inversion Hm; subst. eapply UNIT; reflexivity.
  - unfold m_clear in Hm. destruct (cls v); inversion Hm; subst; eapply UNIT; reflexivity.
  - unfold m_count in Hm. destruct (cls v); inversion Hm; subst; eapply ZRV; reflexivity.
  - unfold m_value in Hm. destruct (cls v); inversion Hm; subst; first [eapply ZRV; reflexivity|eapply FRV; reflexivity].
  - unfold m_update in Hm. destruct (cls v); inversion Hm; subst; eapply UNIT; reflexivity.
  - inversion Hm; subst. eapply UNIT; reflexivity.
  - (* snapshots *) pose proof (gv_snap v m Hm o (fst st) _ r Hw) as K. apply NV; [intros i Hi; apply inert_good; auto|].
    intros kvs ->. exfalso. unfold m_snapshot in Hm.
    assert (K2 : exists n, m = v_rv n) by (destruct (cls v); inversion Hm; eauto). destruct K2 as (n & ->). unfold v_rv, bind in Hw. destruct (n o (fst st)) as [w [i|]]; inversion Hw.
  - assert (K : gv (fun r => yields r = []) m).
    { unfold m_stat in Hm. assert (KS : forall u, gv (fun r => yields r = []) (sample_stat s u)).
      { intros u. assert (S : forall xs, yields (stat_of s xs) = []) by (intros; destruct s; reflexivity). unfold sample_stat. destruct u; try (apply gv_bind; intros; apply gv_ret; apply S). apply gv_ret. destruct s; reflexivity. }
      assert (KH : forall u, gv (fun r => yields r = []) (hist_stat s u)) by (intros u; unfold hist_stat; apply gv_bind; intros; apply KS).
      destruct (cls v); inversion Hm; subst; auto. unfold timer_stat. apply gv_bind. intros []. apply KH. }
    rewrite (K _ _ _ _ Hw). constructor.
  - destruct (m_percentiles [p] v); inversion Hm; subst. eapply FRV; reflexivity.
  - destruct (m_percentiles ps v); inversion Hm; subst. eapply BRV; reflexivity.
  - inversion Hm; subst. eapply ZRV; reflexivity.
  - inversion Hm; subst. eapply VRV; [reflexivity|]. intros w i X _. apply inert_good.
    assert (K : gv inert (sample_values v)) by (unfold sample_values; destruct v; gvs). eapply K; eauto.
  - inversion Hm; subst. eapply VRV; [reflexivity|]. intros w i X <-. pose proof (p_env _ P) as G. rewrite Forall_forall in G. pose proof (G v (nth_error_In _ _ E)) as Gv. pose proof (proj2 I) as V. rewrite Forall_forall in V.
    specialize (V v (nth_error_In _ _ E)). destruct v; cbn in C; try discriminate; cbn [hist_sample] in X.
    + unfold bind, load in X. destruct (nth_error (heap (fst st)) l) as [y|] eqn:El; [|discriminate]. destruct y; try discriminate. inversion X; subst. destruct Gv as [_ Gv]. specialize (Gv _ El).
      pose proof (wf_obj _ (proj1 I) _ _ El) as O. cbn in O. destruct i; cbn in O; destruct O; try discriminate; cbn; auto; congruence.
    + unfold bind, load in X. destruct (nth_error (heap (fst st)) l) as [y|] eqn:El; [|discriminate]. destruct y; try discriminate. inversion X; subst. exact Logic.I.
    + inversion X; subst. exact Logic.I.
  - inversion Hm; subst. eapply UNIT; reflexivity.
  - inversion Hm; subst. eapply FRV; reflexivity.
  - inversion Hm; subst. eapply UNIT; reflexivity.
  - destruct (cls v); inversion Hm; subst; eapply FRV; reflexivity.
  - destruct (cls v); inversion Hm; subst; eapply UNIT; reflexivity.
  - inversion Hm; subst. unfold timer_begin in Hw. destruct v; try discriminate; inversion Hw; subst; constructor.
  - inversion Hm; subst. eapply UNIT; reflexivity.
  - inversion Hm; subst. eapply UNIT; reflexivity.
  - inversion Hm; subst. eapply UNIT; reflexivity.
  - inversion Hm; subst. eapply BRV; reflexivity.
  - inversion Hm; subst. eapply UNIT; reflexivity.
  - inversion Hm; subst. eapply UNIT; reflexivity.
  - (* Get *) inversion Hm; subst. eapply VRV; [reflexivity|]. intros w i X <-. destruct (env_reg st r0 v I E C) as (l & es & Bs & Es). rewrite (reg_get_std l v Bs), (std_get_ok l es (fst st) o Es) in X. injection X as _ <-.
    destruct (lookup (full v name) es) as [i|] eqn:Lk; [|exact Logic.I]. apply (GR l (full v name)). rewrite (registered_at _ _ es); auto.
  - (* GetOrRegister *) inversion Hm; subst. eapply VRV; [reflexivity|]. intros w i X <-. destruct (env_reg st r0 v I E C) as (l & es & Bs & Es). rewrite (reg_gor_std l v Bs), (std_gor_ok o (fst st) l es _ _ Es (pres_ret _ _ _)) in X.
    destruct (lookup (full v name) es) as [i'|] eqn:Lk; [injection X as _ <-; apply (GR l (full v name)); rewrite (registered_at _ _ es); auto|]. unfold ret in X. injection X as _ <-. apply GE. eapply nth_error_In; eauto.
  - (* GetOrRegister of a function *) destruct (ctor_of (snd st) k0) as [ct|] eqn:Ek; [|discriminate]. destruct (class_eqb (cls v) CReg) eqn:C; [apply class_eqb_eq in C|discriminate].
    inversion Hm; subst. eapply VRV; [reflexivity|]. intros w i X <-. destruct (env_reg st r0 v I E C) as (l & es & Bs & Es). rewrite (reg_gor_std l v Bs), (std_gor_ok o (fst st) l es _ _ Es (pres_mk mexp ct)) in X.
    destruct (lookup (full v name) es) as [i'|] eqn:Lk; [injection X as _ <-; apply (GR l (full v name)); rewrite (registered_at _ _ es); auto|].
    pose proof (pres_mk mexp ct o (fst st)) as F. destruct (construct mexp ct o (fst st)) as [w1 [i1|]] eqn:Ec; [|discriminate]. cbn [fst] in F. pose proof (construct_good ct o _ _ _ B (ctor_good _ _ _ P Ek) Ec) as G.
    injection X as <- <-. destruct (is_metric i1); auto. cbn [heap set_heap]. eapply good_same; [|exact G]. eapply set_reg_back. eapply fr_same; eauto.
  - inversion Hm; subst. eapply BRV; reflexivity.
  - inversion Hm; subst. unfold bind in Hw. destruct (std_register default_reg name v o (fst st)) as [w [[a|]|]]; inversion Hw; subst. constructor.
  - inversion Hm; subst. eapply UNIT; reflexivity.
  - inversion Hm; subst. eapply UNIT; reflexivity.
  - (* Each *) destruct (each_step mexp st r0 v o I E C) as (l & es & kvs & Bs & Es & S & K). rewrite S in H. cbn [snd] in H. inversion H; subst r. cbn [yields]. apply Forall_forall. intros i Hi. apply in_map_iff in Hi. destruct Hi as ([n i'] & <- & Hi). cbn [snd].
    subst kvs. apply filter_In in Hi. destruct Hi as [Hi _]. apply (Permutation_in _ (in_order_perm _ _)) in Hi. apply (GR l n). apply (in_registered _ _ es); auto. apply I.
  - inversion Hm; subst. eapply BRV; reflexivity.
  - inversion Hm; subst. eapply UNIT; reflexivity.
  - (* NewRegisteredX *) destruct (has_new_registered k0); [|discriminate]. destruct (ctor_of (snd st) k0) as [ct|] eqn:Ek; [|discriminate]. destruct (reg_arg (snd st) r0) as [v|] eqn:Er; [|discriminate].
    inversion Hm; subst. eapply VRV; [reflexivity|]. intros w i X <-. destruct (reg_arg_ok st r0 v I Er) as (l & es & Bs & Es & _). rewrite (new_registered_ok mexp o (fst st) v l es ct name Bs Es) in X.
    pose proof (pres_mk mexp ct o (fst st)) as F. destruct (construct mexp ct o (fst st)) as [w1 [i1|]] eqn:Ec; [|discriminate]. cbn [fst] in F. pose proof (construct_good ct o _ _ _ B (ctor_good _ _ _ P Ek) Ec) as G.
    injection X as <- <-. destruct (lookup (full v name) es); auto. destruct (is_metric i1); auto. cbn [heap set_heap]. eapply good_same; [|exact G]. eapply set_reg_back. eapply fr_same; eauto.
  - (* GetOrRegisterX *) destruct (ctor_of (snd st) (regk_new k0)) as [ct|] eqn:Ek; [|discriminate]. destruct (reg_arg (snd st) r0) as [v|] eqn:Er; [|discriminate].
    inversion Hm; subst. eapply VRV; [reflexivity|]. intros w i X <-. destruct (reg_arg_ok st r0 v I Er) as (l & es & Bs & Es & _). destruct (ctor_arg mexp st k0 ct o I Ek) as (w1 & i1 & Ec & Kc).
    rewrite (gor_x_ok mexp o (fst st) v l es k0 ct name w1 i1 Bs Es Ec Kc) in X.
    pose proof (pres_mk mexp ct o (fst st)) as F. rewrite Ec in F. cbn [fst] in F. pose proof (construct_good ct o _ _ _ B (ctor_good _ _ _ P Ek) Ec) as G.
    destruct (lookup (full v name) es) as [y|] eqn:Lk.
    + destruct (class_eqb (cls y) (regk_class k0)); [|discriminate]. injection X as _ <-. apply (GR l (full v name)). rewrite (registered_at _ _ es); auto.
    + injection X as <- <-. cbn [heap set_heap]. eapply good_same; [|exact G]. eapply set_reg_back. eapply fr_same; eauto.
Qed.
End Priv.
