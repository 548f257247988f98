(** Properties C31, C32, C37-C40: what registries contain.

    [registered w] (Spec/RegistrySpec.v) are the maps of all registries;
    [bound (registered w) v n] is what the registry value [v] (a StandardRegistry,
    or prefixed registries nested over one) has under the name [n], and
    [full v n] the name of that entry in the StandardRegistry [base v]. *)
From Coq Require Import ZArith List String Bool Lia Arith Permutation.
From Verif.Model Require Import GoInt GoFloat GoBase World.
From Verif.Spec Require Import RegistrySpec.
From Verif.Proofs Require Import WorldBase WorldStep WorldFrame RegistryProofs RegistryStep RegistryNew.
From Verif.Props Require Import SnapshotProps.
Import ListNotations.
Local Open Scope nat_scope.
Local Open Scope list_scope.

(** *** single calls *)
Section Calls.
Variable mexp : f64 -> f64.
Notation step := (step mexp).

Lemma registered_bound (st : state) v l es n : base v = Some l -> nth_error (heap (fst st)) l = Some (OReg es) ->
  bound (registered (fst st)) v n = lookup (full v n) es.
Proof. intros B E. unfold bound. rewrite B. apply registered_at; auto. Qed.

Lemma get_step (st : state) x v n o : inv st -> nth_error (snd st) x = Some v -> cls v = CReg ->
  let r := match bound (registered (fst st)) v n with Some i => i | None => VNil end in
  step st (OGet x n, o) = ((fst st, snd st ++ [r]), Some (Ok (RVal r))).
Proof.
  intros I E C r. destruct (env_reg st x v I E C) as (l & es & B & Es).
  unfold World.step. cbn [fst snd World.call]. unfold obind, only. rewrite E, C. cbn [class_eqb]. unfold v_rv, bind.
  rewrite (reg_get_std l v B), (std_get_ok l es (fst st) o Es). subst r. rewrite (registered_bound st v l es n B Es). reflexivity.
Qed.
Lemma register_step (st : state) x v n y i o : inv st -> nth_error (snd st) x = Some v -> cls v = CReg -> nth_error (snd st) y = Some i ->
  snd (step st (ORegister x n y, o)) =
    Some (Ok (RErr (match bound (registered (fst st)) v n with Some _ => Some (EDup (full v n)) | None => None end))) /\
  (bound (registered (fst st)) v n <> None \/ metric i = false -> fst (step st (ORegister x n y, o)) = st).
Proof.
  intros I E C Ei. rewrite metric_is. destruct (env_reg st x v I E C) as (l & es & B & Es).
  unfold World.step. cbn [fst snd World.call]. unfold obind, only. rewrite E, Ei, C. cbn [class_eqb]. unfold bind.
  rewrite (reg_register_std l v B), (std_register_ok l es (fst st) o Es). rewrite (registered_bound st v l es n B Es).
  destruct (lookup (full v n) es) as [z|]; cbn -[is_metric]; [split; auto; intros _; destruct st; cbn; now rewrite app_nil_r|].
  split; auto. intros [D|D]; [congruence|]. rewrite D. destruct st; cbn; now rewrite app_nil_r.
Qed.
Lemma gor_step (st : state) x v n y i o : inv st -> nth_error (snd st) x = Some v -> cls v = CReg -> nth_error (snd st) y = Some i ->
  snd (step st (OGetOrRegister x n y, o)) =
    Some (Ok (RVal (match bound (registered (fst st)) v n with Some i' => i' | None => i end))) /\
  (bound (registered (fst st)) v n <> None \/ metric i = false -> fst (fst (step st (OGetOrRegister x n y, o))) = fst st).
Proof.
  intros I E C Ei. rewrite metric_is. destruct (env_reg st x v I E C) as (l & es & B & Es).
  unfold World.step. cbn [fst snd World.call]. unfold obind, only. rewrite E, Ei, C. cbn [class_eqb]. unfold v_rv, bind.
  rewrite (reg_gor_std l v B), (std_gor_ok o (fst st) l es _ (ret i) Es (pres_ret none_tag true i)). rewrite (registered_bound st v l es n B Es).
  destruct (lookup (full v n) es) as [z|]; cbn -[is_metric]; [split; auto|].
  split; auto. intros [D|D]; [congruence|]. now rewrite D.
Qed.
Lemma gor_fn_step (st : state) x v n k o : inv st -> nth_error (snd st) x = Some v -> cls v = CReg -> ctor_of (snd st) k <> None ->
  match bound (registered (fst st)) v n with
  | Some i => step st (OGetOrRegisterFn x n k, o) = ((fst st, snd st ++ [i]), Some (Ok (RVal i)))
  | None => snd (step st (OGetOrRegisterFn x n k, o)) = snd (step st (ONew k, o))
  end.
Proof.
  intros I E C Ek. destruct (env_reg st x v I E C) as (l & es & B & Es). destruct (ctor_of (snd st) k) as [ct|] eqn:Ec; [|congruence].
  rewrite (registered_bound st v l es n B Es).
  unfold World.step. cbn [fst snd World.call]. unfold obind, only. rewrite E, Ec, C. cbn [class_eqb]. unfold v_rv, bind.
  rewrite (reg_gor_std l v B), (std_gor_ok o (fst st) l es _ (construct mexp ct) Es (pres_mk mexp ct)).
  destruct (lookup (full v n) es) as [z|]; auto. destruct (construct mexp ct o (fst st)) as [w1 [i|msg]]; reflexivity.
Qed.
Lemma each_step (st : state) x v o : inv st -> nth_error (snd st) x = Some v -> cls v = CReg ->
  exists l es kvs, base v = Some l /\ nth_error (heap (fst st)) l = Some (OReg es) /\
    step st (OEach x, o) = ((fst st, snd st ++ map snd kvs), Some (Ok (RPairs kvs))) /\
    kvs = filter (fun kv => String.prefix (full v "") (fst kv)) (in_order (o_order o) es).
Proof.
  intros I E C. destruct (env_reg st x v I E C) as (l & es & B & Es). exists l, es, (filter (fun kv => String.prefix (full v "") (fst kv)) (in_order (o_order o) es)).
  split; auto. split; auto. split; auto.
  unfold World.step. cbn [fst snd World.call]. unfold obind, only. rewrite E, C. cbn [class_eqb].
  assert (R : std_registered l o (fst st) = (fst st, Ok (in_order (o_order o) es))).
  { unfold std_registered, bind. rewrite (entries_get_ok l es (fst st) o Es). reflexivity. }
  unfold bind at 1. unfold reg_each. destruct v; cbn in C; try discriminate.
  - inversion B; subst. rewrite R. assert (F : filter (fun kv : string * val => String.prefix (full (VReg l) "") (fst kv)) (in_order (o_order o) es) = in_order (o_order o) es).
    { clear. induction (in_order (o_order o) es) as [|[k z] t IH]; cbn in *; auto. destruct k; cbn; f_equal; auto. }
    now rewrite F.
  - rewrite (find_prefix_spec _ _ B). unfold bind at 1. rewrite R. reflexivity.
Qed.
End Calls.

(** ** C31 *)
(** after any program, each call changes the maps as the finite-map
    specification [after] says: at most the named entry *)
Theorem C31_maps : forall mexp p c o, let st := reach mexp p in
  forall l n, registered (fst (fst (step mexp st (c, o)))) l n = after (snd st) c (snd (step mexp st (c, o))) (registered (fst st)) l n.
Proof. intros mexp p c o st l n. exact (refine mexp st c o (reach_inv mexp p) l n). Qed.

(** in particular no call affects any name except the one it is given, or, for
    UnregisterAll, those of that registry *)
Lemma untouched_names e c r m l n : ~ inserts e c l n -> ~ removes e c l n -> after e c r m l n = m l n.
Proof.
  intros NI NR.
  assert (A : forall v n' i, ~ (base v = Some l /\ full v n' = n) -> add m v n' i l n = m l n).
  { intros v n' i D. unfold add. destruct (base v) as [k|] eqn:B; auto. destruct (m k (full v n')); auto. destruct (metric i); auto.
    unfold put. destruct (Nat.eqb_spec l k) as [->|]; auto. destruct (String.eqb_spec n (full v n')) as [->|]; auto. exfalso. apply D. auto. }
  destruct c; cbn in *; auto; repeat match goal with |- context [nth_error e ?x] => destruct (nth_error e x) eqn:?; auto | |- context [reg_or_default e ?x] => destruct (reg_or_default e x) eqn:?; auto
    | |- context [match r with _ => _ end] => destruct r as [[[]|]|]; auto end; try (apply A; intros [B F]; apply NI; eauto; fail).
  - apply (A (VReg default_reg) name v). intros [B F]. apply NI. inversion B; subst. auto.
  - unfold drop. destruct (base v) as [k|] eqn:B; auto. unfold put. destruct (Nat.eqb_spec l k) as [->|]; auto. destruct (String.eqb_spec n (full v name)) as [->|]; auto.
    exfalso. apply NR. eauto.
  - unfold drop_all. destruct (base v) as [k|] eqn:B; auto. unfold clear. destruct (Nat.eqb_spec l k) as [->|]; auto. exfalso. apply NR. eauto.
Qed.
Theorem C31_others : forall mexp p c o l n, let st := reach mexp p in
  ~ inserts (snd st) c l n -> ~ removes (snd st) c l n ->
  registered (fst (fst (step mexp st (c, o)))) l n = registered (fst st) l n.
Proof. intros mexp p c o l n st. assert (I : inv st) by exact (reach_inv mexp p). clearbody st. intros NI NR. rewrite (refine mexp st c o I l n). apply untouched_names; auto. Qed.

(** Get *)
Theorem C31_get : forall mexp p x v n o, let st := reach mexp p in nth_error (snd st) x = Some v -> cls v = CReg ->
  step mexp st (OGet x n, o) =
    let r := match bound (registered (fst st)) v n with Some i => i | None => VNil end in
    ((fst st, snd st ++ [r]), Some (Ok (RVal r))).
Proof. intros mexp p x v n o st. assert (I : inv st) by exact (reach_inv mexp p). clearbody st. intros E C. exact (get_step mexp st x v n o I E C). Qed.

(** Register: nil and the name is bound to the metric, or DuplicateMetric with the
    (full) name and nothing changes *)
Theorem C31_register_free : forall mexp p x v n y i o, let st := reach mexp p in
  nth_error (snd st) x = Some v -> cls v = CReg -> nth_error (snd st) y = Some i -> metric i = true ->
  bound (registered (fst st)) v n = None ->
  snd (step mexp st (ORegister x n y, o)) = Some (Ok (RErr None)) /\
  bound (registered (fst (fst (step mexp st (ORegister x n y, o))))) v n = Some i.
Proof.
  intros mexp p x v n y i o st. assert (I : inv st) by exact (reach_inv mexp p). clearbody st. intros E C Ei Mi Bn.
  destruct (register_step mexp st x v n y i o I E C Ei) as [R _]. rewrite Bn in R. split; auto.
  unfold bound in *. destruct (base v) as [l|] eqn:B.
  - rewrite (refine mexp st (ORegister x n y) o I l (full v n)). cbn [after]. rewrite E, Ei. unfold add. rewrite B, Bn, Mi. unfold put. now rewrite Nat.eqb_refl, String.eqb_refl.
  - destruct (env_reg st x v I E C) as (l & es & B' & _). congruence.
Qed.
Theorem C31_register_taken : forall mexp p x v n y i i' o, let st := reach mexp p in
  nth_error (snd st) x = Some v -> cls v = CReg -> nth_error (snd st) y = Some i ->
  bound (registered (fst st)) v n = Some i' ->
  step mexp st (ORegister x n y, o) = (st, Some (Ok (RErr (Some (EDup (full v n)))))).
Proof.
  intros mexp p x v n y i i' o st. assert (I : inv st) by exact (reach_inv mexp p). clearbody st. intros E C Ei Bn.
  destruct (register_step mexp st x v n y i o I E C Ei) as [R S]. rewrite Bn in R, S. assert (N : Some i' <> None) by discriminate. specialize (S (or_introl N)).
  destruct (step mexp st (ORegister x n y, o)); cbn in *. congruence.
Qed.

(** Unregister and UnregisterAll *)
Theorem C31_unregister : forall mexp p x v n o, let st := reach mexp p in nth_error (snd st) x = Some v -> cls v = CReg ->
  snd (step mexp st (OUnregister x n, o)) = Some (Ok RUnit) /\
  let w' := fst (fst (step mexp st (OUnregister x n, o))) in
  bound (registered w') v n = None /\
  forall l m, base v <> Some l \/ m <> full v n -> registered w' l m = registered (fst st) l m.
Proof.
  intros mexp p x v n o st. assert (I : inv st) by exact (reach_inv mexp p). clearbody st. intros E C. destruct (env_reg st x v I E C) as (l & es & B & Es).
  split; [|split].
  - unfold World.step. cbn [fst snd World.call]. unfold obind, only. rewrite E, C. cbn [class_eqb]. unfold unit_rv, bind.
    rewrite (reg_unregister_std l v B). destruct (std_unregister_ok o (fst st) l es (full v n) (proj1 I) Es) as (w' & -> & _). reflexivity.
  - unfold bound. rewrite B. rewrite (refine mexp st (OUnregister x n) o I l (full v n)). cbn [after]. rewrite E. unfold drop. rewrite B. unfold put. now rewrite Nat.eqb_refl, String.eqb_refl.
  - intros l' m D. rewrite (refine mexp st (OUnregister x n) o I l' m). cbn [after]. rewrite E. unfold drop. rewrite B. unfold put.
    destruct (Nat.eqb_spec l' l) as [->|]; auto. destruct (String.eqb_spec m (full v n)) as [->|]; auto. exfalso. destruct D; congruence.
Qed.
Theorem C31_unregister_all : forall mexp p x v o, let st := reach mexp p in nth_error (snd st) x = Some v -> cls v = CReg ->
  snd (step mexp st (OUnregisterAll x, o)) = Some (Ok RUnit) /\
  let w' := fst (fst (step mexp st (OUnregisterAll x, o))) in
  (forall l n, base v = Some l -> registered w' l n = None) /\
  (forall l n, base v <> Some l -> registered w' l n = registered (fst st) l n).
Proof.
  intros mexp p x v o st. assert (I : inv st) by exact (reach_inv mexp p). clearbody st. intros E C. destruct (env_reg st x v I E C) as (l & es & B & Es).
  split.
  - unfold World.step. cbn [fst snd World.call]. unfold obind, only. rewrite E, C. cbn [class_eqb]. unfold unit_rv, bind.
    rewrite (reg_unregister_all_std l v B). destruct (std_unregister_all_ok o (fst st) l es (proj1 I) Es) as (w' & ks & -> & _). reflexivity.
  - intros w'. split; intros k n Bk; subst w'; rewrite (refine mexp st (OUnregisterAll x) o I k n); cbn [after]; rewrite E; unfold drop_all; rewrite B; unfold clear;
      destruct (Nat.eqb_spec k l); congruence.
Qed.

(** GetOrRegister, with a value or a constructor function *)
Theorem C31_get_or_register : forall mexp p x v n y i o, let st := reach mexp p in
  nth_error (snd st) x = Some v -> cls v = CReg -> nth_error (snd st) y = Some i ->
  let st1 := step mexp st (OGetOrRegister x n y, o) in
  match bound (registered (fst st)) v n with
  | Some i' => snd st1 = Some (Ok (RVal i')) /\ fst (fst st1) = fst st
  | None => snd st1 = Some (Ok (RVal i)) /\ (metric i = true -> bound (registered (fst (fst st1))) v n = Some i)
  end.
Proof.
  intros mexp p x v n y i o st. assert (I : inv st) by exact (reach_inv mexp p). clearbody st. intros E C Ei st1. destruct (gor_step mexp st x v n y i o I E C Ei) as [R S]. fold st1 in R, S.
  destruct (bound (registered (fst st)) v n) as [i'|] eqn:Bn.
  - split; auto. apply S. left. discriminate.
  - split; auto. intros Mi. unfold bound in *. destruct (base v) as [l|] eqn:B.
    + subst st1. rewrite (refine mexp st (OGetOrRegister x n y) o I l (full v n)). cbn [after]. rewrite E, R. unfold add. rewrite B, Bn, Mi. unfold put. now rewrite Nat.eqb_refl, String.eqb_refl.
    + destruct (env_reg st x v I E C) as (l & es & B' & _). congruence.
Qed.
Theorem C31_get_or_register_lazy : forall mexp p x v n k o, let st := reach mexp p in
  nth_error (snd st) x = Some v -> cls v = CReg -> ctor_of (snd st) k <> None ->
  let st1 := step mexp st (OGetOrRegisterFn x n k, o) in
  match bound (registered (fst st)) v n with
  | Some i => snd st1 = Some (Ok (RVal i)) /\ fst (fst st1) = fst st
  | None => snd st1 = snd (step mexp st (ONew k, o)) /\
      forall i, snd st1 = Some (Ok (RVal i)) -> metric i = true -> bound (registered (fst (fst st1))) v n = Some i
  end.
Proof.
  intros mexp p x v n k o st. assert (I : inv st) by exact (reach_inv mexp p). clearbody st. intros E C Ek st1. pose proof (gor_fn_step mexp st x v n k o I E C Ek) as R. fold st1 in R.
  destruct (bound (registered (fst st)) v n) as [i'|] eqn:Bn; [rewrite R; auto|].
  split; auto. intros i Ri Mi. unfold bound in *. destruct (base v) as [l|] eqn:B.
  + subst st1. rewrite (refine mexp st (OGetOrRegisterFn x n k) o I l (full v n)). cbn [after]. rewrite E, Ri. unfold add. rewrite B, Bn, Mi. unfold put. now rewrite Nat.eqb_refl, String.eqb_refl.
  + destruct (env_reg st x v I E C) as (l & es & B' & _). congruence.
Qed.

(** Each: every entry once, in the order the map iteration chose, and nothing else *)
Lemma prefix_nil s : String.prefix "" s = true.
Proof. destruct s; reflexivity. Qed.
Lemma wf_keys w l es : wf w -> nth_error (heap w) l = Some (OReg es) -> NoDup (map fst es).
Proof. intros W E. pose proof (wf_obj _ W _ _ E) as O. cbn in O. tauto. Qed.
Lemma in_registered w l es n v : wf w -> nth_error (heap w) l = Some (OReg es) -> (In (n, v) es <-> registered w l n = Some v).
Proof. intros W E. rewrite (registered_at w l es n E). split; [apply In_lookup; eapply wf_keys; eauto|apply lookup_In]. Qed.
Lemma each_facts mexp (st : state) x v o : inv st -> nth_error (snd st) x = Some v -> cls v = CReg ->
  exists l kvs, base v = Some l /\
    step mexp st (OEach x, o) = ((fst st, snd st ++ map snd kvs), Some (Ok (RPairs kvs))) /\
    NoDup (map fst kvs) /\
    forall n i, In (n, i) kvs <-> registered (fst st) l n = Some i /\ String.prefix (full v "") n = true.
Proof.
  intros I E C. destruct (each_step mexp st x v o I E C) as (l & es & kvs & B & Es & S & K). exists l, kvs. split; auto. split; auto.
  assert (P : Permutation (in_order (o_order o) es) es) by apply in_order_perm.
  split.
  - subst kvs. pose proof (wf_keys _ l es (proj1 I) Es) as N.
    assert (N' : NoDup (map fst (in_order (o_order o) es))) by (eapply Permutation_NoDup; [apply Permutation_map, Permutation_sym, P|auto]).
    revert N'. clear. induction (in_order (o_order o) es) as [|[k z] t IH]; cbn [map filter]; auto. intros N. inversion N; subst. destruct (String.prefix _ _); cbn; auto.
    constructor; auto. intros H. apply H1. apply in_map_iff in H. destruct H as (y & <- & Hy). apply filter_In in Hy. now apply in_map.
  - intros n i. subst kvs. rewrite filter_In. cbn [fst]. rewrite <- (in_registered _ l es n i (proj1 I) Es).
    split; intros [H1 H2]; split; auto; [|apply Permutation_sym in P]; eapply Permutation_in; eauto.
Qed.
Theorem C31_each : forall mexp p x l o, let st := reach mexp p in nth_error (snd st) x = Some (VReg l) ->
  exists kvs, step mexp st (OEach x, o) = ((fst st, snd st ++ map snd kvs), Some (Ok (RPairs kvs))) /\
    NoDup (map fst kvs) /\ forall n i, In (n, i) kvs <-> registered (fst st) l n = Some i.
Proof.
  intros mexp p x l o st. assert (I : inv st) by exact (reach_inv mexp p). clearbody st. intros E.
  destruct (each_facts mexp st x (VReg l) o I E eq_refl) as (l' & kvs & B & S & N & K). inversion B; subst l'. exists kvs. split; auto. split; auto.
  intros n i. rewrite K. cbn [full]. change (full (VReg l) "") with ""%string. rewrite prefix_nil. tauto.
Qed.

(** *** histories: an entry is there exactly if a call put it there when the name
    was free and nothing has taken the name out since *)
Lemma removes_dec e c l n : removes e c l n \/ ~ removes e c l n.
Proof.
  destruct c; cbn; auto.
  - destruct (nth_error e r) as [v|]; [|right; intros (u & H & _); discriminate].
    destruct (base v) as [k|] eqn:B; [|right; intros (u & H & H2 & _); congruence].
    destruct (Nat.eq_dec k l) as [->|D]; [|right; intros (u & H & H2 & _); congruence].
    destruct (string_dec (full v name) n) as [F|D]; [left; eauto|right; intros (u & H & H2 & H3); congruence].
  - destruct (nth_error e r) as [v|]; [|right; intros (u & H & _); discriminate].
    destruct (base v) as [k|] eqn:B; [|right; intros (u & H & H2); congruence].
    destruct (Nat.eq_dec k l) as [->|D]; [left; eauto|right; intros (u & H & H2); congruence].
Qed.
Lemma after_removed e c r m l n : removes e c l n -> after e c r m l n = None.
Proof.
  destruct c; cbn; try tauto.
  - intros (v & -> & B & F). unfold drop. rewrite B, F. unfold put. now rewrite Nat.eqb_refl, String.eqb_refl.
  - intros (v & -> & B). unfold drop_all. rewrite B. unfold clear. now rewrite Nat.eqb_refl.
Qed.
Lemma add_bound m v n i l k x : m l k = Some x -> add m v n i l k = Some x.
Proof.
  intros H. unfold add. destruct (base v) as [b|]; auto. destruct (m b (full v n)) eqn:M; auto. destruct (metric i); auto.
  unfold put. destruct (Nat.eqb_spec l b) as [->|]; auto. destruct (String.eqb_spec k (full v n)) as [->|]; auto. congruence.
Qed.
Lemma after_kept e c r m l n v : m l n = Some v -> ~ removes e c l n -> after e c r m l n = Some v.
Proof.
  intros H N. destruct c; cbn in N |- *; auto; repeat match goal with |- context [nth_error e ?x] => destruct (nth_error e x) eqn:?; auto | |- context [reg_or_default e ?x] => destruct (reg_or_default e x) eqn:?; auto
    | |- context [match r with _ => _ end] => destruct r as [[[]|]|]; auto end; try (apply add_bound; auto; fail).
  - apply (add_bound m (VReg default_reg)); auto.
  - unfold drop. destruct (base v0) as [k|] eqn:B; auto. unfold put. destruct (Nat.eqb_spec l k) as [->|]; auto. destruct (String.eqb_spec n (full v0 name)) as [->|]; auto. exfalso. apply N. eauto.
  - unfold drop_all. destruct (base v0) as [k|] eqn:B; auto. unfold clear. destruct (Nat.eqb_spec l k) as [->|]; auto. exfalso. apply N. eauto.
Qed.
Lemma add_new m v n i l k x : m l k = None -> (add m v n i l k = Some x <-> (base v = Some l /\ full v n = k) /\ i = x /\ metric x = true).
Proof.
  intros H. unfold add. destruct (base v) as [b|]; [|rewrite H; split; [discriminate|intros [[? _] _]; discriminate]].
  destruct (Nat.eq_dec b l) as [->|D].
  - destruct (string_dec (full v n) k) as [<-|D].
    + rewrite H. destruct (metric i) eqn:M; [unfold put; rewrite Nat.eqb_refl, String.eqb_refl; split; [intros [= <-]; auto|intros (_ & -> & _); auto]|].
      rewrite H. split; [discriminate|]. intros (_ & -> & ?). congruence.
    + split; [|intros ((_ & ?) & _); congruence]. destruct (m l (full v n)); [congruence|]. destruct (metric i); [|congruence]. unfold put.
      rewrite Nat.eqb_refl. destruct (String.eqb_spec k (full v n)); cbn [andb]; congruence.
  - split; [|intros ((? & _) & _); congruence]. destruct (m b (full v n)); [congruence|]. destruct (metric i); [|congruence]. unfold put.
    destruct (Nat.eqb_spec l b); [congruence|]. cbn. congruence.
Qed.
Lemma after_new e c r m l n v : m l n = None -> (after e c r m l n = Some v <-> inserts e c l n /\ offers e c r v /\ metric v = true).
Proof.
  intros H.
  destruct c; try (cbn [after inserts]; split; [congruence|tauto]).
  - (* GetOrRegister *)
    cbn. destruct (nth_error e r0) as [u|]; [|split; [congruence|intros ((? & ? & _) & _); discriminate]].
    destruct r as [[[]|]|]; try (split; [congruence|intros (_ & ? & _); discriminate]). rewrite add_new by auto.
    split; [intros ((? & ?) & -> & ?); eauto 8|]. intros ((u' & [= <-] & ? & ?) & [= ->] & ?). auto.
  - (* GetOrRegister with a function *)
    cbn. destruct (nth_error e r0) as [u|]; [|split; [congruence|intros ((? & ? & _) & _); discriminate]].
    destruct r as [[[]|]|]; try (split; [congruence|intros (_ & ? & _); discriminate]). rewrite add_new by auto.
    split; [intros ((? & ?) & -> & ?); eauto 8|]. intros ((u' & [= <-] & ? & ?) & [= ->] & ?). auto.
  - (* Register *)
    cbn. destruct (nth_error e r0) as [u|]; [|split; [congruence|intros ((? & ? & _) & _); discriminate]].
    destruct (nth_error e x) as [i|]; [|split; [congruence|intros (_ & ? & _); discriminate]]. rewrite add_new by auto.
    split; [intros ((? & ?) & -> & ?); eauto 8|]. intros ((u' & [= <-] & ? & ?) & [= ->] & ?). auto.
  - (* MustRegister *)
    cbn [after inserts offers]. destruct (nth_error e x) as [i|]; [|split; [congruence|intros (_ & ? & _); discriminate]]. rewrite add_new by auto.
    split; [intros (([= ->] & ?) & -> & ?); auto|]. intros ((-> & ?) & [= ->] & ?). auto.
  - cbn [after removes inserts offers]. split; [|tauto]. destruct (nth_error e r0); [|congruence]. unfold drop. destruct (base v0); [|congruence]. unfold put. destruct (_ && _); congruence.
  - cbn [after removes inserts offers]. split; [|tauto]. destruct (nth_error e r0); [|congruence]. unfold drop_all. destruct (base v0); [|congruence]. unfold clear. destruct (Nat.eqb _ _); congruence.
  - (* NewRegisteredX *)
    cbn [after inserts offers]. destruct (reg_or_default e r0) as [u|]; [|split; [congruence|intros ((? & ? & _) & _); discriminate]].
    destruct r as [[[]|]|]; try (split; [congruence|intros (_ & ? & _); discriminate]). rewrite add_new by auto.
    split; [intros ((? & ?) & -> & ?); eauto 8|]. intros ((u' & [= <-] & ? & ?) & [= ->] & ?). auto.
  - (* GetOrRegisterX *)
    cbn [after inserts offers]. destruct (reg_or_default e r0) as [u|]; [|split; [congruence|intros ((? & ? & _) & _); discriminate]].
    destruct r as [[[]|]|]; try (split; [congruence|intros (_ & ? & _); discriminate]). rewrite add_new by auto.
    split; [intros ((? & ?) & -> & ?); eauto 8|]. intros ((u' & [= <-] & ? & ?) & [= ->] & ?). auto.
Qed.
Lemma reach_app mexp p q : reach mexp (p ++ q) = run mexp (reach mexp p) q.
Proof. unfold reach, run. apply fold_left_app. Qed.
Lemma reach_snoc mexp p c o : reach mexp (p ++ [(c, o)]) = fst (step mexp (reach mexp p) (c, o)).
Proof. rewrite reach_app. reflexivity. Qed.

Lemma app_split {A} (p q : list A) a p1 b p2 : p ++ [a] = p1 ++ b :: p2 ->
  (p2 = [] /\ p = p1 /\ a = b) \/ exists p2', p2 = p2' ++ [a] /\ p = p1 ++ b :: p2'.
Proof.
  intros H. destruct (exists_last (l := b :: p2) ltac:(discriminate)) as (l & z & E). destruct p2 as [|c p2].
  - apply app_inj_tail in H. destruct H; auto.
  - right. destruct (exists_last (l := c :: p2) ltac:(discriminate)) as (l' & z' & E'). rewrite E' in *. exists l'.
    change (p1 ++ b :: l' ++ [z']) with (p1 ++ (b :: l') ++ [z']) in H. rewrite app_assoc in H. apply app_inj_tail in H. destruct H; subst. auto.
Qed.
Theorem C31_history : forall mexp p l n v,
  registered (fst (reach mexp p)) l n = Some v <->
  exists p1 c o p2, p = p1 ++ (c, o) :: p2 /\
    registered (fst (reach mexp p1)) l n = None /\
    inserts (snd (reach mexp p1)) c l n /\ offers (snd (reach mexp p1)) c (snd (step mexp (reach mexp p1) (c, o))) v /\ metric v = true /\
    forall q1 c' o' q2, p2 = q1 ++ (c', o') :: q2 -> ~ removes (snd (reach mexp (p1 ++ (c, o) :: q1))) c' l n.
Proof.
  intros mexp p l n v. induction p as [|[c o] p IH] using rev_ind.
  - split; [|intros ([|] & c & o & p2 & H & _); discriminate]. unfold reach, run. cbn [fold_left]. unfold registered, state_init. cbn [fst].
    destruct l as [|[|l]]; cbn; try discriminate. destruct l; discriminate.
  - rewrite reach_snoc, (C31_maps mexp p c o l n). set (r := snd (step mexp (reach mexp p) (c, o))).
    destruct (removes_dec (snd (reach mexp p)) c l n) as [R|R].
    + rewrite after_removed by auto. split; [discriminate|]. intros (p1 & c1 & o1 & p2 & E & F & Hi & Ho & Hm & K).
      destruct (app_split p [] _ _ _ _ E) as [(-> & -> & [= -> ->])|(p2' & -> & ->)].
      * exfalso. destruct c1; cbn in R, Hi; auto.
      * exfalso. apply (K p2' c o [] eq_refl). exact R.
    + destruct (registered (fst (reach mexp p)) l n) as [y|] eqn:Y.
      * rewrite (after_kept _ c r _ l n y Y R). rewrite IH. split.
        -- intros (p1 & c1 & o1 & p2 & -> & F & Hi & Ho & Hm & K). exists p1, c1, o1, (p2 ++ [(c, o)]). split; [now rewrite <- app_assoc|]. repeat (split; [assumption|]).
           intros q1 c' o' q2 Eq. destruct (app_split p2 [] _ _ _ _ Eq) as [(_ & <- & [= <- <-])|(q2' & _ & Eq')]; [exact R|]. eapply K; eauto.
        -- intros (p1 & c1 & o1 & p2 & E & F & Hi & Ho & Hm & K). destruct (app_split p [] _ _ _ _ E) as [(-> & -> & [= -> ->])|(p2' & -> & ->)]; [congruence|].
           exists p1, c1, o1, p2'. split; auto. repeat (split; [assumption|]). intros q1 c' o' q2 ->. apply (K q1 c' o' (q2 ++ [(c, o)])). now rewrite <- app_assoc.
      * rewrite (after_new _ c r _ l n v Y). split.
        -- intros (Hi & Ho & Hm). exists p, c, o, []. split; auto. repeat (split; [assumption|]). intros [|? ?] c' o' q2 H; discriminate.
        -- intros (p1 & c1 & o1 & p2 & E & F & Hi & Ho & Hm & K). destruct (app_split p [] _ _ _ _ E) as [(-> & -> & [= -> ->])|(p2' & -> & ->)]; [auto|].
           exfalso. assert (Q : @None val = Some v); [|discriminate]. apply IH. exists p1, c1, o1, p2'. split; auto. repeat (split; [assumption|]).
           intros q1 c' o' q2 ->. apply (K q1 c' o' (q2 ++ [(c, o)])). now rewrite <- app_assoc.
Qed.

(** a registry with a counter under "a" and a gauge under "b": position 0 is
    DefaultRegistry, 1 the counter, 2 the gauge *)
Definition two : list (op * orc) :=
  [(ONew NCounter, orc0); (ONew NGauge, orc0); (ORegister 0 "a" 1, orc0); (ORegister 0 "b" 2, orc0)].
Example C31_example : forall mexp, let st := reach mexp two in
  (nth_error (snd st) 0 = Some (VReg 0) /\ nth_error (snd st) 1 = Some (VCounter 2) /\ nth_error (snd st) 2 = Some (VGauge 3)) /\
  bound (registered (fst st)) (VReg 0) "a" = Some (VCounter 2) /\ bound (registered (fst st)) (VReg 0) "b" = Some (VGauge 3) /\
  bound (registered (fst st)) (VReg 0) "A" = None /\ metric (VGauge 3) = true /\
  snd (step mexp st (ORegister 0 "a" 2, orc0)) = Some (Ok (RErr (Some (EDup "a")))) /\
  snd (step mexp st (OEach 0, orc0)) = Some (Ok (RPairs [("a"%string, VCounter 2); ("b"%string, VGauge 3)])) /\
  ~ inserts (snd st) (OUnregister 0 "a") 0 "b" /\ ~ removes (snd st) (OUnregister 0 "a") 0 "b" /\ removes (snd st) (OUnregister 0 "a") 0 "a".
Proof.
  intros mexp st. subst st. repeat match goal with |- _ /\ _ => split end; try reflexivity.
  - cbn. tauto.
  - cbn. intros (v & [= <-] & _ & H). discriminate H.
  - cbn. exists (VReg 0). auto.
Qed.

(** ** C32 *)
(** a value that is no metric: nil error on a free name, and nothing has changed *)
Theorem C32_register : forall mexp p x v n y i o o', let st := reach mexp p in
  nth_error (snd st) x = Some v -> cls v = CReg -> nth_error (snd st) y = Some i -> metric i = false ->
  bound (registered (fst st)) v n = None ->
  step mexp st (ORegister x n y, o) = (st, Some (Ok (RErr None))) /\
  snd (step mexp (fst (step mexp st (ORegister x n y, o))) (OGet x n, o')) = Some (Ok (RVal VNil)).
Proof.
  intros mexp p x v n y i o o' st. assert (I : inv st) by exact (reach_inv mexp p). clearbody st. intros E C Ei Mi Bn.
  destruct (register_step mexp st x v n y i o I E C Ei) as [R S]. rewrite Bn in R. specialize (S (or_intror Mi)).
  assert (X : step mexp st (ORegister x n y, o) = (st, Some (Ok (RErr None)))) by (destruct (step mexp st (ORegister x n y, o)); cbn in *; congruence).
  split; auto. rewrite X. cbn [fst]. rewrite (get_step mexp st x v n o' I E C), Bn. reflexivity.
Qed.
(** GetOrRegister gives it back, each time, without storing it *)
Theorem C32_get_or_register : forall mexp p x v n y i o, let st := reach mexp p in
  nth_error (snd st) x = Some v -> cls v = CReg -> nth_error (snd st) y = Some i -> metric i = false ->
  bound (registered (fst st)) v n = None ->
  step mexp st (OGetOrRegister x n y, o) = ((fst st, snd st ++ [i]), Some (Ok (RVal i))).
Proof.
  intros mexp p x v n y i o st. assert (I : inv st) by exact (reach_inv mexp p). clearbody st. intros E C Ei Mi Bn.
  destruct (gor_step mexp st x v n y i o I E C Ei) as [R S]. rewrite Bn in R. specialize (S (or_intror Mi)).
  revert R S. unfold World.step. destruct (World.call mexp (snd st) (fst (OGetOrRegister x n y, o))) as [m|]; cbn [fst snd]; [|discriminate].
  destruct (m o (fst st)) as [w' [r|msg]]; cbn [fst snd]; intros [= ->] <-. reflexivity.
Qed.
(** registries only ever contain metrics *)
Theorem C32_only_metrics : forall mexp p l n v, registered (fst (reach mexp p)) l n = Some v -> metric v = true.
Proof. intros mexp p l n v H. apply C31_history in H. destruct H as (? & ? & ? & ? & _ & _ & _ & _ & M & _). exact M. Qed.
(** a sample (sample.go) is not a metric; nor is a value of a foreign type *)
Example C32_example : forall mexp, let st := reach mexp [(ONew (NUniform 5), orc0); (OForeign 7, orc0)] in
  nth_error (snd st) 1 = Some (VUniform 3) /\ nth_error (snd st) 2 = Some (VOther 7) /\ metric (VUniform 3) = false /\ metric (VOther 7) = false /\
  bound (registered (fst st)) (VReg 0) "x" = None /\ metric (VMeter 9) = true.
Proof. intros mexp. repeat split. Qed.

(** ** C37 *)
Lemma reg_or_default_at mexp (st : state) r v k n o : inv st -> reg_or_default (snd st) r = Some v -> cls v = CReg ->
  has_new_registered k = true -> ctor_of (snd st) k <> None ->
  exists w' i, step mexp st (ONew k, o) = ((w', snd st ++ [i]), Some (Ok (RVal i))) /\
    snd (step mexp st (ONewRegistered k n r, o)) = Some (Ok (RVal i)) /\
    metric i = true /\
    (bound (registered (fst st)) v n <> None -> step mexp st (ONewRegistered k n r, o) = step mexp st (ONew k, o)).
Proof.
  intros I R C N Ek. destruct (ctor_of (snd st) k) as [ct|] eqn:Ec; [|congruence].
  assert (B : exists l es, base v = Some l /\ nth_error (heap (fst st)) l = Some (OReg es)).
  { destruct r as [x|]; cbn in R; [apply (env_reg st x v I R C)|]. inversion R; subst. destruct (default_reg_ok st I) as (es & E). exists default_reg, es. auto. }
  destruct B as (l & es & B & Es). assert (A : reg_arg (snd st) r = Some v) by (apply reg_or_default_arg; congruence).
  destruct (total_construct mexp (snd st) k ct ltac:(destruct k; auto; discriminate) Ec o (fst st)) as (w1 & i & K).
  assert (S1 : step mexp st (ONew k, o) = ((w1, snd st ++ [i]), Some (Ok (RVal i)))).
  { unfold World.step. cbn [fst snd World.call]. unfold obind. rewrite Ec. unfold v_rv, bind. rewrite K. reflexivity. }
  pose proof (new_registered_ok mexp o (fst st) v l es ct n B Es) as P. rewrite K in P.
  assert (S2 : step mexp st (ONewRegistered k n r, o) =
     ((match lookup (full v n) es with Some _ => w1 | None => if is_metric i then set_heap (lset (heap w1) l (OReg (es ++ [(full v n, i)]))) w1 else w1 end, snd st ++ [i]), Some (Ok (RVal i)))).
  { unfold World.step. cbn [fst snd World.call]. rewrite N. unfold obind. rewrite Ec, A. unfold v_rv, bind. rewrite P. reflexivity. }
  exists w1, i. split; auto. split; [now rewrite S2|]. split.
  - destruct (construct_cls mexp st k ct o w1 i I Ec K) as [G _]. unfold metric. rewrite G, (ctor_class_spec _ _ _ Ec). destruct k; try discriminate N; reflexivity.
  - intros D. rewrite (registered_bound st v l es n B Es) in D. rewrite S1, S2. destruct (lookup (full v n) es); congruence.
Qed.
(** the name is free: the new metric is registered *)
Theorem C37_free : forall mexp p k n r v o, let st := reach mexp p in
  has_new_registered k = true -> ctor_of (snd st) k <> None -> reg_or_default (snd st) r = Some v -> cls v = CReg ->
  bound (registered (fst st)) v n = None ->
  let st1 := step mexp st (ONewRegistered k n r, o) in
  exists i, snd st1 = Some (Ok (RVal i)) /\ snd (step mexp st (ONew k, o)) = Some (Ok (RVal i)) /\ bound (registered (fst (fst st1))) v n = Some i.
Proof.
  intros mexp p k n r v o st. assert (I : inv st) by exact (reach_inv mexp p). clearbody st. intros N Ek R C Bn st1.
  destruct (reg_or_default_at mexp st r v k n o I R C N Ek) as (w' & i & S1 & S2 & Mi & _). exists i. split; auto. split; [now rewrite S1|].
  subst st1. unfold bound in *. destruct (base v) as [l|] eqn:B; [|destruct v; discriminate || (exfalso; clear -B C R I)].
  - rewrite (refine mexp st (ONewRegistered k n r) o I l (full v n)). cbn [after]. rewrite R, S2. unfold add. rewrite B, Bn, Mi. unfold put. now rewrite Nat.eqb_refl, String.eqb_refl.
  - destruct r as [x|]; cbn in R; [|discriminate]. destruct (env_reg st x _ I R C) as (l & es & B' & _). congruence.
Qed.
(** the name is taken: the call is a mere constructor call; the registries are as
    before, the new metric is in none of them and is no value the program had *)
Theorem C37_taken : forall mexp p k n r v i' o, let st := reach mexp p in
  has_new_registered k = true -> ctor_of (snd st) k <> None -> reg_or_default (snd st) r = Some v -> cls v = CReg ->
  bound (registered (fst st)) v n = Some i' ->
  let st1 := step mexp st (ONewRegistered k n r, o) in
  st1 = step mexp st (ONew k, o) /\
  (forall l m, registered (fst (fst st1)) l m = registered (fst st) l m) /\
  exists i, snd st1 = Some (Ok (RVal i)) /\
    (usenil (fst st) = false -> (forall f, k <> NFuncGauge f) -> (forall f, k <> NFuncGaugeF f) ->
     ~ In i (snd st) /\ forall l m, registered (fst (fst st1)) l m <> Some i).
Proof.
  intros mexp p k n r v i' o st. assert (I : inv st) by exact (reach_inv mexp p). clearbody st. intros N Ek R C Bn st1.
  destruct (reg_or_default_at mexp st r v k n o I R C N Ek) as (w' & i & S1 & S2 & Mi & S). fold st1 in S2, S. rewrite Bn in S. specialize (S ltac:(discriminate)).
  assert (Q : forall l m, registered (fst (fst st1)) l m = registered (fst st) l m).
  { intros l m. rewrite S. rewrite (refine mexp st (ONew k) o I l m). reflexivity. }
  split; auto. split; auto. exists i. split; auto. intros U N1 N2.
  destruct (ctor_of (snd st) k) as [ct|] eqn:Ec; [|congruence].
  assert (K : construct mexp ct o (fst st) = (w', Ok i)).
  { revert S1. unfold World.step. cbn [fst snd World.call]. unfold obind. rewrite Ec. unfold v_rv, bind. destruct (construct mexp ct o (fst st)) as [w2 [j|msg]]; cbn; [|discriminate].
    intros H. inversion H; subst. reflexivity. }
  destruct (fresh_value mexp st k ct o w' i I U N1 N2 Ec K) as [F1 F2]. split; auto. intros l m. rewrite Q. apply F2.
Qed.
(** for a meter or timer, its meter joins the ticked ones *)
Theorem C37_leak : forall mexp p k n r v i' o, let st := reach mexp p in
  (k = NMeter \/ k = NTimer) -> reg_or_default (snd st) r = Some v -> cls v = CReg -> usenil (fst st) = false ->
  bound (registered (fst st)) v n = Some i' ->
  let st1 := step mexp st (ONewRegistered k n r, o) in
  exists i m, snd st1 = Some (Ok (RVal i)) /\ meter_of (fst (fst st1)) i = Some m /\ alive (fst (fst st1)) = alive (fst st) ++ [m] /\
    forall l k j, registered (fst (fst st1)) l k = Some j -> meter_of (fst (fst st1)) j <> Some m.
Proof.
  intros mexp p k n r v i' o st. assert (I : inv st) by exact (reach_inv mexp p). assert (HQ := C37_taken mexp p k n r v i' o). fold st in HQ. clearbody st. intros Hk R C U Bn st1.
  assert (N : has_new_registered k = true) by (destruct Hk; subst; reflexivity). assert (Ek : ctor_of (snd st) k <> None) by (destruct Hk; subst; discriminate).
  destruct (HQ N Ek R C Bn) as (S & Q & i & Si & _). fold st1 in S, Q, Si. clear HQ.
  destruct (ctor_of (snd st) k) as [ct|] eqn:Ec; [|congruence].
  assert (K : exists w', construct mexp ct o (fst st) = (w', Ok i) /\ fst (fst st1) = w').
  { revert Si. rewrite S. unfold World.step. cbn [fst snd World.call]. unfold obind. rewrite Ec. unfold v_rv, bind. destruct (construct mexp ct o (fst st)) as [w2 [j|msg]]; cbn; [|discriminate].
    intros [= ->]. eauto. }
  destruct K as (w' & K & W).
  destruct (ticked_value mexp st k ct o w' i U ltac:(destruct Hk; subst; reflexivity) Ec K) as (m & M1 & M2 & _ & M3).
  exists i, m. rewrite W in *. split; auto. split; auto. split; auto.
  intros l n' j Rj. rewrite Q in Rj.
  assert (V : vok (heap (fst st)) j).
  { unfold registered in Rj. destruct (nth_error (heap (fst st)) l) as [x|] eqn:El; [|discriminate]. destruct x; try discriminate.
    rewrite <- lookup_find in Rj. apply lookup_In in Rj. pose proof (wf_obj _ (proj1 I) _ _ El) as O. cbn in O. destruct O as [_ O]. rewrite Forall_forall in O. specialize (O _ Rj). cbn in O. tauto. }
  intros Hm. assert (m < List.length (heap (fst st))); [|lia].
  destruct j; cbn in Hm; try discriminate.
  - inversion Hm; subst. eapply tagat_lt; exact V.
  - destruct (nth_error (heap w') l0) as [x|] eqn:E0; [|discriminate]. destruct x; try discriminate. destruct m0; try discriminate. inversion Hm; subst l1.
    assert (E1 : nth_error (heap (fst st)) l0 = Some (OTimer h (VMeter m))).
    { pose proof (tagat_lt _ _ _ V) as L. pose proof (pres_mk mexp ct o (fst st)) as (_ & F & _). rewrite K in F. cbn [fst] in F. apply F; auto. }
    pose proof (wf_obj _ (proj1 I) _ _ E1) as O. cbn in O. destruct O as (_ & _ & O). eapply tagat_lt; exact O.
Qed.
Example C37_example : forall mexp, let st := reach mexp two in
  reg_or_default (snd st) None = Some (VReg 0) /\ bound (registered (fst st)) (VReg 0) "a" = Some (VCounter 2) /\ usenil (fst st) = false /\
  let st1 := step mexp st (ONewRegistered NCounter "a" None, orc0) in
  snd st1 = Some (Ok (RVal (VCounter 4))) /\
  alive (fst (fst (step mexp st (ONewRegistered NMeter "a" (Some 0), orc0)))) = [8].
Proof. intros mexp. repeat split. Qed.

(** ** C38 *)
Lemma gor_x_step mexp (st : state) k n r v o : inv st -> reg_or_default (snd st) r = Some v -> cls v = CReg -> ctor_of (snd st) (regk_new k) <> None ->
  exists i, snd (step mexp st (ONew (regk_new k), o)) = Some (Ok (RVal i)) /\ metric i = true /\
  snd (step mexp st (OGetOrRegisterX k n r, o)) =
    match bound (registered (fst st)) v n with
    | Some y => if class_eqb (cls y) (regk_class k) then Some (Ok (RVal y)) else Some (Panic msg_type)
    | None => Some (Ok (RVal i))
    end.
Proof.
  intros I R C Ek. destruct (ctor_of (snd st) (regk_new k)) as [ct|] eqn:Ec; [|congruence].
  assert (B : exists l es, base v = Some l /\ nth_error (heap (fst st)) l = Some (OReg es)).
  { destruct r as [x|]; cbn in R; [apply (env_reg st x v I R C)|]. inversion R; subst. destruct (default_reg_ok st I) as (es & E). exists default_reg, es. auto. }
  destruct B as (l & es & B & Es). assert (A : reg_arg (snd st) r = Some v) by (apply reg_or_default_arg; congruence).
  destruct (ctor_arg mexp st k ct o I Ec) as (w1 & i & K & Ci).
  exists i. split; [|split].
  - unfold World.step. cbn [fst snd World.call]. unfold obind. rewrite Ec. unfold v_rv, bind. rewrite K. reflexivity.
  - rewrite metric_is. eapply regk_metric; eauto.
  - rewrite (registered_bound st v l es n B Es). unfold World.step. cbn [fst snd World.call]. unfold obind. rewrite Ec, A. unfold v_rv, bind.
    rewrite (gor_x_ok mexp o (fst st) v l es k ct n w1 i B Es K Ci). destruct (lookup (full v n) es) as [y|]; [|reflexivity]. destruct (class_eqb (cls y) (regk_class k)); reflexivity.
Qed.
(** the name is taken by the right kind: that metric, and the maps stay *)
Theorem C38_found : forall mexp p k n r v y o, let st := reach mexp p in
  ctor_of (snd st) (regk_new k) <> None -> reg_or_default (snd st) r = Some v -> cls v = CReg ->
  bound (registered (fst st)) v n = Some y -> cls y = regk_class k ->
  let st1 := step mexp st (OGetOrRegisterX k n r, o) in
  snd st1 = Some (Ok (RVal y)) /\ forall l m, registered (fst (fst st1)) l m = registered (fst st) l m.
Proof.
  intros mexp p k n r v y o st. assert (I : inv st) by exact (reach_inv mexp p). clearbody st. intros Ek R C Bn Cy st1.
  destruct (gor_x_step mexp st k n r v o I R C Ek) as (i & _ & _ & S). fold st1 in S. rewrite Bn, Cy, class_eqb_refl in S. split; auto.
  intros l m. subst st1. rewrite (refine mexp st (OGetOrRegisterX k n r) o I l m). cbn [after]. rewrite R, S. unfold add. unfold bound in Bn. destruct (base v); [|discriminate]. now rewrite Bn.
Qed.
(** free: a new one of that kind (what the constructor returns), now registered *)
Theorem C38_free : forall mexp p k n r v o, let st := reach mexp p in
  ctor_of (snd st) (regk_new k) <> None -> reg_or_default (snd st) r = Some v -> cls v = CReg ->
  bound (registered (fst st)) v n = None ->
  let st1 := step mexp st (OGetOrRegisterX k n r, o) in
  exists i, snd st1 = Some (Ok (RVal i)) /\ snd (step mexp st (ONew (regk_new k), o)) = Some (Ok (RVal i)) /\
    bound (registered (fst (fst st1))) v n = Some i.
Proof.
  intros mexp p k n r v o st. assert (I : inv st) by exact (reach_inv mexp p). clearbody st. intros Ek R C Bn st1.
  destruct (gor_x_step mexp st k n r v o I R C Ek) as (i & S0 & Mi & S). fold st1 in S. rewrite Bn in S. exists i. split; auto. split; auto.
  unfold bound in *. destruct (base v) as [l|] eqn:B.
  - subst st1. rewrite (refine mexp st (OGetOrRegisterX k n r) o I l (full v n)). cbn [after]. rewrite R, S. unfold add. rewrite B, Bn, Mi. unfold put. now rewrite Nat.eqb_refl, String.eqb_refl.
  - destruct r as [x|]; cbn in R; [|inversion R; subst; discriminate]. destruct (env_reg st x _ I R C) as (l & es & B' & _). congruence.
Qed.
(** it panics exactly if the name holds a metric of another kind, and then the maps stay *)
Theorem C38_panics : forall mexp p k n r v o, let st := reach mexp p in
  ctor_of (snd st) (regk_new k) <> None -> reg_or_default (snd st) r = Some v -> cls v = CReg ->
  let st1 := step mexp st (OGetOrRegisterX k n r, o) in
  ((exists msg, snd st1 = Some (Panic msg)) <-> exists y, bound (registered (fst st)) v n = Some y /\ cls y <> regk_class k) /\
  ((exists msg, snd st1 = Some (Panic msg)) -> forall l m, registered (fst (fst st1)) l m = registered (fst st) l m).
Proof.
  intros mexp p k n r v o st. assert (I : inv st) by exact (reach_inv mexp p). clearbody st. intros Ek R C st1.
  destruct (gor_x_step mexp st k n r v o I R C Ek) as (i & _ & _ & S). fold st1 in S. split.
  - rewrite S. destruct (bound (registered (fst st)) v n) as [y|].
    + destruct (class_eqb (cls y) (regk_class k)) eqn:K; split.
      * intros (msg & H). discriminate.
      * apply class_eqb_eq in K. intros (y' & [= <-] & D). congruence.
      * intros _. exists y. split; auto. intros E. rewrite E, class_eqb_refl in K. discriminate.
      * intros _. eauto.
    + split; [intros (msg & H); discriminate|intros (y & H & _); discriminate].
  - intros (msg & H) l m. subst st1. rewrite (refine mexp st (OGetOrRegisterX k n r) o I l m). cbn [after]. rewrite R, H. reflexivity.
Qed.
Example C38_example : forall mexp, let st := reach mexp two in
  bound (registered (fst st)) (VReg 0) "a" = Some (VCounter 2) /\ regk_class GCounter = cls (VCounter 2) /\
  snd (step mexp st (OGetOrRegisterX GMeter "a" None, orc0)) = Some (Panic msg_type) /\
  snd (step mexp st (OGetOrRegisterX GCounter "a" (Some 0), orc0)) = Some (Ok (RVal (VCounter 2))) /\
  snd (step mexp st (OGetOrRegisterX GTimer "t" None, orc0)) = Some (Ok (RVal (VTimer 11))).
Proof. intros mexp. repeat split. Qed.

(** ** C39 *)
(** the prefixes of a registry: none for a StandardRegistry; a child's own prefix
    comes after its parent's *)
Theorem C39_names : forall mexp (st : state) x v pre o, nth_error (snd st) x = Some v -> cls v = CReg ->
  exists c, step mexp st (ONewPrefixedChild x pre, o) = ((fst st, snd st ++ [c]), Some (Ok (RVal c))) /\ cls c = CReg /\
    base c = base v /\ forall n, full c n = full v (pre ++ n).
Proof.
  intros mexp st x v pre o E C. exists (VPref v pre). unfold World.step. cbn [fst snd World.call]. unfold arg. rewrite E, C. cbn [obind]. split; [reflexivity|]. split; [reflexivity|].
  split; [reflexivity|]. intros n. apply full_pref.
Qed.
(** NewPrefixedRegistry makes a new, empty StandardRegistry under it *)
Theorem C39_new : forall mexp p pre o, let st := reach mexp p in
  exists l, step mexp st (ONewPrefixed pre, o) = ((MkWorld (heap (fst st) ++ [OReg []]) (alive (fst st)) (ticking (fst st)) (usenil (fst st)), snd st ++ [VPref (VReg l) pre]), Some (Ok (RVal (VPref (VReg l) pre)))) /\
    (forall n, full (VPref (VReg l) pre) n = (pre ++ n)%string) /\ base (VPref (VReg l) pre) = Some l /\
    nth_error (heap (fst st)) l = None /\ forall n, registered (fst (fst (step mexp st (ONewPrefixed pre, o)))) l n = None.
Proof.
  intros mexp p pre o st. clearbody st. exists (List.length (heap (fst st))). split; [reflexivity|]. split; [intros n; apply full_pref|]. split; [reflexivity|].
  split; [apply nth_error_None; lia|]. intros n. unfold World.step. cbn [fst snd World.call]. unfold v_rv, bind, alloc, ret. cbn [fst snd]. unfold registered. cbn [heap set_heap].
  rewrite nth_error_app2, Nat.sub_diag by lia. reflexivity.
Qed.
(** every call on names is the same call on the StandardRegistry with the full name *)
Theorem C39_same : forall mexp (st : state) x v y l n o, nth_error (snd st) x = Some v -> base v = Some l -> nth_error (snd st) y = Some (VReg l) ->
  step mexp st (OGet x n, o) = step mexp st (OGet y (full v n), o) /\
  (forall i, step mexp st (OGetOrRegister x n i, o) = step mexp st (OGetOrRegister y (full v n) i, o)) /\
  (forall k, step mexp st (OGetOrRegisterFn x n k, o) = step mexp st (OGetOrRegisterFn y (full v n) k, o)) /\
  (forall i, step mexp st (ORegister x n i, o) = step mexp st (ORegister y (full v n) i, o)) /\
  step mexp st (OUnregister x n, o) = step mexp st (OUnregister y (full v n), o) /\
  (forall k, step mexp st (ONewRegistered k n (Some x), o) = step mexp st (ONewRegistered k (full v n) (Some y), o)) /\
  (forall k, step mexp st (OGetOrRegisterX k n (Some x), o) = step mexp st (OGetOrRegisterX k (full v n) (Some y), o)).
Proof.
  intros mexp st x v y l n o E B Ey. pose proof (base_cls _ _ B) as C.
  assert (G : call mexp (snd st) (OGet x n) = call mexp (snd st) (OGet y (full v n))).
  { cbn [World.call]. unfold obind, only. rewrite E, Ey, C. cbn [cls class_eqb]. now rewrite (reg_get_std l v B). }
  assert (A : arg (snd st) CReg x = Some v) by (unfold arg; rewrite E, C; auto).
  assert (Ay : arg (snd st) CReg y = Some (VReg l)) by (unfold arg; rewrite Ey; auto).
  assert (K : forall c c', call mexp (snd st) c = call mexp (snd st) c' -> step mexp st (c, o) = step mexp st (c', o)) by (intros c c' H; unfold World.step; cbn [fst snd]; now rewrite H).
  split; [apply K, G|]. split; [|split; [|split; [|split; [|split]]]].
  - intros i. apply K. cbn [World.call]. unfold obind, only. rewrite E, Ey, C. cbn [cls class_eqb]. destruct (nth_error (snd st) i); auto. now rewrite (reg_gor_std l v B).
  - intros k. apply K. cbn [World.call]. unfold obind, only. rewrite E, Ey, C. cbn [cls class_eqb]. destruct (ctor_of (snd st) k); auto. now rewrite (reg_gor_std l v B).
  - intros i. apply K. cbn [World.call]. unfold obind, only. rewrite E, Ey, C. cbn [cls class_eqb]. destruct (nth_error (snd st) i); auto. now rewrite (reg_register_std l v B).
  - apply K. cbn [World.call]. unfold obind, only. rewrite E, Ey, C. cbn [cls class_eqb]. now rewrite (reg_unregister_std l v B).
  - intros k. unfold World.step. cbn [fst snd World.call reg_arg]. unfold obind. rewrite A, Ay. destruct (has_new_registered k); auto. destruct (ctor_of (snd st) k); auto.
    unfold v_rv, new_registered. unfold bind. destruct (construct mexp c o (fst st)) as [w' [i|msg]]; auto. now rewrite (reg_register_std l v B).
  - intros k. unfold World.step. cbn [fst snd World.call reg_arg]. unfold obind. rewrite A, Ay. destruct (ctor_of (snd st) (regk_new k)); auto.
    unfold v_rv, get_or_register_x. destruct k; try (now rewrite (reg_gor_std l v B)). unfold bind. destruct (construct mexp c o (fst st)) as [w' [i|msg]]; auto. now rewrite (reg_gor_std l v B).
Qed.
(** Each visits, once each, the base registry's entries whose names start with the
    concatenated prefixes *)
Lemma prefix_iff a s : String.prefix a s = true <-> exists t, s = (a ++ t)%string.
Proof.
  revert s. induction a as [|c a IH]; intros s.
  - rewrite prefix_nil. split; [intros _; exists s; reflexivity|auto].
  - destruct s as [|d s]; [split; [discriminate|intros (t & H); discriminate]|].
    change (String.prefix (String c a) (String d s)) with (if Ascii.ascii_dec c d then String.prefix a s else false). destruct (Ascii.ascii_dec c d) as [->|D].
    + rewrite IH. cbn [append]. split; intros (t & H); exists t; congruence.
    + split; [discriminate|]. cbn [append]. intros (t & H). congruence.
Qed.
Theorem C39_each : forall mexp p x v o, let st := reach mexp p in nth_error (snd st) x = Some v -> cls v = CReg ->
  exists l kvs, base v = Some l /\
    step mexp st (OEach x, o) = ((fst st, snd st ++ map snd kvs), Some (Ok (RPairs kvs))) /\
    NoDup (map fst kvs) /\
    forall n i, In (n, i) kvs <-> registered (fst st) l n = Some i /\ exists t, n = (String.concat "" (prefixes v) ++ t)%string.
Proof.
  intros mexp p x v o st. assert (I : inv st) by exact (reach_inv mexp p). clearbody st. intros E C.
  destruct (each_facts mexp st x v o I E C) as (l & kvs & B & S & N & K). exists l, kvs. repeat (split; [assumption|]). intros n i. rewrite K, prefix_iff.
  assert (F : full v "" = String.concat "" (prefixes v)).
  { unfold full. rewrite concat_app. cbn. induction (String.concat "" (prefixes v)); cbn; congruence. }
  now rewrite F.
Qed.
(** three levels: names under "x." + "y." in DefaultRegistry *)
Definition nested : list (op * orc) :=
  [(ONewPrefixedChild 0 "x.", orc0); (ONewPrefixedChild 1 "y.", orc0); (ONew NCounter, orc0); (ORegister 2 "c" 3, orc0); (ORegister 0 "z" 3, orc0)].
Example C39_example : forall mexp, let st := reach mexp nested in
  nth_error (snd st) 2 = Some (VPref (VPref (VReg 0) "x.") "y.") /\ full (VPref (VPref (VReg 0) "x.") "y.") "c" = "x.y.c"%string /\
  registered (fst st) 0 "x.y.c" = Some (VCounter 2) /\
  snd (step mexp st (OEach 2, orc0)) = Some (Ok (RPairs [("x.y.c"%string, VCounter 2)])).
Proof. intros mexp. repeat split. Qed.

(** ** C40 *)
(** UnregisterAll, GetAll and RunHealthchecks of a prefixed registry are those of the
    whole StandardRegistry under it *)
Theorem C40_whole_base : forall mexp (st : state) x v y l o, nth_error (snd st) x = Some v -> base v = Some l -> nth_error (snd st) y = Some (VReg l) ->
  step mexp st (OUnregisterAll x, o) = step mexp st (OUnregisterAll y, o) /\
  step mexp st (OGetAll x, o) = step mexp st (OGetAll y, o) /\
  step mexp st (ORunHealthchecks x, o) = step mexp st (ORunHealthchecks y, o).
Proof.
  intros mexp st x v y l o E B Ey. pose proof (base_cls _ _ B) as C.
  assert (K : forall c c', call mexp (snd st) c = call mexp (snd st) c' -> step mexp st (c, o) = step mexp st (c', o)) by (intros c c' H; unfold World.step; cbn [fst snd]; now rewrite H).
  split; [|split]; apply K; cbn [World.call]; unfold obind, only; rewrite E, Ey, C; cbn [cls class_eqb].
  - now rewrite (reg_unregister_all_std l v B).
  - now rewrite (reg_get_all_std l v B).
  - now rewrite (reg_run_std l v B).
Qed.
(** so they are not confined to the prefix: a child registry "x." of one that also has
    a counter "c" and a health check "h" *)
Definition outside : list (op * orc) :=
  [(ONewPrefixedChild 0 "x.", orc0); (ONew NCounter, orc0); (ORegister 0 "c" 2, orc0); (ONew (NHealth 4), orc0); (ORegister 0 "h" 3, orc0)].
Definition sick : orc := MkOrc 0 0 f_zero (fun _ => 0%Z) (fun _ => f_zero) (fun _ _ => [HUnhealthy (Some (EUser 5))]) [].
Theorem C40_unregister_all_confined_refuted : exists p x v n, forall mexp, let st := reach mexp p in
  nth_error (snd st) x = Some v /\ prefixes v <> [] /\ ~ (exists t, n = full v t) /\
  registered (fst st) default_reg n <> None /\
  registered (fst (fst (step mexp st (OUnregisterAll x, orc0)))) default_reg n = None.
Proof.
  exists outside, 1, (VPref (VReg 0) "x."), "c"%string. intros mexp st. subst st. split; [reflexivity|]. split; [discriminate|]. split; [intros (t & H); discriminate H|].
  split; [discriminate|reflexivity].
Qed.
Theorem C40_get_all_confined_refuted : exists p x v n fields l, forall mexp, let st := reach mexp p in
  nth_error (snd st) x = Some v /\ ~ (exists t, n = full v t) /\
  snd (step mexp st (OGetAll x, orc0)) = Some (Ok (RAll l)) /\ In (n, fields) l.
Proof.
  exists outside, 1, (VPref (VReg 0) "x."), "c"%string, [("count"%string, GZ 0)], [("c"%string, [("count"%string, GZ 0)]); ("h"%string, [("error"%string, GE None)])].
  intros mexp st. subst st. split; [reflexivity|]. split; [intros (t & H); discriminate H|]. split; [reflexivity|]. left. reflexivity.
Qed.
Theorem C40_run_healthchecks_confined_refuted : exists p x v y n, forall mexp, let st := reach mexp p in
  nth_error (snd st) x = Some v /\ ~ (exists t, n = full v t) /\ registered (fst st) default_reg n = nth_error (snd st) y /\
  snd (step mexp st (OError y, orc0)) = Some (Ok (RErr None)) /\
  snd (step mexp (fst (step mexp st (ORunHealthchecks x, sick))) (OError y, orc0)) = Some (Ok (RErr (Some (EUser 5)))).
Proof.
  exists outside, 1, (VPref (VReg 0) "x."), 3, "h"%string. intros mexp st. subst st. split; [reflexivity|]. split; [intros (t & H); discriminate H|]. repeat split.
Qed.
