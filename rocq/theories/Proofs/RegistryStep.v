(** Every call changes the registries as the finite-map specification says. *)
From Coq Require Import ZArith List String Bool Lia Permutation Arith.
From Verif.Model Require Import GoInt GoFloat GoBase Stats Uniform ExpDecay Conc CounterGauge Ewma Meter World.
From Verif.Spec Require Import RegistrySpec.
From Verif.Proofs Require Import WorldBase WorldOps WorldCalls WorldStep WorldFrame RegistryProofs.
Import ListNotations.
Local Open Scope nat_scope.
Local Open Scope list_scope.

Section Exp.
Variable mexp : f64 -> f64.
Notation step := (step mexp).
Notation run := (run mexp).
Definition none_tag (_ : tag) : bool := false.

Lemma fr_same w w' l x : fr none_tag true w w' -> nth_error (heap w) l = Some x -> nth_error (heap w') l = Some x.
Proof.
  intros (L & B & _) E. pose proof (nth_lt _ _ _ E) as Hl.
  destruct (nth_error (heap w') l) as [y|] eqn:Y; [|apply nth_error_None in Y; lia]. rewrite (B l y Hl Y eq_refl) in E. congruence.
Qed.
Lemma fr_registered w w' l n : fr none_tag true w w' -> registered w' l n = registered w l n.
Proof.
  intros F. unfold registered. destruct (nth_error (heap w) l) as [x|] eqn:E.
  - now rewrite (fr_same w w' l x F E).
  - destruct F as (L & B & _ & _ & N). apply nth_error_None in E. destruct (nth_error (heap w') l) as [y|] eqn:Y; auto. destruct y; auto.
    rewrite (N eq_refl l entries E Y). reflexivity.
Qed.
Lemma registered_set w l es es' k n : nth_error (heap w) l = Some (OReg es) ->
  registered (set_heap (lset (heap w) l (OReg es')) w) k n = if Nat.eqb k l then lookup n es' else registered w k n.
Proof.
  intros E. pose proof (nth_lt _ _ _ E) as Hl. unfold registered. cbn [heap set_heap]. destruct (Nat.eqb_spec k l) as [->|D].
  - rewrite lset_nth_eq by auto. symmetry. apply lookup_find.
  - rewrite lset_nth_neq; auto.
Qed.
Lemma add_spec w v l es n i k m : base v = Some l -> nth_error (heap w) l = Some (OReg es) ->
  add (registered w) v n i k m =
  match lookup (full v n) es with
  | Some _ => registered w k m
  | None => if is_metric i then registered (set_heap (lset (heap w) l (OReg (es ++ [(full v n, i)]))) w) k m else registered w k m
  end.
Proof.
  intros B E. unfold add. rewrite B, (registered_at w l es _ E), metric_is. destruct (lookup (full v n) es) eqn:L; auto.
  destruct (is_metric i); auto. rewrite (registered_set w l es _ k m E). unfold put. destruct (Nat.eqb_spec k l) as [->|D]; cbn; auto.
  rewrite lookup_app, (registered_at w l es m E). rewrite (String.eqb_sym (full v n) m). destruct (String.eqb_spec m (full v n)) as [->|D]; [now rewrite L|].
  now destruct (lookup m es).
Qed.
Lemma std_gor_ok o w l es n mk : nth_error (heap w) l = Some (OReg es) -> pres none_tag true mk ->
  std_get_or_register l n mk o w =
  match lookup n es with
  | Some v => (w, Ok v)
  | None =>
    match mk o w with
    | (w1, Ok v) => (if is_metric v then set_heap (lset (heap w1) l (OReg (es ++ [(n, v)]))) w1 else w1, Ok v)
    | (w1, Panic msg) => (w1, Panic msg)
    end
  end.
Proof.
  intros E P. unfold std_get_or_register. unfold bind at 1. rewrite (entries_get_ok l es w o E).
  destruct (lookup n es) eqn:L; [reflexivity|]. unfold bind. pose proof (P o w) as F. destruct (mk o w) as [w1 [v|msg]]; auto.
  cbn [fst] in F. pose proof (fr_same _ _ _ _ F E) as E1. rewrite (std_register_ok l es w1 o E1), L. reflexivity.
Qed.
Lemma pres_mk k : pres none_tag true (construct mexp k).
Proof. apply pres_construct. auto. Qed.
Lemma env_reg (st : state) x v : inv st -> nth_error (snd st) x = Some v -> cls v = CReg -> exists l es, base v = Some l /\ nth_error (heap (fst st)) l = Some (OReg es).
Proof.
  intros [_ F] E C. rewrite Forall_forall in F. destruct (vok_base _ v C (F _ (nth_error_In _ _ E))) as (l & B & T).
  destruct (tag_reg _ _ T) as (es & Es). eauto.
Qed.
Lemma default_reg_ok (st : state) : inv st -> exists es, nth_error (heap (fst st)) default_reg = Some (OReg es).
Proof. intros [W _]. apply tag_reg, (wf_reg _ W). Qed.
Lemma reg_arg_ok (st : state) r v : inv st -> reg_arg (snd st) r = Some v -> exists l es, base v = Some l /\ nth_error (heap (fst st)) l = Some (OReg es) /\ reg_or_default (snd st) r = Some v.
Proof.
  intros I H. destruct r as [x|]; cbn in H |- *.
  - unfold arg in H. destruct (nth_error (snd st) x) as [u|] eqn:E; [|discriminate]. assert (u = v /\ cls u = CReg) as [-> C] by (destruct (cls u) eqn:C; inversion H; auto).
    destruct (env_reg st x v I E C) as (l & es & B & Es). eauto.
  - inversion H; subst. destruct (default_reg_ok st I) as (es & E). exists default_reg, es. auto.
Qed.
Lemma reg_or_default_arg e r v : reg_or_default e r = Some v -> base v <> None -> reg_arg e r = Some v.
Proof.
  destruct r as [x|]; cbn; auto. intros E B. unfold arg. rewrite E. destruct (base v) eqn:Bv; [|congruence]. now rewrite (base_cls _ _ Bv).
Qed.
Lemma class_eqb_eq a b : class_eqb a b = true -> a = b.
Proof. destruct a, b; cbn; congruence. Qed.
Lemma class_eqb_refl a : class_eqb a a = true.
Proof. destruct a; reflexivity. Qed.

Definition gor_after (w : world) (l : nat) (es : list (string * val)) (n : string) (mk : M val) (o : orc) : world * res val :=
  match lookup n es with
  | Some v => (w, Ok v)
  | None =>
    match mk o w with
    | (w1, Ok v) => (if is_metric v then set_heap (lset (heap w1) l (OReg (es ++ [(n, v)]))) w1 else w1, Ok v)
    | (w1, Panic msg) => (w1, Panic msg)
    end
  end.
Lemma gor_registered w v l es n mk o k m : base v = Some l -> nth_error (heap w) l = Some (OReg es) -> pres none_tag true mk ->
  registered (fst (gor_after w l es (full v n) mk o)) k m =
  match snd (gor_after w l es (full v n) mk o) with Ok i => add (registered w) v n i k m | Panic _ => registered w k m end.
Proof.
  intros B E P. unfold gor_after. destruct (lookup (full v n) es) as [y|] eqn:L.
  - cbn [fst snd]. now rewrite (add_spec w v l es n y k m B E), L.
  - pose proof (P o w) as F. destruct (mk o w) as [w1 [i|msg]]; cbn [fst snd] in *; [|apply (fr_registered w w1 k m F)].
    pose proof (fr_same _ _ _ _ F E) as E1.
    transitivity (add (registered w1) v n i k m).
    + now rewrite (add_spec w1 v l es n i k m B E1), L; destruct (is_metric i).
    + unfold add. rewrite B, (fr_registered w w1 l (full v n) F). destruct (registered w l (full v n)); [apply fr_registered; auto|].
      destruct (metric i); [|apply fr_registered; auto]. unfold put. destruct (_ && _); auto. apply fr_registered; auto.
Qed.

Lemma add_fr w w1 v n i k m : fr none_tag true w w1 -> add (registered w1) v n i k m = add (registered w) v n i k m.
Proof.
  intros F. unfold add. destruct (base v) as [l|]; [|apply fr_registered; auto]. rewrite (fr_registered w w1 l (full v n) F). destruct (registered w l (full v n)); [apply fr_registered; auto|].
  destruct (metric i); [|apply fr_registered; auto]. unfold put. destruct (_ && _); auto. apply fr_registered; auto.
Qed.
Lemma new_registered_ok o w v l es ct n : base v = Some l -> nth_error (heap w) l = Some (OReg es) ->
  new_registered mexp ct n v o w =
  match construct mexp ct o w with
  | (w1, Ok i) =>
    (match lookup (full v n) es with
     | Some _ => w1
     | None => if is_metric i then set_heap (lset (heap w1) l (OReg (es ++ [(full v n, i)]))) w1 else w1
     end, Ok i)
  | (w1, Panic msg) => (w1, Panic msg)
  end.
Proof.
  intros B E. unfold new_registered. unfold bind at 1. pose proof (pres_mk ct o w) as F. destruct (construct mexp ct o w) as [w1 [i|msg]]; auto.
  cbn [fst] in F. pose proof (fr_same _ _ _ _ F E) as E1. unfold bind. rewrite (reg_register_std l v B), (std_register_ok l es w1 o E1).
  destruct (lookup (full v n) es); reflexivity.
Qed.
(** constructors that cannot panic *)
Definition total {A} (m : M A) : Prop := forall o w, exists w' a, m o w = (w', Ok a).
Lemma total_bind {A B} (m : M A) (f : A -> M B) : total m -> (forall a, total (f a)) -> total (bind m f).
Proof. intros H K o w. unfold bind. destruct (H o w) as (w' & a & ->). apply K. Qed.
Lemma total_ret {A} (a : A) : total (ret a). Proof. intros o w. exists w, a. reflexivity. Qed.
Lemma total_alloc x : total (alloc x). Proof. intros o w. eexists _, _. reflexivity. Qed.
Lemma total_ask {A} (f : orc -> A) : total (ask f). Proof. intros o w. eexists _, _. reflexivity. Qed.
Lemma total_unless s m : total m -> total (unless_nil s m).
Proof. intros H o w. unfold unless_nil, bind, gets. destruct (usenil w); [eexists _, _; reflexivity|apply H]. Qed.
Lemma total_new_ewma a : total (new_ewma a).
Proof. apply total_unless, total_bind; auto using total_alloc, total_ret. Qed.
Lemma total_new_hist a : total (new_hist a).
Proof. apply total_unless, total_bind; auto using total_alloc, total_ret. Qed.
Lemma total_new_meter : total (new_meter mexp).
Proof.
  apply total_unless. do 6 (apply total_bind; [auto using total_alloc, total_new_ewma, total_ask|intros ?]). apply total_bind; [|auto using total_ret].
  intros o w. eexists _, _. reflexivity.
Qed.
Lemma total_new_timer : total (new_timer mexp).
Proof.
  apply total_unless. apply total_bind.
  - unfold new_exp. apply total_unless. change (1028 <? 0)%Z with false. cbv iota. apply total_bind; [apply total_ask|intros ?]. apply total_bind; auto using total_alloc, total_ret.
  - intros s. apply total_bind; [apply total_new_hist|intros ?]. apply total_bind; [apply total_new_meter|intros ?]. apply total_bind; auto using total_alloc, total_ret.
Qed.
Definition may_panic (k : newk) : bool := match k with NUniform _ | NExp _ _ => true | _ => false end.
Lemma total_construct e k ct : may_panic k = false -> ctor_of e k = Some ct -> total (construct mexp ct).
Proof.
  intros M H. destruct k; cbn in M; try discriminate; cbn in H; try (destruct (arg e CSample s)); try (destruct (arg e CHist h); cbn in H; [destruct (arg e CMeter m)|]); inversion H; subst;
    cbn [construct]; auto using total_new_hist, total_new_ewma, total_new_meter, total_new_timer; apply total_unless; auto using total_ret; apply total_bind; auto using total_alloc, total_ret.
Qed.
Lemma ctor_class_spec e k ct : ctor_of e k = Some ct ->
  ctor_class ct = match k with
  | NCounter => CCounter | NGauge | NFuncGauge _ => CGauge | NGaugeF | NFuncGaugeF _ => CGaugeF | NHealth _ => CHealth
  | NUniform _ | NExp _ _ => CSample | NHist _ => CHist | NEwma _ => CEwma | NMeter => CMeter | NTimer | NCustomTimer _ _ => CTimer
  end.
Proof.
  intros H. destruct k; cbn in H; try (inversion H; subst; reflexivity).
  - destruct (arg e CSample s); inversion H; reflexivity.
  - destruct (arg e CHist h); [cbn in H|discriminate]. destruct (arg e CMeter m); inversion H; reflexivity.
Qed.
Lemma construct_cls (st : state) k ct o w1 i : inv st -> ctor_of (snd st) k = Some ct -> construct mexp ct o (fst st) = (w1, Ok i) ->
  cls i = ctor_class ct /\ vok (heap w1) i.
Proof.
  intros [W F] E C. destruct (t_construct (fun _ => False) mexp 0 ct o (fst st) W (env_ctor 0 _ _ _ _ E (conj F (Nat.le_0_l _)))) as (_ & _ & G). rewrite C in G. exact G.
Qed.
Lemma ctor_arg (st : state) k ct o : inv st -> ctor_of (snd st) (regk_new k) = Some ct ->
  exists w1 i, construct mexp ct o (fst st) = (w1, Ok i) /\ cls i = regk_class k.
Proof.
  intros I E. destruct (total_construct (snd st) (regk_new k) ct ltac:(destruct k; reflexivity) E o (fst st)) as (w1 & i & C).
  exists w1, i. split; auto. destruct (construct_cls st _ ct o w1 i I E C) as [G _]. rewrite G, (ctor_class_spec _ _ _ E). destruct k; reflexivity.
Qed.
Lemma regk_metric k v : cls v = regk_class k -> is_metric v = true.
Proof. unfold is_metric. intros ->. destruct k; reflexivity. Qed.
Lemma gor_x_ok o w v l es k ct n w1 i : base v = Some l -> nth_error (heap w) l = Some (OReg es) ->
  construct mexp ct o w = (w1, Ok i) -> cls i = regk_class k ->
  get_or_register_x mexp k ct n v o w =
  match lookup (full v n) es with
  | Some y => (match k with GGaugeF => w1 | _ => w end, if class_eqb (cls y) (regk_class k) then Ok y else Panic msg_type)
  | None => (set_heap (lset (heap w1) l (OReg (es ++ [(full v n, i)]))) w1, Ok i)
  end.
Proof.
  intros B E C K. pose proof (pres_mk ct o w) as F. rewrite C in F. cbn [fst] in F. pose proof (fr_same _ _ _ _ F E) as E1.
  assert (AC : forall y o w, assert_class (regk_class k) y o w = (w, if class_eqb (cls y) (regk_class k) then Ok y else Panic msg_type)).
  { intros y o' w'. unfold assert_class. destruct (class_eqb _ _); reflexivity. }
  unfold get_or_register_x. unfold bind at 1.
  destruct k; try (rewrite (reg_gor_std l v B), (std_gor_ok o w l es (full v n) _ E (pres_mk ct)), C;
    destruct (lookup (full v n) es) as [y|]; rewrite AC; [reflexivity|]; rewrite (regk_metric _ _ K), K, class_eqb_refl; reflexivity).
  unfold bind. rewrite C, (reg_gor_std l v B), (std_gor_ok o w1 l es (full v n) _ E1 (pres_ret _ _ _)). cbn [ret].
  destruct (lookup (full v n) es) as [y|]; rewrite AC; [reflexivity|]. rewrite (regk_metric GGaugeF _ K), K, class_eqb_refl. reflexivity.
Qed.

Lemma refine (st : state) c o : inv st -> forall k m,
  registered (fst (fst (step st (c, o)))) k m = after (snd st) c (snd (step st (c, o))) (registered (fst st)) k m.
Proof.
  intros I k m.
  assert (N : ~ In TReg (touch c) -> registered (fst (fst (step st (c, o)))) k m = registered (fst st) k m).
  { intros N. destruct (step_inv mexp st c o I) as (_ & (_ & L & _) & _). unfold registered.
    assert (D : (exists b, c = OSetNil b) \/ forall b, c <> OSetNil b) by (destruct c; eauto; right; discriminate).
    destruct D as [(b & ->)|D]; [reflexivity|].
    destruct (frame_step mexp st c o D) as (Ln & F & _ & _ & G).
    destruct (nth_error (heap (fst st)) k) as [x|] eqn:E.
    - destruct (L _ _ E) as (x' & E' & X). rewrite E'. apply chg_tag in X.
      destruct x'; cbn in X; try (destruct x; cbn in X; try discriminate; reflexivity).
      assert (E2 : nth_error (heap (fst st)) k = Some (OReg entries)).
      { apply F; auto; [eapply nth_lt; eauto|]. cbn [tag_of]. destruct (tin (touch c) TReg) eqn:Q; auto. apply tin_spec in Q. contradiction. }
      rewrite E in E2. inversion E2. reflexivity.
    - apply nth_error_None in E. destruct (nth_error (heap (fst (fst (step st (c, o))))) k) as [y|] eqn:Y; auto. destruct y; auto.
      rewrite (G ltac:(destruct (tin (touch c) TReg) eqn:Q; auto; apply tin_spec in Q; contradiction) k entries E Y). reflexivity. }
  destruct c; try (apply N; cbn; intuition discriminate);
    try (apply N; cbn [touch]; intros Z; cbn in Z; intuition discriminate); clear N;
    unfold World.step; cbn [fst snd World.call]; unfold obind, only; cbn [after].
  - (* OGetOrRegister *)
    destruct (nth_error (snd st) r) as [v|] eqn:Er; [|reflexivity]. destruct (nth_error (snd st) x) as [i|] eqn:Ex; [|reflexivity].
    destruct (class_eqb (cls v) CReg) eqn:C; [|reflexivity]. apply class_eqb_eq in C.
    destruct (env_reg st r v I Er C) as (l & es & B & E). unfold v_rv. unfold bind at 1 2. rewrite (reg_gor_std l v B), (std_gor_ok o _ l es _ _ E (pres_ret _ _ _)).
    pose proof (gor_registered (fst st) v l es name (ret i) o k m B E (pres_ret _ _ _)) as G. fold (gor_after (fst st) l es (full v name) (ret i) o).
    destruct (gor_after (fst st) l es (full v name) (ret i) o) as [w' [j|msg]]; cbn [fst snd ret] in *; exact G.
  - (* OGetOrRegisterFn *)
    destruct (nth_error (snd st) r) as [v|] eqn:Er; [|reflexivity]. destruct (ctor_of (snd st) k0) as [ct|] eqn:Ek; [|reflexivity].
    destruct (class_eqb (cls v) CReg) eqn:C; [|reflexivity]. apply class_eqb_eq in C.
    destruct (env_reg st r v I Er C) as (l & es & B & E). unfold v_rv. unfold bind at 1 2. rewrite (reg_gor_std l v B), (std_gor_ok o _ l es _ _ E (pres_mk ct)).
    pose proof (gor_registered (fst st) v l es name (construct mexp ct) o k m B E (pres_mk ct)) as G. fold (gor_after (fst st) l es (full v name) (construct mexp ct) o).
    destruct (gor_after (fst st) l es (full v name) (construct mexp ct) o) as [w' [j|msg]]; cbn [fst snd ret] in *; exact G.
  - (* ORegister *)
    destruct (nth_error (snd st) r) as [v|] eqn:Er; [|reflexivity]. destruct (nth_error (snd st) x) as [i|] eqn:Ex; [|reflexivity].
    destruct (class_eqb (cls v) CReg) eqn:C.
    + apply class_eqb_eq in C. destruct (env_reg st r v I Er C) as (l & es & B & E). unfold bind at 1.
      rewrite (reg_register_std l v B), (std_register_ok l es _ o E), (add_spec (fst st) v l es name i k m B E).
      destruct (lookup (full v name) es); [reflexivity|]. destruct (is_metric i); reflexivity.
    + cbn [fst snd]. unfold add. destruct (base v) eqn:B; [|reflexivity]. rewrite (base_cls _ _ B) in C. discriminate.
  - (* OMustRegister *)
    destruct (nth_error (snd st) x) as [i|] eqn:Ex; [|reflexivity]. destruct (default_reg_ok st I) as (es & E).
    unfold bind at 1. rewrite (std_register_ok default_reg es _ o E), (add_spec (fst st) (VReg default_reg) default_reg es name i k m eq_refl E), full_reg.
    destruct (lookup name es); [reflexivity|]. destruct (is_metric i); reflexivity.
  - (* OUnregister *)
    destruct (nth_error (snd st) r) as [v|] eqn:Er; [|reflexivity]. destruct (class_eqb (cls v) CReg) eqn:C.
    + apply class_eqb_eq in C. destruct (env_reg st r v I Er C) as (l & es & B & E). unfold unit_rv. unfold bind at 1.
      rewrite (reg_unregister_std l v B). destruct (std_unregister_ok o (fst st) l es (full v name) (proj1 I) E) as (w' & R & S & E' & K & _).
      rewrite R. cbn [fst snd ret]. unfold drop. rewrite B. unfold put. destruct (Nat.eqb_spec k l) as [->|D]; cbn [andb].
      * rewrite (registered_at _ _ _ _ E'), lookup_remove, (registered_at _ _ _ _ E). reflexivity.
      * unfold registered. destruct (nth_error (heap (fst st)) k) as [x|] eqn:Ex.
        -- destruct x; try (destruct S as (_ & _ & _ & _ & S); rewrite (S _ _ Ex) by discriminate; destruct (memn _ _); reflexivity).
           now rewrite (K _ _ D Ex).
        -- destruct (nth_error (heap w') k) as [y|] eqn:Y; auto. apply nth_lt in Y. apply nth_error_None in Ex. destruct S as (_ & _ & _ & Ln & _). lia.
    + cbn [fst snd]. unfold drop. destruct (base v) eqn:B; [|reflexivity]. rewrite (base_cls _ _ B) in C. discriminate.
  - (* OUnregisterAll *)
    destruct (nth_error (snd st) r) as [v|] eqn:Er; [|reflexivity]. destruct (class_eqb (cls v) CReg) eqn:C.
    + apply class_eqb_eq in C. destruct (env_reg st r v I Er C) as (l & es & B & E). unfold unit_rv. unfold bind at 1.
      rewrite (reg_unregister_all_std l v B). destruct (std_unregister_all_ok o (fst st) l es (proj1 I) E) as (w' & ks & R & S & _ & (es' & E' & Z) & K & _).
      rewrite R. cbn [fst snd ret]. unfold drop_all. rewrite B. unfold clear. destruct (Nat.eqb_spec k l) as [->|D]; cbn [andb].
      * rewrite (registered_at _ _ _ _ E'). apply Z.
      * unfold registered. destruct (nth_error (heap (fst st)) k) as [x|] eqn:Ex.
        -- destruct x; try (destruct S as (_ & _ & _ & _ & S); rewrite (S _ _ Ex) by discriminate; destruct (memn _ _); reflexivity).
           now rewrite (K _ _ D Ex).
        -- destruct (nth_error (heap w') k) as [y|] eqn:Y; auto. apply nth_lt in Y. apply nth_error_None in Ex. destruct S as (_ & _ & _ & Ln & _). lia.
    + cbn [fst snd]. unfold drop_all. destruct (base v) eqn:B; [|reflexivity]. rewrite (base_cls _ _ B) in C. discriminate.
  - (* ONewRegistered *)
    destruct (has_new_registered k0); [|cbn [fst snd]; destruct (reg_or_default (snd st) r); reflexivity].
    destruct (ctor_of (snd st) k0) as [ct|] eqn:Ek; [|cbn [fst snd]; destruct (reg_or_default (snd st) r); reflexivity].
    destruct (reg_arg (snd st) r) as [v|] eqn:Er; [|cbn [fst snd]; destruct (reg_or_default (snd st) r); reflexivity].
    destruct (reg_arg_ok st r v I Er) as (l & es & B & E & D). rewrite D. unfold v_rv. unfold bind at 1 2. rewrite (new_registered_ok o _ v l es ct name B E).
    pose proof (pres_mk ct o (fst st)) as F. destruct (construct mexp ct o (fst st)) as [w1 [i|msg]]; cbn [fst snd ret] in *; [|apply (fr_registered _ _ k m F)].
    pose proof (fr_same _ _ _ _ F E) as E1.
    transitivity (add (registered w1) v name i k m); [|apply add_fr; auto].
    rewrite (add_spec w1 v l es name i k m B E1). destruct (lookup (full v name) es); [reflexivity|]. destruct (is_metric i); reflexivity.
  - (* OGetOrRegisterX *)
    destruct (ctor_of (snd st) (regk_new k0)) as [ct|] eqn:Ek; [|cbn [fst snd]; destruct (reg_or_default (snd st) r); reflexivity].
    destruct (reg_arg (snd st) r) as [v|] eqn:Er; [|cbn [fst snd]; destruct (reg_or_default (snd st) r); reflexivity].
    destruct (reg_arg_ok st r v I Er) as (l & es & B & E & D). rewrite D. unfold v_rv. unfold bind at 1 2.
    destruct (ctor_arg st k0 ct o I Ek) as (w1 & i & C & K). rewrite (gor_x_ok o (fst st) v l es k0 ct name w1 i B E C K).
    pose proof (pres_mk ct o (fst st)) as F. rewrite C in F. cbn [fst] in F. pose proof (fr_same _ _ _ _ F E) as E1.
    assert (G0 : forall y, lookup (full v name) es = Some y -> registered (match k0 with GGaugeF => w1 | _ => fst st end) k m = add (registered (fst st)) v name y k m).
    { intros y L. rewrite (add_spec (fst st) v l es name y k m B E), L. destruct k0; auto using fr_registered. }
    destruct (lookup (full v name) es) as [y|] eqn:L.
    + specialize (G0 y eq_refl). destruct (class_eqb (cls y) (regk_class k0)); cbn [fst snd ret]; auto. rewrite G0.
      now rewrite (add_spec (fst st) v l es name y k m B E), L.
    + cbn [fst snd ret]. transitivity (add (registered w1) v name i k m); [|apply add_fr; auto].
      now rewrite (add_spec w1 v l es name i k m B E1), L, (regk_metric _ _ K).
Qed.
End Exp.
