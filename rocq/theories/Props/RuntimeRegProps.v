(** Property C52: the runtime and debug metrics are registered once per process; and C57: captures
    leave other metrics alone. *)
From Coq Require Import ZArith List String Bool Lia Arith.
From Verif.Model Require Import GoInt GoFloat GoBase Stats Uniform ExpDecay Conc CounterGauge Ewma Meter World Runtime.
From Verif.Spec Require Import RegistrySpec RuntimeSpec.
From Verif.Proofs Require Import IntFacts FloatFacts ListFacts WorldBase WorldStep WorldFrame WorldSnap WorldReads RegistryProofs RegistryStep RegistryNew ExpDecayProofs ExpDecayHeap TimerHistory RuntimeProofs ProcProofs ProcHistory ProcCapture.
From Verif.Props Require Import RuntimeProps.
Import ListNotations.
Local Open Scope nat_scope.
Local Open Scope list_scope.

Lemma reg_result mexp h r os : result mexp h (PRegisterRuntime r) os <> None <-> is_registry (snd (p_state (preach mexp h))) r = true.
Proof. unfold result, Runtime.pstep. cbn [fst snd]. destruct (is_registry _ r); cbn [negb]; [|cbn; split; congruence]. destruct (rt_done _); [cbn; split; congruence|]. destruct (register_all _ _ _ _ _ _) as [[? ?] ?]; cbn; split; congruence. Qed.
Lemma dbg_reg_result mexp h r os : result mexp h (PRegisterDebug r) os <> None <-> is_registry (snd (p_state (preach mexp h))) r = true.
Proof. unfold result, Runtime.pstep. cbn [fst snd]. destruct (is_registry _ r); cbn [negb]; [|cbn; split; congruence]. destruct (dbg_done _); [cbn; split; congruence|]. destruct (register_all _ _ _ _ _ _) as [[? ?] ?]; cbn; split; congruence. Qed.
Lemma was_later mexp h h' : was_registered mexp h -> was_registered mexp (h ++ h').
Proof. intros (h1 & r & os & h2 & -> & R). exists h1, r, os, (h2 ++ h'). rewrite <- app_assoc. auto. Qed.
Lemma dbg_was_later mexp h h' : was_debug_registered mexp h -> was_debug_registered mexp (h ++ h').
Proof. intros (h1 & r & os & h2 & -> & R). exists h1, r, os, (h2 ++ h'). rewrite <- app_assoc. auto. Qed.
Lemma done_iff mexp h : rt_done (preach mexp h) = true <-> was_registered mexp h.
Proof.
  split.
  - induction h as [|[c os] h IH] using rev_ind; intros D; [discriminate D|]. rewrite preach_snoc in D. destruct (rt_done (preach mexp h)) eqn:D0; [apply was_later; auto|].
    destruct c as [c|r|r x|r|r x]; try (rewrite done_step in D by (intros; discriminate); congruence).
    exists h, r, os, []. split; [reflexivity|]. apply reg_result. unfold Runtime.pstep in D. cbn [fst snd] in D. destruct (is_registry _ r); [reflexivity|]. cbn in D. congruence.
  - intros (h1 & r & os & h2 & -> & R). apply reg_result in R. change ((PRegisterRuntime r, os) :: h2) with ([(PRegisterRuntime r, os)] ++ h2). rewrite app_assoc, preach_app. apply tab_run.
    rewrite preach_snoc. destruct (rt_done (preach mexp h1)) eqn:D; [apply tab_step; exact D|]. destruct (registered_step mexp (preach mexp h1) r os (preach_PI mexp h1) D R) as (st' & tab & E & _). rewrite E. reflexivity.
Qed.
Lemma dbg_done_iff mexp h : dbg_done (preach mexp h) = true <-> was_debug_registered mexp h.
Proof.
  split.
  - induction h as [|[c os] h IH] using rev_ind; intros D; [discriminate D|]. rewrite preach_snoc in D. destruct (dbg_done (preach mexp h)) eqn:D0; [apply dbg_was_later; auto|].
    destruct c as [c|r|r x|r|r x]; try (rewrite dbg_done_step in D by (intros; discriminate); congruence).
    exists h, r, os, []. split; [reflexivity|]. apply dbg_reg_result. unfold Runtime.pstep in D. cbn [fst snd] in D. destruct (is_registry _ r); [reflexivity|]. cbn in D. congruence.
  - intros (h1 & r & os & h2 & -> & R). apply dbg_reg_result in R. change ((PRegisterDebug r, os) :: h2) with ([(PRegisterDebug r, os)] ++ h2). rewrite app_assoc, preach_app. apply dbg_tab_run.
    rewrite preach_snoc. destruct (dbg_done (preach mexp h1)) eqn:D; [apply dbg_tab_step; exact D|]. destruct (dbg_registered_step mexp (preach mexp h1) r os (preach_PI mexp h1) D R) as (st' & tab & E & _). rewrite E. reflexivity.
Qed.

(** ** names *)
Definition kclass (k : mk) : class := match k with MGauge => CGauge | MGaugeF => CGaugeF | MHist => CHist | MTimer => CTimer end.
Lemma rt_named n c : In (n, c) runtime_names -> exists f k, In (n, f) rt_register /\ In (f, k) rt_create /\ kclass k = c.
Proof.
  intros H. unfold runtime_names, plain_gauges, uint64_deltas in H. cbn [map app fst snd In String.append rd_mem] in H.
  repeat match type of H with _ \/ _ => destruct H as [H|H] end; try contradiction; injection H as <- <-;
    match goal with |- exists f k, In (?nm, f) rt_register /\ _ =>
      let f := eval cbv in (match find (fun nf => String.eqb (fst nf) nm) rt_register with Some nf => snd nf | None => ""%string end) in
      let k := eval cbv in (match find (fun fk => String.eqb (fst fk) f) rt_create with Some fk => snd fk | None => MGauge end) in exists f, k end;
    (split; [inl|split; [inl|reflexivity]]).
Qed.
Lemma rt_names_all nf : In nf rt_register -> exists c, In (fst nf, c) runtime_names.
Proof.
  intros H. cut (In (fst nf) (map fst runtime_names)). { intros X. apply in_map_iff in X as ([a c] & E & X). cbn in E. subst a. eauto. }
  revert H. cut (forallb (fun nf => existsb (String.eqb (fst nf)) (map fst runtime_names)) rt_register = true); [|vm_compute; reflexivity].
  intros F H. rewrite forallb_forall in F. specialize (F nf H). apply existsb_exists in F as (x & Hx & E). apply String.eqb_eq in E. now subst x.
Qed.
Lemma dbg_named n c : In (n, c) debug_names -> exists f k, In (n, f) dbg_register /\ In (f, k) dbg_create /\ kclass k = c.
Proof.
  intros H. cbn in H. repeat match type of H with _ \/ _ => destruct H as [H|H] end; try contradiction; injection H as <- <-;
    match goal with |- exists f k, In (?nm, f) dbg_register /\ _ =>
      let f := eval cbv in (match find (fun nf => String.eqb (fst nf) nm) dbg_register with Some nf => snd nf | None => ""%string end) in
      let k := eval cbv in (match find (fun fk => String.eqb (fst fk) f) dbg_create with Some fk => snd fk | None => MGauge end) in exists f, k end;
    (split; [inl|split; [inl|reflexivity]]).
Qed.
Lemma dbg_names_all nf : In nf dbg_register -> exists c, In (fst nf, c) debug_names.
Proof. intros H. cbn in H. repeat match type of H with _ \/ _ => destruct H as [H|H] end; try contradiction; subst nf; eexists; cbn; eauto 10. Qed.

(** ** fresh metrics *)
Lemma exec_keeps mexp cs l y : match y with OHist _ | OTimer _ _ => True | _ => False end ->
  forall (st : state) os, inv st -> nth_error (heap (fst st)) l = Some y -> nth_error (heap (fst (fst (exec mexp st cs os)))) l = Some y.
Proof.
  intros Hy. induction cs as [|c cs IH]; intros st os I E; [exact E|]. cbn [exec]. pose proof (keeps_obj mexp st c (os 0) l y I E Hy) as K. pose proof (proj1 (step_inv mexp st c (os 0) I)) as I'.
  destruct (step mexp st (c, os 0)) as [st' [[v|m]|]]; cbn [fst] in *; auto.
Qed.
Lemma held_old (st st' : state) k g l : inv st -> In g (snd st) ->
  (forall i y, match y with OHist _ | OTimer _ _ => True | _ => False end -> nth_error (heap (fst st)) i = Some y -> nth_error (heap (fst st')) i = Some y) ->
  made (fst st') k g -> own (fst st') g = Some l -> l < List.length (heap (fst st)).
Proof.
  intros [W F] Hg K M O. rewrite Forall_forall in F. specialize (F g Hg).
  assert (H1 : forall a e, tagat (heap (fst st)) a THist -> nth_error (heap (fst st')) a = Some (OHist (VExp e)) -> e < List.length (heap (fst st))).
  { intros a e (y & E & T) E'. destruct y; try discriminate T. rewrite (K a (OHist s) Logic.I E) in E'. injection E' as ->. destruct (wf_obj _ W _ _ E) as [_ (z & Ez & _)]. eapply nth_lt; eauto. }
  destruct k; cbn in M.
  - destruct M as (a & ->). cbn in O, F. injection O as ->. destruct F as (y & E & _). eapply nth_lt; eauto.
  - destruct M as (a & ->). cbn in O, F. injection O as ->. destruct F as (y & E & _). eapply nth_lt; eauto.
  - destruct M as (a & e & -> & E & _). cbn in O, F. rewrite E in O. injection O as ->. eauto.
  - destruct M as (a & hl & m & e & -> & E & Eh & _). cbn in O, F. rewrite E, Eh in O. injection O as ->. destruct F as (y & Ey & T). destruct y; try discriminate T.
    rewrite (K a (OTimer h m0) Logic.I Ey) in E. injection E as -> ->. destruct (wf_obj _ W _ _ Ey) as [[_ V] _]. eauto.
Qed.
Lemma register_all_keeps mexp (st st' : state) cr names r os tab m l y : inv st -> register_all mexp st cr names r os = (st', tab, m) ->
  match y with OHist _ | OTimer _ _ => True | _ => False end -> nth_error (heap (fst st)) l = Some y -> nth_error (heap (fst st')) l = Some y.
Proof.
  intros I E Hy El. unfold register_all in E. destruct (creation _ cr) as [cs tab0]. pose proof (exec_keeps mexp cs l y Hy st os I El) as K. pose proof (exec_inv mexp cs st os I) as I1.
  destruct (exec mexp st cs os) as [st1 [m1|]]; cbn [fst] in *; [injection E as <- _ _; exact K|]. destruct r as [x|]; [|injection E as <- _ _; exact K].
  pose proof (exec_keeps mexp (registration x tab0 names) l y Hy st1 (fun n => os (n + List.length cs)) I1 K) as K2. destruct (exec mexp st1 _ _) as [st2 m2]. injection E as <- _ _. exact K2.
Qed.
Lemma cls_made w k g : made w k g \/ g = stub k -> cls g = kclass k.
Proof. destruct k; cbn; intros [M| ->]; try reflexivity; [destruct M as (? & ->)|destruct M as (? & ->)|destruct M as (? & ? & -> & _)|destruct M as (? & ? & ? & ? & -> & _)]; reflexivity. Qed.
Lemma first_registration mexp (cr : list (string * mk)) names spec (st st' : state) tab x v os :
  NoDup (map fst cr) -> NoDup (map fst names) -> NoDup (map snd names) -> (forall nf, In nf names -> In (snd nf) (map fst cr)) ->
  (forall n c, In (n, c) spec -> exists f k, In (n, f) names /\ In (f, k) cr /\ kclass k = c) -> (forall nf, In nf names -> exists c, In (fst nf, c) spec) ->
  inv st -> nth_error (snd st) x = Some v -> cls v = CReg -> register_all mexp st cr names (Some x) os = (st', tab, None) -> newly_registered spec st st' v.
Proof.
  intros Nc Nn Nf Sub Sp Na I Ev Cv E.
  destruct (register_all_ok mexp st cr names (Some x) os I Nc Nn Sub (is_reg_some _ _ _ Ev Cv)) as (st1 & tab1 & E1 & I1 & Gr & _ & T & F & _ & v' & Ev' & _ & B & Rest).
  rewrite E in E1. injection E1 as <- <-. rewrite Ev in Ev'. injection Ev' as <-.
  assert (At : forall f k, In (f, k) cr -> exists g, nth_error (snd st') (at_field tab f) = Some g /\ (made (fst st') k g \/ g = stub k) /\ (usenil (fst st) = false -> ~ In g (snd st))).
  { intros f k Hk. pose proof (F2_at cr tab f k F (born_fst _ _ _) Nc Hk) as Q. unfold born in Q. destruct (usenil (fst st)).
    - destruct Q as [_ Q]. cbn [snd] in Q. eexists. split; [exact Q|]. split; [auto|discriminate].
    - destruct Q as (_ & g & l & y & P & M & O & Le & _). cbn [snd] in *. exists g. split; [exact P|]. split; [auto|]. intros _ Hin.
      pose proof (held_old st st' k g l I Hin (fun i y Hy => register_all_keeps mexp st st' cr names (Some x) os tab None i y I E Hy) M O). lia. }
  split; [|split].
  - intros n c Hn. destruct (Sp n c Hn) as (f & k & Hf & Hk & <-). specialize (B (n, f) Hf). cbn [fst snd] in B. destruct (bound (registered (fst st)) v n) as [j|]; [exact B|].
    destruct (At f k Hk) as (g & P & M & Fr). exists g. rewrite B. split; [exact P|]. split; [eapply cls_made; eauto|exact Fr].
  - intros n n' g Hn Hn' U B1 B2 G1 G2.
    apply in_map_iff in Hn as ([a c] & Ea & Hn). cbn in Ea. subst a. apply in_map_iff in Hn' as ([a c'] & Ea & Hn'). cbn in Ea. subst a.
    destruct (Sp _ _ Hn) as (f & k & Hf & Hk & _). destruct (Sp _ _ Hn') as (f' & k' & Hf' & Hk' & _).
    pose proof (B (n, f) Hf) as Q1. pose proof (B (n', f') Hf') as Q2. cbn [fst snd] in Q1, Q2. rewrite B1, G1 in Q1. rewrite B2, G2 in Q2.
    pose proof (F2_at cr tab f k F (born_fst _ _ _) Nc Hk) as Q. unfold born in Q. rewrite U in Q. destruct Q as (_ & g0 & l & y & P & M & O & _). cbn [snd] in *. rewrite P in Q1. injection Q1 as <-.
    assert (O1 : owner st' (at_field tab f) = Some l) by (unfold owner; rewrite P; exact O). assert (O2 : owner st' (at_field tab f') = Some l) by (unfold owner; rewrite <- Q2; exact O).
    assert (Ef : f = f') by (eapply (tab_apart st' cr tab f f' l T); eauto; [change f with (fst (f, k))|change f' with (fst (f', k'))]; now apply in_map). subst f'.
    clear - Nf Hf Hf'. induction names as [|[a b] names IH]; [contradiction|]. cbn in Nf. inversion Nf; subst. cbn in Hf, Hf'. destruct Hf as [Hf|Hf], Hf' as [Hf'|Hf'].
    + congruence.
    + injection Hf as -> ->. exfalso. apply H1. change f with (snd (n', f)). now apply in_map.
    + injection Hf' as -> ->. exfalso. apply H1. change f with (snd (n, f)). now apply in_map.
    + auto.
  - intros l n' H. apply Rest. intros nf Hnf. destruct (Na nf Hnf) as (c & Hc). apply (H _ _ Hc).
Qed.

(** ** C52 *)
(** the first call registers all the metrics in the registry it is given *)
Theorem C52_first : forall mexp h r os, ~ was_registered mexp h -> result mexp h (PRegisterRuntime r) os <> None ->
  match r with
  | Some x => result mexp h (PRegisterRuntime r) os = Some (Ok RUnit) /\
      exists v, nth_error (snd (p_state (preach mexp h))) x = Some v /\
        newly_registered runtime_names (p_state (preach mexp h)) (p_state (next mexp h (PRegisterRuntime r) os)) v
  | None => result mexp h (PRegisterRuntime r) os = Some (Panic msg_nil) /\
      forall l n, registered (fst (p_state (next mexp h (PRegisterRuntime r) os))) l n = registered (fst (p_state (preach mexp h))) l n
  end.
Proof.
  intros mexp h r os Nw R. apply reg_result in R. assert (D : rt_done (preach mexp h) = false) by (destruct (rt_done _) eqn:D; [exfalso; apply Nw; now apply done_iff|reflexivity]).
  pose proof (preach_PI mexp h) as PIh. destruct (registered_step mexp (preach mexp h) r os PIh D R) as (st' & tab & E & Ea). unfold result, next. rewrite preach_snoc, E. cbn [fst snd p_state]. destruct r as [x|].
  - split; [reflexivity|]. cbn in R. unfold arg in R. destruct (nth_error (snd (p_state (preach mexp h))) x) as [v|] eqn:Ev; [|discriminate]. exists v. split; [reflexivity|].
    assert (Cv : cls v = CReg) by (destruct (cls v); cbn in R; try discriminate R; reflexivity).
    apply (first_registration mexp rt_create rt_register runtime_names (p_state (preach mexp h)) st' tab x v os rt_create_nodup rt_register_nodup); auto using rt_sub, rt_named, rt_names_all; [apply strs_nodup; vm_compute; reflexivity|exact (proj1 PIh)].
  - split; [reflexivity|]. destruct (register_all_ok mexp (p_state (preach mexp h)) rt_create rt_register None os (proj1 PIh) rt_create_nodup rt_register_nodup rt_sub R) as (st1 & tab1 & E1 & _ & _ & _ & _ & _ & _ & B). rewrite Ea in E1. injection E1 as <- <-. exact B.
Qed.
Theorem C52_debug_first : forall mexp h r os, ~ was_debug_registered mexp h -> result mexp h (PRegisterDebug r) os <> None ->
  match r with
  | Some x => result mexp h (PRegisterDebug r) os = Some (Ok RUnit) /\
      exists v, nth_error (snd (p_state (preach mexp h))) x = Some v /\
        newly_registered debug_names (p_state (preach mexp h)) (p_state (next mexp h (PRegisterDebug r) os)) v
  | None => result mexp h (PRegisterDebug r) os = Some (Panic msg_nil) /\
      forall l n, registered (fst (p_state (next mexp h (PRegisterDebug r) os))) l n = registered (fst (p_state (preach mexp h))) l n
  end.
Proof.
  intros mexp h r os Nw R. apply dbg_reg_result in R. assert (D : dbg_done (preach mexp h) = false) by (destruct (dbg_done _) eqn:D; [exfalso; apply Nw; now apply dbg_done_iff|reflexivity]).
  pose proof (preach_PI mexp h) as PIh. destruct (dbg_registered_step mexp (preach mexp h) r os PIh D R) as (st' & tab & E & Ea). unfold result, next. rewrite preach_snoc, E. cbn [fst snd p_state]. destruct r as [x|].
  - split; [reflexivity|]. cbn in R. unfold arg in R. destruct (nth_error (snd (p_state (preach mexp h))) x) as [v|] eqn:Ev; [|discriminate]. exists v. split; [reflexivity|].
    assert (Cv : cls v = CReg) by (destruct (cls v); cbn in R; try discriminate R; reflexivity).
    apply (first_registration mexp dbg_create dbg_register debug_names (p_state (preach mexp h)) st' tab x v os dbg_create_nodup dbg_register_nodup); auto using dbg_sub, dbg_named, dbg_names_all; [apply strs_nodup; vm_compute; reflexivity|exact (proj1 PIh)].
  - split; [reflexivity|]. destruct (register_all_ok mexp (p_state (preach mexp h)) dbg_create dbg_register None os (proj1 PIh) dbg_create_nodup dbg_register_nodup dbg_sub R) as (st1 & tab1 & E1 & _ & _ & _ & _ & _ & _ & B). rewrite Ea in E1. injection E1 as <- <-. exact B.
Qed.
(** later calls, with any registry, do nothing at all *)
Theorem C52_later : forall mexp h r os, was_registered mexp h -> result mexp h (PRegisterRuntime r) os <> None ->
  result mexp h (PRegisterRuntime r) os = Some (Ok RUnit) /\ next mexp h (PRegisterRuntime r) os = preach mexp h.
Proof.
  intros mexp h r os Wr R. apply reg_result in R. apply done_iff in Wr. unfold result, next. rewrite preach_snoc. unfold Runtime.pstep. cbn [fst snd]. rewrite R, Wr. cbn. auto.
Qed.
Theorem C52_debug_later : forall mexp h r os, was_debug_registered mexp h -> result mexp h (PRegisterDebug r) os <> None ->
  result mexp h (PRegisterDebug r) os = Some (Ok RUnit) /\ next mexp h (PRegisterDebug r) os = preach mexp h.
Proof.
  intros mexp h r os Wr R. apply dbg_reg_result in R. apply dbg_done_iff in Wr. unfold result, next. rewrite preach_snoc. unfold Runtime.pstep. cbn [fst snd]. rewrite R, Wr. cbn. auto.
Qed.
(** capturing before that panics, and changes no metric and no registry *)
Theorem C52_capture_before : forall mexp h r rd os, ~ was_registered mexp h -> result mexp h (PCaptureRuntime r rd) os <> None ->
  result mexp h (PCaptureRuntime r rd) os = Some (Panic msg_nil) /\ next mexp h (PCaptureRuntime r rd) os = preach mexp h.
Proof.
  intros mexp h r rd os Nw R. apply capture_ok_registry in R. assert (D : rt_done (preach mexp h) = false) by (destruct (rt_done _) eqn:D; [exfalso; apply Nw; now apply done_iff|reflexivity]).
  pose proof (preach_PI mexp h) as (_ & T & _). rewrite D in T. destruct T as [T _]. unfold result, next. rewrite preach_snoc. unfold Runtime.pstep. cbn [fst snd]. rewrite R, T. cbn. auto.
Qed.
Theorem C52_debug_capture_before : forall mexp h r rd os, ~ was_debug_registered mexp h -> result mexp h (PCaptureDebug r rd) os <> None ->
  result mexp h (PCaptureDebug r rd) os = Some (Panic msg_nil) /\ p_state (next mexp h (PCaptureDebug r rd) os) = p_state (preach mexp h).
Proof.
  intros mexp h r rd os Nw R. apply dbg_capture_ok_registry in R. assert (D : dbg_done (preach mexp h) = false) by (destruct (dbg_done _) eqn:D; [exfalso; apply Nw; now apply dbg_done_iff|reflexivity]).
  pose proof (preach_PI mexp h) as (_ & _ & T). rewrite D in T. unfold result, next. rewrite preach_snoc. unfold Runtime.pstep. cbn [fst snd]. rewrite R, T. cbn. auto.
Qed.
(** capturing after that succeeds with any registry, nil included, and does not depend on it;
    the registries do not change *)
Theorem C52_capture_any : forall mexp h r rd os, was_registered mexp h -> result mexp h (PCaptureRuntime r rd) os <> None ->
  result mexp h (PCaptureRuntime r rd) os = Some (Ok RUnit) /\
  next mexp h (PCaptureRuntime r rd) os = next mexp h (PCaptureRuntime None rd) os /\
  (forall l n, registered (fst (p_state (next mexp h (PCaptureRuntime r rd) os))) l n = registered (fst (p_state (preach mexp h))) l n).
Proof.
  intros mexp h r rd os Wr R. apply capture_ok_registry in R. apply done_iff in Wr. destruct (capture_step mexp (preach mexp h) r rd os (preach_PI mexp h) Wr R) as (w' & E & _ & B & _).
  unfold result, next. rewrite !preach_snoc. repeat match goal with |- _ /\ _ => split end.
  - now rewrite E.
  - unfold Runtime.pstep. cbn [fst snd]. rewrite R. reflexivity.
  - rewrite E. exact B.
Qed.
Theorem C52_debug_capture_any : forall mexp h r rd os, was_debug_registered mexp h -> result mexp h (PCaptureDebug r rd) os <> None ->
  result mexp h (PCaptureDebug r rd) os = Some (Ok RUnit) /\
  next mexp h (PCaptureDebug r rd) os = next mexp h (PCaptureDebug None rd) os /\
  (forall l n, registered (fst (p_state (next mexp h (PCaptureDebug r rd) os))) l n = registered (fst (p_state (preach mexp h))) l n).
Proof.
  intros mexp h r rd os Wr R. apply dbg_capture_ok_registry in R. apply dbg_done_iff in Wr. destruct (dbg_capture_step mexp (preach mexp h) r rd os (preach_PI mexp h) Wr R) as (w' & E & _ & B & _).
  unfold result, next. rewrite !preach_snoc. repeat match goal with |- _ /\ _ => split end.
  - now rewrite E.
  - unfold Runtime.pstep. cbn [fst snd]. rewrite R. reflexivity.
  - rewrite E. exact B.
Qed.

(** ** C57: captures change no gauge the program had before the registration *)
Lemma owners_new mexp h1 r0 os0 h2 f k l : ~ was_registered mexp h1 -> result mexp h1 (PRegisterRuntime r0) os0 <> None -> In (f, k) rt_create ->
  let s := preach mexp (h1 ++ (PRegisterRuntime r0, os0) :: h2) in
  owner (p_state s) (at_field (rt_tab s) f) = Some l -> List.length (heap (fst (p_state (preach mexp h1)))) <= l.
Proof.
  intros Nw R Hk s O. apply reg_result in R. assert (D : rt_done (preach mexp h1) = false) by (destruct (rt_done _) eqn:D; [exfalso; apply Nw; now apply done_iff|reflexivity]).
  pose proof (preach_PI mexp h1) as PI1. destruct (registered_step mexp (preach mexp h1) r0 os0 PI1 D R) as (st' & tab & E & Ea).
  destruct (register_all_ok mexp (p_state (preach mexp h1)) rt_create rt_register r0 os0 (proj1 PI1) rt_create_nodup rt_register_nodup rt_sub R) as (st1 & tab1 & E1 & _ & _ & _ & T & F & _). rewrite Ea in E1. injection E1 as <- <-.
  set (s1 := preach mexp (h1 ++ [(PRegisterRuntime r0, os0)])). assert (Es : s = prun mexp s1 h2). { unfold s, s1. change ((PRegisterRuntime r0, os0) :: h2) with ([(PRegisterRuntime r0, os0)] ++ h2). now rewrite app_assoc, preach_app. }
  assert (E1 : s1 = MkProc st' true tab (rt_prev (preach mexp h1)) (dbg_done (preach mexp h1)) (dbg_tab (preach mexp h1)) (dbg_last (preach mexp h1))) by (unfold s1; rewrite preach_snoc, E; reflexivity).
  assert (P1 : PI s1) by apply preach_PI. rewrite Es in O. destruct (tab_run mexp h2 s1 ltac:(rewrite E1; reflexivity)) as [_ Tb]. rewrite Tb in O.
  pose proof (F2_at rt_create tab f k F (born_fst _ _ _) rt_create_nodup Hk) as B. pose proof (born_entry _ _ _ _ _ B) as En. cbn [snd] in En.
  assert (P1s : p_state s1 = st') by (rewrite E1; reflexivity). assert (P1t : rt_tab s1 = tab) by (rewrite E1; reflexivity). rewrite P1t in O.
  rewrite (owner_grows st' _ k (at_field tab f)) in O; [|rewrite <- P1s; apply (PI_run mexp h2 s1 P1)|exact En].
  unfold born in B. destruct (usenil (fst (p_state (preach mexp h1)))).
  - destruct B as [_ B]. cbn [snd] in B. unfold owner in O. rewrite B in O. destruct k; discriminate O.
  - destruct B as (_ & v & l' & y & P & M & O' & Le & _). cbn [snd] in *. unfold owner in O. rewrite P in O. rewrite O in O'. injection O' as <-. exact Le.
Qed.
Theorem C57_others : forall mexp h1 r0 os0 h2 x v r rd os o, let h := h1 ++ (PRegisterRuntime r0, os0) :: h2 in
  ~ was_registered mexp h1 -> result mexp h1 (PRegisterRuntime r0) os0 <> None ->
  nth_error (snd (p_state (preach mexp h1))) x = Some v -> cls v = CGauge \/ cls v = CGaugeF -> result mexp h (PCaptureRuntime r rd) os <> None ->
  shown mexp (next mexp h (PCaptureRuntime r rd) os) x o = shown mexp (preach mexp h) x o.
Proof.
  intros mexp h1 r0 os0 h2 x v r rd os o h Nw R Ex Cv Okr.
  assert (Wr : was_registered mexp h) by (exists h1, r0, os0, h2; auto). apply done_iff in Wr.
  destruct (capture_step mexp (preach mexp h) r rd os (preach_PI mexp h) Wr (capture_ok_registry mexp _ _ _ _ Okr)) as (w' & E & _ & _ & C & _).
  assert (Eh : nth_error (snd (p_state (preach mexp h))) x = Some v) by (apply env_later; exact Ex).
  pose proof (proj2 (proj1 (preach_PI mexp h1))) as V1. rewrite Forall_forall in V1. specialize (V1 v (nth_error_In _ _ Ex)).
  pose proof (proj2 (proj1 (preach_PI mexp h))) as V2. rewrite Forall_forall in V2. specialize (V2 v (nth_error_In _ _ Eh)).
  assert (K : forall l y, l < List.length (heap (fst (p_state (preach mexp h1)))) -> nth_error (heap (fst (p_state (preach mexp h)))) l = Some y -> cell y -> nth_error (heap w') l = Some y).
  { intros l y Ll Ey Cy. rewrite (C l y Ey Cy). f_equal. apply eff_skip. intros xp Hxp X. apply in_map_iff in Hxp as (i & <- & Hi).
    pose proof (rt_items_ok (rt_prev (preach mexp h)) rd (o_now (os 0))) as It. rewrite Forall_forall in It. destruct (It i Hi) as (k & Hk & _). cbn [fst at_item] in X.
    pose proof (owners_new mexp h1 r0 os0 h2 (fst i) k l Nw R Hk X). lia. }
  unfold shown, next. rewrite preach_snoc, E. cbn [fst p_state].
  assert (S : forall (st : state), nth_error (snd st) x = Some v -> snd (step mexp st (OValue x, o)) = match m_value v with Some m => match snd (m o (fst st)) with Ok r => Some (Ok r) | Panic msg => Some (Panic msg) end | None => None end).
  { intros st Es. unfold World.step. cbn [fst snd World.call]. unfold obind. rewrite Es. destruct (m_value v) as [m|]; [|reflexivity]. destruct (m o (fst st)) as [w [r1|m1]]; reflexivity. }
  rewrite !S by exact Eh. cbn [fst]. destruct v; destruct Cv as [Cv|Cv]; try discriminate Cv; cbn [m_value cls]; unfold z_rv, f_rv, gauge_value, gaugef_value, bind, ret, ask; try reflexivity.
  - unfold g_do, bind, load. cbn in V1, V2. destruct V1 as (y1 & E1 & _), V2 as (y & E2 & T). destruct y; try discriminate T. rewrite (K l (OGauge n) (nth_lt _ _ _ E1) E2 Logic.I), E2. reflexivity.
  - unfold gf_do, bind, load. cbn in V1, V2. destruct V1 as (y1 & E1 & _), V2 as (y & E2 & T). destruct y; try discriminate T. rewrite (K l (OGaugeF b) (nth_lt _ _ _ E1) E2 Logic.I), E2. reflexivity.
Qed.
