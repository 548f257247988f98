(** Histories of processes: what the variables of runtime.go and debug.go hold. *)
From Coq Require Import ZArith List String Bool Lia Arith Permutation.
From Verif.Model Require Import GoInt GoFloat GoBase Stats Uniform ExpDecay Conc CounterGauge Ewma Meter World Runtime.
From Verif.Spec Require Import RegistrySpec RuntimeSpec.
From Verif.Proofs Require Import WorldBase WorldStep WorldFrame WorldSnap RegistryProofs RegistryStep RegistryNew ExpDecayProofs TimerHistory RuntimeProofs ProcProofs.
From Verif.Props Require RegistryProps.
Import ListNotations.
Local Open Scope nat_scope.
Local Open Scope list_scope.

Section Hist.
Variable mexp : f64 -> f64.
Notation pstep := (pstep mexp).
Notation prun := (prun mexp).
Notation preach := (preach mexp).
Lemma prun_cons s co h : prun s (co :: h) = prun (fst (pstep s co)) h. Proof. reflexivity. Qed.
Lemma prun_app s h1 h2 : prun s (h1 ++ h2) = prun (prun s h1) h2. Proof. apply fold_left_app. Qed.
Lemma preach_app h1 h2 : preach (h1 ++ h2) = prun (preach h1) h2. Proof. apply prun_app. Qed.
Lemma preach_snoc h co : preach (h ++ [co]) = fst (pstep (preach h) co). Proof. rewrite preach_app. reflexivity. Qed.
Lemma preach_PI h : PI (preach h). Proof. exact (proj1 (PI_run mexp h proc_init PI_init)). Qed.

Ltac psplit s c := unfold Runtime.pstep; cbn [fst snd]; destruct c as [c|r|r x|r|r x];
  [|destruct (negb (is_registry (snd (p_state s)) r))..].
Lemma done_step s c os : (forall r, c <> PRegisterRuntime r) -> rt_done (fst (pstep s (c, os))) = rt_done s.
Proof.
  intros N. psplit s c; try reflexivity.
  - destruct (step mexp (p_state s) (c, os 0)); reflexivity.
  - exfalso. eapply N. reflexivity.
  - destruct (rt_tab s); [reflexivity|]. destruct (exec mexp _ _ _); reflexivity.
  - destruct (dbg_done s); [reflexivity|]. destruct (register_all mexp _ _ _ _ _) as [[? ?] ?]; reflexivity.
  - destruct (dbg_tab s); [reflexivity|]. destruct (exec mexp _ _ _); reflexivity.
Qed.
Lemma dbg_done_step s c os : (forall r, c <> PRegisterDebug r) -> dbg_done (fst (pstep s (c, os))) = dbg_done s.
Proof.
  intros N. psplit s c; try reflexivity.
  - destruct (step mexp (p_state s) (c, os 0)); reflexivity.
  - destruct (rt_done s); [reflexivity|]. destruct (register_all mexp _ _ _ _ _) as [[? ?] ?]; reflexivity.
  - destruct (rt_tab s); [reflexivity|]. destruct (exec mexp _ _ _); reflexivity.
  - exfalso. eapply N. reflexivity.
  - destruct (dbg_tab s); [reflexivity|]. destruct (exec mexp _ _ _); reflexivity.
Qed.
Lemma not_done h : no_registration h -> rt_done (preach h) = false.
Proof.
  induction h as [|[c os] h IH] using rev_ind; intros N; [reflexivity|]. rewrite preach_snoc, done_step.
  - apply IH. intros r os' H. apply (N r os'). apply in_or_app. auto.
  - intros r ->. apply (N r os). apply in_or_app. right. left. reflexivity.
Qed.
Lemma dbg_not_done h : no_debug_registration h -> dbg_done (preach h) = false.
Proof.
  induction h as [|[c os] h IH] using rev_ind; intros N; [reflexivity|]. rewrite preach_snoc, dbg_done_step.
  - apply IH. intros r os' H. apply (N r os'). apply in_or_app. auto.
  - intros r ->. apply (N r os). apply in_or_app. right. left. reflexivity.
Qed.
Lemma tab_step s co : rt_done s = true -> rt_done (fst (pstep s co)) = true /\ rt_tab (fst (pstep s co)) = rt_tab s.
Proof.
  intros D. destruct co as [c os]. psplit s c; auto.
  - destruct (step mexp (p_state s) (c, os 0)); auto.
  - rewrite D. auto.
  - destruct (rt_tab s) eqn:E; [auto|]. destruct (exec mexp _ _ _); auto.
  - destruct (dbg_done s); [auto|]. destruct (register_all mexp _ _ _ _ _) as [[? ?] ?]; auto.
  - destruct (dbg_tab s); [auto|]. destruct (exec mexp _ _ _); auto.
Qed.
Lemma dbg_tab_step s co : dbg_done s = true -> dbg_done (fst (pstep s co)) = true /\ dbg_tab (fst (pstep s co)) = dbg_tab s.
Proof.
  intros D. destruct co as [c os]. psplit s c; auto.
  - destruct (step mexp (p_state s) (c, os 0)); auto.
  - destruct (rt_done s); [auto|]. destruct (register_all mexp _ _ _ _ _) as [[? ?] ?]; auto.
  - destruct (rt_tab s) eqn:E; [auto|]. destruct (exec mexp _ _ _); auto.
  - rewrite D. auto.
  - destruct (dbg_tab s) eqn:E; [auto|]. destruct (exec mexp _ _ _); auto.
Qed.
Lemma tab_run h : forall s, rt_done s = true -> rt_done (prun s h) = true /\ rt_tab (prun s h) = rt_tab s.
Proof. induction h as [|co h IH]; intros s D; [auto|]. rewrite prun_cons. destruct (tab_step s co D) as [A B]. destruct (IH _ A). split; congruence. Qed.
Lemma dbg_tab_run h : forall s, dbg_done s = true -> dbg_done (prun s h) = true /\ dbg_tab (prun s h) = dbg_tab s.
Proof. induction h as [|co h IH]; intros s D; [auto|]. rewrite prun_cons. destruct (dbg_tab_step s co D) as [A B]. destruct (IH _ A). split; congruence. Qed.

(** the previous statistics *)
Definition prev_of (o : option reading) : previous := match o with Some r => remember r | None => prev0 end.
Lemma captured_prev h : forall s acc, rt_prev s = prev_of (hd_error acc) -> rt_prev (prun s h) = prev_of (hd_error (captured mexp s h acc)).
Proof.
  induction h as [|[c os] h IH]; intros s acc E; [exact E|]. rewrite prun_cons. cbn [captured]. apply IH. clear IH. cbn [fst]. psplit s c; try exact E.
  - destruct (step mexp (p_state s) (c, os 0)); exact E.
  - destruct (rt_done s); [exact E|]. destruct (register_all mexp _ _ _ _ _) as [[? ?] ?]; exact E.
  - destruct (rt_tab s) eqn:Et; [exact E|]. destruct (exec mexp _ _ _) as [st [m|]]; [exact E|reflexivity].
  - destruct (dbg_done s); [exact E|]. destruct (register_all mexp _ _ _ _ _) as [[? ?] ?]; exact E.
  - destruct (dbg_tab s) eqn:Et; [exact E|]. destruct (exec mexp _ _ _) as [st [m|]]; exact E.
Qed.
Lemma prev_reach h : rt_prev (preach h) = prev_of (last_capture mexp h).
Proof. apply captured_prev. reflexivity. Qed.
Lemma gc_captured_prev h : forall s acc, dbg_last s = option_map gc_LastGC (hd_error acc) -> dbg_last (prun s h) = option_map gc_LastGC (hd_error (gc_captured mexp s h acc)).
Proof.
  induction h as [|[c os] h IH]; intros s acc E; [exact E|]. rewrite prun_cons. cbn [gc_captured]. apply IH. clear IH. cbn [fst]. psplit s c; try exact E.
  - destruct (step mexp (p_state s) (c, os 0)); exact E.
  - destruct (rt_done s); [exact E|]. destruct (register_all mexp _ _ _ _ _) as [[? ?] ?]; exact E.
  - destruct (rt_tab s) eqn:Et; [exact E|]. destruct (exec mexp _ _ _) as [st [m|]]; exact E.
  - destruct (dbg_done s); [exact E|]. destruct (register_all mexp _ _ _ _ _) as [[? ?] ?]; exact E.
  - destruct (dbg_tab s) eqn:Et; [reflexivity|]. destruct (exec mexp _ _ _) as [st [m|]]; reflexivity.
Qed.
Lemma gc_prev_reach h : dbg_last (preach h) = option_map gc_LastGC (last_gc_capture mexp h).
Proof. apply gc_captured_prev. reflexivity. Qed.
Lemma captured_app h1 h2 : forall s acc, captured mexp s (h1 ++ h2) acc = captured mexp (prun s h1) h2 (captured mexp s h1 acc).
Proof. induction h1 as [|co h1 IH]; intros s acc; [reflexivity|]. cbn [app captured]. rewrite IH. reflexivity. Qed.
Lemma last_capture_snoc h c os : last_capture mexp (h ++ [(c, os)]) = match c, result mexp h c os with PCaptureRuntime _ x, Some (Ok _) => Some x | _, _ => last_capture mexp h end.
Proof.
  unfold last_capture. rewrite captured_app. cbn [captured fst]. unfold result. fold (preach h). destruct c; try reflexivity. destruct (snd (pstep (preach h) (PCaptureRuntime r x, os))) as [[]|]; reflexivity.
Qed.

(** the first registration *)
Lemma registered_step s r os : PI s -> rt_done s = false -> is_registry (snd (p_state s)) r = true ->
  exists st' tab, pstep s (PRegisterRuntime r, os) = (MkProc st' true tab (rt_prev s) (dbg_done s) (dbg_tab s) (dbg_last s), Some (match r with None => Panic msg_nil | Some _ => Ok RUnit end)) /\
    register_all mexp (p_state s) rt_create rt_register r os = (st', tab, match r with None => Some msg_nil | Some _ => None end).
Proof.
  intros (I & _) D Rg. destruct (register_all_ok mexp (p_state s) rt_create rt_register r os I rt_create_nodup rt_register_nodup rt_sub Rg) as (st' & tab & E & _).
  exists st', tab. split; [|exact E]. unfold Runtime.pstep. cbn [fst snd]. rewrite Rg, D. cbn [negb]. rewrite E. destruct r; reflexivity.
Qed.
Lemma dbg_registered_step s r os : PI s -> dbg_done s = false -> is_registry (snd (p_state s)) r = true ->
  exists st' tab, pstep s (PRegisterDebug r, os) = (MkProc st' (rt_done s) (rt_tab s) (rt_prev s) true tab (dbg_last s), Some (match r with None => Panic msg_nil | Some _ => Ok RUnit end)) /\
    register_all mexp (p_state s) dbg_create dbg_register r os = (st', tab, match r with None => Some msg_nil | Some _ => None end).
Proof.
  intros (I & _) D Rg. destruct (register_all_ok mexp (p_state s) dbg_create dbg_register r os I dbg_create_nodup dbg_register_nodup dbg_sub Rg) as (st' & tab & E & _).
  exists st', tab. split; [|exact E]. unfold Runtime.pstep. cbn [fst snd]. rewrite Rg, D. cbn [negb]. rewrite E. destruct r; reflexivity.
Qed.
Lemma get_registry (st : state) x n o g : snd (step mexp st (OGet x n, o)) = Some (Ok (RVal g)) -> exists v, nth_error (snd st) x = Some v /\ cls v = CReg.
Proof.
  unfold World.step. cbn [fst snd World.call]. unfold obind, only. destruct (nth_error (snd st) x) as [v|]; [|discriminate]. intros H. exists v. split; auto. destruct (cls v); cbn [class_eqb] in H; try discriminate H; reflexivity.
Qed.
Lemma is_reg_some (e : env) x v : nth_error e x = Some v -> cls v = CReg -> is_registry e (Some x) = true.
Proof. intros E C. unfold is_registry, arg. now rewrite E, C. Qed.
Lemma put_at (cr : list (string * mk)) names (st st' : state) tab x os name f k o g :
  inv st -> NoDup (map fst cr) -> NoDup (map fst names) -> (forall nf, In nf names -> In (snd nf) (map fst cr)) ->
  register_all mexp st cr names (Some x) os = (st', tab, None) -> usenil (fst st) = false ->
  snd (step mexp st (OGet x name, o)) = Some (Ok (RVal VNil)) -> snd (step mexp st' (OGet x name, o)) = Some (Ok (RVal g)) ->
  In (name, f) names -> In (f, k) cr -> nth_error (snd st') (at_field tab f) = Some g /\ made (fst st') k g.
Proof.
  intros I Nc Nn Sub E U G1 G2 Hn Hk. destruct (get_registry st x name o VNil G1) as (v & Ev & Cv).
  destruct (register_all_ok mexp st cr names (Some x) os I Nc Nn Sub (is_reg_some _ _ _ Ev Cv)) as (st1 & tab1 & E1 & I1 & Gr & _ & T & F & _ & v' & Ev' & _ & B & _).
  rewrite E in E1. injection E1 as <- <-. rewrite Ev in Ev'. injection Ev' as <-.
  assert (EvN : nth_error (snd st') x = Some v) by (apply Gr; exact Ev).
  rewrite (RegistryProps.get_step mexp st x v name o I Ev Cv) in G1. rewrite (RegistryProps.get_step mexp st' x v name o I1 EvN Cv) in G2. cbn [snd] in G1, G2. injection G1 as G1. injection G2 as G2.
  specialize (B (name, f) Hn). cbn [fst snd] in B. rewrite U in F. cbn [born] in F.
  pose proof (F2_at cr tab f k F (fun a b => proj1 (A := fst a = fst b) (B := _)) Nc Hk) as (_ & v0 & l & y & P & M & _). cbn [snd] in P, M.
  rewrite P in B. destruct (bound (registered (fst st)) v name) as [j|].
  - subst j. exfalso.
    (* a registry never holds nil *)
    assert (Y : exists l0 n0, registered (fst st') l0 n0 = Some VNil) by (unfold bound in B; destruct (base v); [eauto|discriminate]). destruct Y as (l0 & n0 & Y). unfold registered in Y. destruct (nth_error (heap (fst st')) l0) as [z|] eqn:Ez; [|discriminate]. destruct z; try discriminate.
    rewrite <- lookup_find in Y. apply lookup_In in Y. pose proof (wf_obj _ (proj1 I1) _ _ Ez) as O. cbn in O. destruct O as [_ O]. rewrite Forall_forall in O. specialize (O _ Y). cbn in O. destruct O as [O _]. discriminate O.
  - rewrite B in G2. subst v0. auto.
Qed.
Lemma metric_at h name f k g : runtime_metric mexp h name g -> In (name, f) rt_register -> In (f, k) rt_create ->
  rt_done (preach h) = true /\ nth_error (snd (p_state (preach h))) (at_field (rt_tab (preach h)) f) = Some g /\ made (fst (p_state (preach h))) k g.
Proof.
  intros (h1 & x & os & h2 & o & -> & N & U & G1 & G2) Hn Hk. pose proof (preach_PI h1) as P1. unfold looked_up, next in *. rewrite preach_snoc in G2.
  destruct (get_registry _ _ _ _ _ G1) as (v & Ev & Cv).
  destruct (registered_step (preach h1) (Some x) os P1 (not_done h1 N) (is_reg_some _ _ _ Ev Cv)) as (st' & tab & E & R). rewrite E in G2. cbn [fst p_state] in G2.
  destruct (put_at rt_create rt_register (p_state (preach h1)) st' tab x os name f k o g (proj1 P1) rt_create_nodup rt_register_nodup rt_sub R U G1 G2 Hn Hk) as [A B].
  rewrite preach_app, prun_cons, E. cbn [fst]. set (s1 := MkProc st' true tab _ _ _ _).
  assert (P2 : PI s1) by (pose proof (proj1 (PI_step mexp (preach h1) (PRegisterRuntime (Some x)) os P1)) as X; rewrite E in X; exact X).
  destruct (tab_run h2 s1 eq_refl) as [D T]. destruct (PI_run mexp h2 s1 P2) as [_ [Ge Gm]]. rewrite T. split; [exact D|]. split; [apply Ge; exact A|apply Gm; exact B].
Qed.
Lemma dbg_metric_at h name f k g : debug_metric mexp h name g -> In (name, f) dbg_register -> In (f, k) dbg_create ->
  dbg_done (preach h) = true /\ nth_error (snd (p_state (preach h))) (at_field (dbg_tab (preach h)) f) = Some g /\ made (fst (p_state (preach h))) k g.
Proof.
  intros (h1 & x & os & h2 & o & -> & N & U & G1 & G2) Hn Hk. pose proof (preach_PI h1) as P1. unfold looked_up, next in *. rewrite preach_snoc in G2.
  destruct (get_registry _ _ _ _ _ G1) as (v & Ev & Cv).
  destruct (dbg_registered_step (preach h1) (Some x) os P1 (dbg_not_done h1 N) (is_reg_some _ _ _ Ev Cv)) as (st' & tab & E & R). rewrite E in G2. cbn [fst p_state] in G2.
  destruct (put_at dbg_create dbg_register (p_state (preach h1)) st' tab x os name f k o g (proj1 P1) dbg_create_nodup dbg_register_nodup dbg_sub R U G1 G2 Hn Hk) as [A B].
  rewrite preach_app, prun_cons, E. cbn [fst]. set (s1 := MkProc st' _ _ _ true tab _).
  assert (P2 : PI s1) by (pose proof (proj1 (PI_step mexp (preach h1) (PRegisterDebug (Some x)) os P1)) as X; rewrite E in X; exact X).
  destruct (dbg_tab_run h2 s1 eq_refl) as [D T]. destruct (PI_run mexp h2 s1 P2) as [_ [Ge Gm]]. rewrite T. split; [exact D|]. split; [apply Ge; exact A|apply Gm; exact B].
Qed.

(** captures *)
Lemma tab_nonempty st cr tab : tab_ok st cr tab -> cr <> [] -> exists t r, tab = t :: r.
Proof. intros [F _] N. destruct F; [congruence|eauto]. Qed.
Lemma capture_step s r x os : PI s -> rt_done s = true -> is_registry (snd (p_state s)) r = true ->
  exists w', pstep s (PCaptureRuntime r x, os) = (MkProc (w', snd (p_state s)) true (rt_tab s) (remember x) (dbg_done s) (dbg_tab s) (dbg_last s), Some (Ok RUnit)) /\
    usenil w' = usenil (fst (p_state s)) /\ (forall l n, registered w' l n = registered (fst (p_state s)) l n) /\
    (forall l y, nth_error (heap (fst (p_state s))) l = Some y -> cell y ->
       nth_error (heap w') l = Some (eff mexp (owner (p_state s)) l (map (at_item (at_field (rt_tab s))) (rt_items (rt_prev s) x (o_now (os 0)))) (fun n => os (S n)) y)) /\
    grows (p_state s) (w', snd (p_state s)).
Proof.
  intros (I & R & _) D Rg. rewrite D in R. destruct (tab_nonempty _ _ _ R ltac:(discriminate)) as (t0 & tr & Et).
  destruct (items_run mexp (p_state s) rt_create (rt_tab s) (rt_items (rt_prev s) x (o_now (os 0))) (fun n => os (S n)) I R rt_create_nodup (rt_items_ok _ _ _)) as (w' & Ex & I' & U & Rg' & C & Gr).
  exists w'. split; [|auto]. unfold Runtime.pstep. cbn [fst snd]. rewrite Rg. cbn [negb]. rewrite Et in *. rewrite capture_items, Ex, D. reflexivity.
Qed.
Lemma dbg_capture_step s r x os : PI s -> dbg_done s = true -> is_registry (snd (p_state s)) r = true ->
  exists w', pstep s (PCaptureDebug r x, os) = (MkProc (w', snd (p_state s)) (rt_done s) (rt_tab s) (rt_prev s) true (dbg_tab s) (Some (gc_LastGC x)), Some (Ok RUnit)) /\
    usenil w' = usenil (fst (p_state s)) /\ (forall l n, registered w' l n = registered (fst (p_state s)) l n) /\
    (forall l y, nth_error (heap (fst (p_state s))) l = Some y -> cell y ->
       nth_error (heap w') l = Some (eff mexp (owner (p_state s)) l (map (at_item (at_field (dbg_tab s))) (dbg_items (dbg_last s) x (o_now (os 0)))) (fun n => os (S n)) y)) /\
    grows (p_state s) (w', snd (p_state s)).
Proof.
  intros (I & _ & R) D Rg. rewrite D in R. destruct (tab_nonempty _ _ _ R ltac:(discriminate)) as (t0 & tr & Et).
  destruct (items_run mexp (p_state s) dbg_create (dbg_tab s) (dbg_items (dbg_last s) x (o_now (os 0))) (fun n => os (S n)) I R dbg_create_nodup (dbg_items_ok _ _ _)) as (w' & Ex & I' & U & Rg' & C & Gr).
  exists w'. split; [|auto]. unfold Runtime.pstep. cbn [fst snd]. rewrite Rg. cbn [negb]. rewrite Et in *. rewrite dbg_capture_items, Ex, D. reflexivity.
Qed.
Lemma capture_ok_registry s r x os : snd (pstep s (PCaptureRuntime r x, os)) <> None -> is_registry (snd (p_state s)) r = true.
Proof. unfold Runtime.pstep. cbn [fst snd]. destruct (is_registry _ _); [reflexivity|]. cbn. congruence. Qed.
Lemma dbg_capture_ok_registry s r x os : snd (pstep s (PCaptureDebug r x, os)) <> None -> is_registry (snd (p_state s)) r = true.
Proof. unfold Runtime.pstep. cbn [fst snd]. destruct (is_registry _ _); [reflexivity|]. cbn. congruence. Qed.
End Hist.
