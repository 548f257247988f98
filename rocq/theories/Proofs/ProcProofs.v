(** Processes: the invariant of the runtime and debug metrics, and what a
    registration and a capture do. *)
From Coq Require Import ZArith List String Bool Lia Arith Permutation.
From Verif.Model Require Import GoInt GoFloat GoBase Stats Uniform ExpDecay Conc CounterGauge Ewma Meter World Runtime.
From Verif.Spec Require Import RegistrySpec.
From Verif.Proofs Require Import WorldBase WorldStep WorldFrame WorldSnap RegistryProofs RegistryStep RegistryNew ExpDecayProofs TimerHistory RuntimeProofs.
Import ListNotations.
Local Open Scope nat_scope.
Local Open Scope list_scope.

Section Proc.
Variable mexp : f64 -> f64.

Lemma news_registered cs : Forall (fun c => exists k, c = ONew k) cs -> forall (st : state) os, inv st -> forall l n, registered (fst (fst (exec mexp st cs os))) l n = registered (fst st) l n.
Proof.
  induction 1 as [|c cs (k & ->) F IH]; intros st os I l n; cbn [exec]; [reflexivity|]. pose proof (refine mexp st (ONew k) (os 0) I l n) as R. cbn [after] in R. pose proof (proj1 (step_inv mexp st (ONew k) (os 0) I)) as I1.
  destruct (step mexp st (ONew k, os 0)) as [st' [[r|m]|]]; cbn [fst] in *; auto; rewrite IH; auto.
Qed.
Lemma creation_news cr : forall n, Forall (fun c => exists k, c = ONew k) (fst (creation n cr)).
Proof. induction cr as [|[f k] cr IH]; intros n; [constructor|]. rewrite creation_cons. cbn [fst]. apply Forall_app. split; [|apply IH]. destruct k; repeat constructor; eauto. Qed.
Definition born (n : bool) (L : nat) (st : state) (fk : string * mk) (gi : string * nat) : Prop :=
  if n then fst fk = fst gi /\ nth_error (snd st) (snd gi) = Some (stub (snd fk)) else entry_made st L fk gi.
Lemma F2_at {P : string * mk -> string * nat -> Prop} cr tab f k : Forall2 P cr tab -> (forall a b, P a b -> fst a = fst b) -> NoDup (map fst cr) -> In (f, k) cr -> P (f, k) (f, at_field tab f).
Proof.
  intros F Q. induction F as [|[a ka] [b ib] cr tab H F IH]; intros ND HI; [contradiction|]. pose proof (Q _ _ H) as E. cbn [fst snd map] in *. subst b. inversion ND; subst. cbn [at_field]. destruct HI as [HI|HI].
  - injection HI as -> ->. now rewrite String.eqb_refl.
  - destruct (String.eqb_spec a f) as [->|D]; [|auto]. exfalso. apply H2. change f with (fst (f, k)). now apply in_map.
Qed.
Lemma born_fst n L st a b : born n L st a b -> fst a = fst b.
Proof. unfold born, entry_made. destruct n; tauto. Qed.
Lemma born_entry n L st a b : born n L st a b -> entry st (snd a) (snd b).
Proof. unfold born, entry_made, entry. destruct n; [intros [_ E]; eauto|]. intros (_ & v & l & y & E & M & _). eauto. Qed.
Lemma register_all_ok (st : state) cr names r os : inv st -> NoDup (map fst cr) -> NoDup (map fst names) -> (forall nf, In nf names -> In (snd nf) (map fst cr)) -> is_registry (snd st) r = true ->
  exists st' tab, register_all mexp st cr names r os = (st', tab, match r with None => Some msg_nil | Some _ => None end) /\
    inv st' /\ grows st st' /\ usenil (fst st') = usenil (fst st) /\ tab_ok st' cr tab /\
    Forall2 (born (usenil (fst st)) (List.length (heap (fst st))) st') cr tab /\
    (forall l y, nth_error (heap (fst st)) l = Some y -> cell y -> nth_error (heap (fst st')) l = Some y) /\
    match r with
    | None => forall l n, registered (fst st') l n = registered (fst st) l n
    | Some x => exists v, nth_error (snd st) x = Some v /\ cls v = CReg /\
        (forall nf, In nf names -> bound (registered (fst st')) v (fst nf) = match bound (registered (fst st)) v (fst nf) with Some j => Some j | None => nth_error (snd st') (at_field tab (snd nf)) end) /\
        (forall l n, (forall nf, In nf names -> base v <> Some l \/ n <> full v (fst nf)) -> registered (fst st') l n = registered (fst st) l n)
    end.
Proof.
  intros I NDc NDn Sub Rg. unfold register_all.
  assert (C : exists w1 ex, exec mexp st (fst (creation (List.length (snd st)) cr)) os = ((w1, snd st ++ ex), None) /\ usenil w1 = usenil (fst st) /\
     (forall l y, nth_error (heap (fst st)) l = Some y -> nth_error (heap w1) l = Some y) /\
     Forall2 (born (usenil (fst st)) (List.length (heap (fst st))) (w1, snd st ++ ex)) cr (snd (creation (List.length (snd st)) cr)) /\
     apart (w1, snd st ++ ex) (snd (creation (List.length (snd st)) cr))).
  { destruct (usenil (fst st)) eqn:U.
    - destruct (create_nil mexp cr st os U) as (ex & Ex & F). exists (fst st), ex. split; [exact Ex|]. split; [exact U|]. split; [auto|]. split; [exact F|].
      intros i j f g l Ef Eg Of. exfalso. apply nth_error_In in Ef. clear -F Ef Of. revert F Ef. generalize (snd (creation (List.length (snd st)) cr)). intros tab F. induction F as [|a b la lb [_ H] F IH]; intros E; [contradiction|]. destruct E as [<-|E]; [|auto].
      unfold owner in Of. cbn [fst snd] in Of. rewrite H in Of. destruct (snd a); discriminate.
    - destruct (create mexp cr st os I U) as (w1 & ex & Ex & U1 & (h & Eh) & F & A). exists w1, ex. split; [exact Ex|]. split; [exact U1|]. split; [intros l y E; rewrite Eh; now apply nth_app_l|]. auto. }
  destruct C as (w1 & ex & Ex & U1 & H1 & F1 & A1).
  pose proof (exec_inv mexp (fst (creation (List.length (snd st)) cr)) st os I) as I1. rewrite Ex in I1. cbn [fst] in I1.
  pose proof (grows_exec mexp (fst (creation (List.length (snd st)) cr)) st os I) as G1. rewrite Ex in G1. cbn [fst] in G1.
  pose proof (news_registered _ (creation_news cr (List.length (snd st))) st os I) as R1. rewrite Ex in R1. cbn [fst] in R1.
  destruct (creation (List.length (snd st)) cr) as [cs tab] eqn:Cr. cbn [fst snd] in *. rewrite Ex.
  assert (T1 : tab_ok (w1, snd st ++ ex) cr tab).
  { split; [|exact A1]. eapply F2_impl; [|exact F1]. intros a b B. split; [eapply born_fst; eauto|eapply born_entry; eauto]. }
  destruct r as [x|].
  - unfold is_registry in Rg. destruct (arg (snd st) CReg x) as [v|] eqn:Ax; [|discriminate].
    assert (Ev : nth_error (snd st) x = Some v /\ cls v = CReg) by (unfold arg in Ax; destruct (nth_error (snd st) x) as [u|]; [|discriminate]; destruct (cls u) eqn:Cu; inversion Ax; subst; auto).
    destruct Ev as [Ev Cv].
    assert (NM : forall nf, In nf names -> exists i, nth_error (snd st ++ ex) (at_field tab (snd nf)) = Some i /\ metric i = true).
    { intros nf Hn. apply Sub in Hn. apply in_map_iff in Hn. destruct Hn as ([f k] & Hf & Hin). cbn in Hf. subst f.
      pose proof (F2_at cr tab (snd nf) k F1 (born_fst _ _ _) NDc Hin) as B. apply born_entry in B. cbn [snd] in B. destruct B as (i & Ei & M). exists i. split; [exact Ei|]. eapply made_metric; eauto. }
    destruct (registers mexp names x v tab (w1, snd st ++ ex) (fun n => os (n + List.length cs)) I1 ltac:(cbn [snd]; now apply nth_app_l) Cv NM NDn) as (w' & Ex' & I' & U' & C' & M' & B' & F').
    pose proof (grows_exec mexp (registration x tab names) (w1, snd st ++ ex) (fun n => os (n + List.length cs)) I1) as G2. rewrite Ex' in G2. cbn [fst snd] in *. rewrite Ex'.
    exists (w', snd st ++ ex), tab. split; [reflexivity|]. split; [exact I'|]. split; [eapply grows_trans; eauto|]. split; [cbn [fst]; congruence|]. split; [eapply tab_ok_grows; eauto|]. split; [|split].
    + eapply F2_impl; [|exact F1]. intros a b B. unfold born in *. destruct (usenil (fst st)); [exact B|]. unfold entry_made in *. cbn [fst snd] in *. destruct B as (E & v0 & l & y & P & Q & O & L & Y & Bl). split; [exact E|]. exists v0, l, y.
      split; [exact P|]. split; [apply (M' _ _ Q)|]. split; [destruct (M' _ _ Q); congruence|]. split; [exact L|]. split; [|exact Bl]. apply C'; [exact Y|]. destruct (snd a); cbn in Bl; [subst; exact Logic.I|subst; exact Logic.I| |]; destruct Bl as (? & ? & ->); exact Logic.I.
    + intros l y E Cy. cbn [fst]. apply C'; auto.
    + exists v. split; [exact Ev|]. split; [exact Cv|]. cbn [fst snd]. split.
      * intros nf Hn. rewrite (B' nf Hn). unfold bound. destruct (base v); [rewrite R1|]; reflexivity.
      * intros l n Hn. rewrite (F' l n Hn). apply R1.
  - exists (w1, snd st ++ ex), tab. split; [reflexivity|]. split; [exact I1|]. split; [exact G1|]. split; [exact U1|]. split; [exact T1|]. split; [exact F1|]. split; [auto|]. exact R1.
Qed.

(** ** the invariant *)
Definition PI (s : proc) : Prop :=
  inv (p_state s) /\
  (if rt_done s then tab_ok (p_state s) rt_create (rt_tab s) else rt_tab s = [] /\ rt_prev s = prev0) /\
  (if dbg_done s then tab_ok (p_state s) dbg_create (dbg_tab s) else dbg_tab s = []).
Lemma PI_init : PI proc_init.
Proof. split; [exact (inv_init)|]. cbn. auto. Qed.

Lemma strs_nodup l : (fix nd l := match l with [] => true | x :: r => negb (existsb (String.eqb x) r) && nd r end) l = true -> NoDup l.
Proof.
  induction l as [|x l IH]; intros H; [constructor|]. apply andb_true_iff in H. destruct H as [A B]. constructor; [|auto]. intros X. apply negb_true_iff in A. rewrite <- not_true_iff_false in A. apply A. apply existsb_exists. exists x. split; auto. apply String.eqb_refl.
Qed.
Lemma strs_sub l m : forallb (fun x => existsb (String.eqb x) m) l = true -> forall x, In x l -> In x m.
Proof. intros H x Hx. rewrite forallb_forall in H. specialize (H x Hx). apply existsb_exists in H. destruct H as (y & Hy & E). apply String.eqb_eq in E. now subst. Qed.
Lemma rt_create_nodup : NoDup (map fst rt_create). Proof. apply strs_nodup. reflexivity. Qed.
Lemma rt_register_nodup : NoDup (map fst rt_register). Proof. apply strs_nodup. reflexivity. Qed.
Lemma dbg_create_nodup : NoDup (map fst dbg_create). Proof. apply strs_nodup. reflexivity. Qed.
Lemma dbg_register_nodup : NoDup (map fst dbg_register). Proof. apply strs_nodup. reflexivity. Qed.
Lemma rt_sub nf : In nf rt_register -> In (snd nf) (map fst rt_create).
Proof. intros H. apply (strs_sub (map snd rt_register) (map fst rt_create)); [reflexivity|]. now apply in_map. Qed.
Lemma dbg_sub nf : In nf dbg_register -> In (snd nf) (map fst dbg_create).
Proof. intros H. apply (strs_sub (map snd dbg_register) (map fst dbg_create)); [reflexivity|]. now apply in_map. Qed.

Lemma PI_step s c os : PI s -> PI (fst (pstep mexp s (c, os))) /\ grows (p_state s) (p_state (fst (pstep mexp s (c, os)))).
Proof.
  intros P. pose proof P as (I & R & D). unfold pstep. cbn [fst snd]. destruct c as [c|r|r x|r|r g].
  - pose proof (grows_step mexp (p_state s) c (os 0) I) as Gr. pose proof (proj1 (step_inv mexp (p_state s) c (os 0) I)) as I'. destruct (step mexp (p_state s) (c, os 0)) as [st' res]. cbn [fst] in *. split; [|exact Gr]. split; [exact I'|]. cbn [p_state rt_done rt_tab rt_prev dbg_done dbg_tab].
    split; [destruct (rt_done s); [eapply tab_ok_grows; eauto|exact R]|destruct (dbg_done s); [eapply tab_ok_grows; eauto|exact D]].
  - destruct (is_registry (snd (p_state s)) r) eqn:Rg; [|split; [exact P|apply grows_refl]]. cbn [negb]. destruct (rt_done s) eqn:Dn; [split; [exact P|apply grows_refl]|].
    destruct (register_all_ok (p_state s) rt_create rt_register r os I rt_create_nodup rt_register_nodup rt_sub Rg) as (st' & tab & E & I' & Gr & _ & T & _). rewrite E. cbn [fst p_state]. split; [|exact Gr].
    split; [exact I'|]. cbn [p_state rt_done rt_tab rt_prev dbg_done dbg_tab]. split; [exact T|]. destruct (dbg_done s); [eapply tab_ok_grows; eauto|exact D].
  - destruct (is_registry (snd (p_state s)) r) eqn:Rg; [|split; [exact P|apply grows_refl]]. cbn [negb]. destruct (rt_tab s) as [|t0 tab] eqn:Et; [split; [exact P|apply grows_refl]|].
    pose proof (grows_exec mexp (capture (at_field (t0 :: tab)) (rt_prev s) x (o_now (os 0))) (p_state s) (fun n => os (S n)) I) as Gr.
    pose proof (exec_inv mexp (capture (at_field (t0 :: tab)) (rt_prev s) x (o_now (os 0))) (p_state s) (fun n => os (S n)) I) as I'.
    destruct (exec mexp (p_state s) _ _) as [st' m]. cbn [fst p_state] in *. split; [|exact Gr]. split; [exact I'|]. cbn [p_state rt_done rt_tab rt_prev dbg_done dbg_tab].
    split; [destruct (rt_done s); [eapply tab_ok_grows; eauto|destruct R; discriminate]|destruct (dbg_done s); [eapply tab_ok_grows; eauto|exact D]].
  - destruct (is_registry (snd (p_state s)) r) eqn:Rg; [|split; [exact P|apply grows_refl]]. cbn [negb]. destruct (dbg_done s) eqn:Dn; [split; [exact P|apply grows_refl]|].
    destruct (register_all_ok (p_state s) dbg_create dbg_register r os I dbg_create_nodup dbg_register_nodup dbg_sub Rg) as (st' & tab & E & I' & Gr & _ & T & _). rewrite E. cbn [fst p_state]. split; [|exact Gr].
    split; [exact I'|]. cbn [p_state rt_done rt_tab rt_prev dbg_done dbg_tab]. split; [|exact T]. destruct (rt_done s); [eapply tab_ok_grows; eauto|exact R].
  - destruct (is_registry (snd (p_state s)) r) eqn:Rg; [|split; [exact P|apply grows_refl]]. cbn [negb]. destruct (dbg_tab s) as [|t0 tab] eqn:Et.
    + split; [|apply grows_refl]. split; [exact I|]. cbn [p_state rt_done rt_tab rt_prev dbg_done dbg_tab]. split; [exact R|]. destruct (dbg_done s); auto.
    + pose proof (grows_exec mexp (dbg_capture (at_field (t0 :: tab)) (dbg_last s) g (o_now (os 0))) (p_state s) (fun n => os (S n)) I) as Gr.
      pose proof (exec_inv mexp (dbg_capture (at_field (t0 :: tab)) (dbg_last s) g (o_now (os 0))) (p_state s) (fun n => os (S n)) I) as I'.
      destruct (exec mexp (p_state s) _ _) as [st' m]. cbn [fst p_state] in *. split; [|exact Gr]. split; [exact I'|]. cbn [p_state rt_done rt_tab rt_prev dbg_done dbg_tab].
      split; [destruct (rt_done s); [eapply tab_ok_grows; eauto|exact R]|destruct (dbg_done s); [eapply tab_ok_grows; eauto|discriminate]].
Qed.
Lemma PI_run h : forall s, PI s -> PI (prun mexp s h) /\ grows (p_state s) (p_state (prun mexp s h)).
Proof.
  induction h as [|[c os] h IH]; intros s P; [split; [exact P|apply grows_refl]|]. cbn [prun fold_left]. destruct (PI_step s c os P) as [P1 G1]. destruct (IH _ P1) as [P2 G2]. split; [exact P2|eapply grows_trans; eauto].
Qed.

(** ** captures *)
Definition rt_before (p : previous) (r : reading) (t : Z) : list (string * payload) :=
  let m := rd_mem r in
  [("ReadMemStats", US t);
   ("Alloc", UZ (wrap64 (ms_Alloc m)));
   ("BuckHashSys", UZ (wrap64 (ms_BuckHashSys m)));
   ("DebugGC", UZ (of_bool (ms_DebugGC m)));
   ("EnableGC", UZ (of_bool (ms_EnableGC m)));
   ("Frees", UZ (wrap64 (sub64 (ms_Frees m) (pv_frees p))));
   ("HeapAlloc", UZ (wrap64 (ms_HeapAlloc m)));
   ("HeapIdle", UZ (wrap64 (ms_HeapIdle m)));
   ("HeapInuse", UZ (wrap64 (ms_HeapInuse m)));
   ("HeapObjects", UZ (wrap64 (ms_HeapObjects m)));
   ("HeapReleased", UZ (wrap64 (ms_HeapReleased m)));
   ("HeapSys", UZ (wrap64 (ms_HeapSys m)));
   ("LastGC", UZ (wrap64 (ms_LastGC m)));
   ("Lookups", UZ (wrap64 (sub64 (ms_Lookups m) (pv_lookups p))));
   ("Mallocs", UZ (wrap64 (sub64 (ms_Mallocs m) (pv_mallocs p))));
   ("MCacheInuse", UZ (wrap64 (ms_MCacheInuse m)));
   ("MCacheSys", UZ (wrap64 (ms_MCacheSys m)));
   ("MSpanInuse", UZ (wrap64 (ms_MSpanInuse m)));
   ("MSpanSys", UZ (wrap64 (ms_MSpanSys m)));
   ("NextGC", UZ (wrap64 (ms_NextGC m)));
   ("NumGC", UZ (sub32 (ms_NumGC m) (pv_numGC p)));
   ("GCCPUFraction", UF (ms_GCCPUFraction m))].
Definition rt_after (p : previous) (r : reading) : list (string * payload) :=
  let m := rd_mem r in
  [("PauseTotalNs", UZ (wrap64 (ms_PauseTotalNs m)));
   ("StackInuse", UZ (wrap64 (ms_StackInuse m)));
   ("StackSys", UZ (wrap64 (ms_StackSys m)));
   ("Sys", UZ (wrap64 (ms_Sys m)));
   ("TotalAlloc", UZ (wrap64 (ms_TotalAlloc m)));
   ("NumCgoCall", UZ (wrap64 (rd_cgo r - pv_cgo p)));
   ("NumGoroutine", UZ (rd_goroutines r));
   ("NumThread", UZ (rd_threads r))].
Definition feed (f : string) (xs : list Z) : list (string * payload) := map (fun n => (f, UZ n)) xs.
Definition rt_items p r t : list (string * payload) := rt_before p r t ++ feed "PauseNs" (pauses (pv_numGC p) (rd_mem r)) ++ rt_after p r.
Definition dbg_feed (last : option Z) (g : gcstats) : list Z :=
  if match last with Some n => (n =? gc_LastGC g)%Z | None => false end then [] else match gc_Pause g with [] => [] | p :: _ => [p] end.
Definition dbg_items (last : option Z) (g : gcstats) (t : Z) : list (string * payload) :=
  [("ReadGCStats", US t); ("LastGC", UZ (gc_LastGC g)); ("NumGC", UZ (gc_NumGC g))] ++ feed "Pause" (dbg_feed last g) ++ [("PauseTotal", UZ (gc_PauseTotal g))].
Definition at_item (f : string -> nat) (i : string * payload) : nat * payload := (f (fst i), snd i).
Lemma capture_items f p r t : capture f p r t = map call_of (map (at_item f) (rt_items p r t)).
Proof. unfold capture, rt_items, feed. cbv zeta. rewrite !map_app, !map_map. unfold rt_before, rt_after. cbn [map at_item call_of fst snd]. reflexivity. Qed.
Lemma dbg_capture_items f last g t : dbg_capture f last g t = map call_of (map (at_item f) (dbg_items last g t)).
Proof. unfold dbg_capture, dbg_items, feed, dbg_feed. rewrite !map_app, !map_map. destruct (match last with Some n => (n =? gc_LastGC g)%Z | None => false end); [reflexivity|]. destruct (gc_Pause g); reflexivity. Qed.

(** an item fits its field *)
Definition item_ok (cr : list (string * mk)) (i : string * payload) : Prop := exists k, In (fst i, k) cr /\ fits k (snd i).
Definition item_okb (cr : list (string * mk)) (i : string * payload) : bool :=
  existsb (fun fk => String.eqb (fst fk) (fst i) && match snd fk, snd i with MGauge, UZ _ | MHist, UZ _ | MGaugeF, UF _ | MTimer, US _ => true | _, _ => false end) cr.
Lemma item_okb_ok cr i : item_okb cr i = true -> item_ok cr i.
Proof.
  unfold item_okb. intros H. apply existsb_exists in H. destruct H as ([f k] & Hin & B). apply andb_true_iff in B. destruct B as [B1 B2]. cbn [fst snd] in *. apply String.eqb_eq in B1. subst f. exists k. split; auto. destruct k, (snd i); cbn; auto; discriminate.
Qed.
Lemma rt_items_ok p r t : Forall (item_ok rt_create) (rt_items p r t).
Proof.
  unfold rt_items, rt_before, rt_after. cbv zeta. apply Forall_app. split; [|apply Forall_app; split].
  - repeat (constructor; [apply item_okb_ok; reflexivity|]). constructor.
  - unfold feed. apply Forall_forall. intros i Hi. apply in_map_iff in Hi. destruct Hi as (n & <- & _). apply item_okb_ok. reflexivity.
  - repeat (constructor; [apply item_okb_ok; reflexivity|]). constructor.
Qed.
Lemma dbg_items_ok last g t : Forall (item_ok dbg_create) (dbg_items last g t).
Proof.
  unfold dbg_items. apply Forall_app. split; [|apply Forall_app; split].
  - repeat (constructor; [apply item_okb_ok; reflexivity|]). constructor.
  - unfold feed. apply Forall_forall. intros i Hi. apply in_map_iff in Hi. destruct Hi as (n & <- & _). apply item_okb_ok. reflexivity.
  - repeat (constructor; [apply item_okb_ok; reflexivity|]). constructor.
Qed.
Lemma items_run (st : state) cr tab its os : inv st -> tab_ok st cr tab -> NoDup (map fst cr) -> Forall (item_ok cr) its ->
  exists w', exec mexp st (map call_of (map (at_item (at_field tab)) its)) os = ((w', snd st), None) /\ inv (w', snd st) /\ usenil w' = usenil (fst st) /\
    (forall l n, registered w' l n = registered (fst st) l n) /\
    (forall l y, nth_error (heap (fst st)) l = Some y -> cell y -> nth_error (heap w') l = Some (eff mexp (owner st) l (map (at_item (at_field tab)) its) os y)) /\
    grows st (w', snd st).
Proof.
  intros I [F A] ND Its.
  assert (Rd : Forall (ready st) (map (at_item (at_field tab)) its)).
  { apply Forall_forall. intros xp Hx. apply in_map_iff in Hx. destruct Hx as (i & <- & Hi). rewrite Forall_forall in Its. destruct (Its i Hi) as (k & Hk & Ft).
    pose proof (at_field_ok (entry st) cr tab (fst i) k F ND Hk) as (v & Ev & M). exists k, v. cbn [at_item fst snd]. auto. }
  destruct (upds mexp _ st os I Rd) as (w' & Ex & I' & U' & R' & C' & M'). exists w'. repeat (split; [assumption|]). split; [auto|exact M'].
Qed.

(** the effect on one field's object *)
Lemma eff_app ow l a b os y : eff mexp ow l (a ++ b) os y = eff mexp ow l b (fun n => os (n + List.length a)) (eff mexp ow l a os y).
Proof.
  revert os y. induction a as [|[x p] a IH]; intros os y.
  - cbn [app eff List.length]. assert (E : forall b os os' y, (forall n, os n = os' n) -> eff mexp ow l b os y = eff mexp ow l b os' y).
    { clear. induction b as [|[x p] b IH]; intros os os' y H; [reflexivity|]. cbn [eff]. rewrite H. apply IH. intros n. apply H. }
    apply E. intros n. now rewrite Nat.add_0_r.
  - cbn [app eff List.length]. rewrite IH. assert (E : forall b os os' y, (forall n, os n = os' n) -> eff mexp ow l b os y = eff mexp ow l b os' y).
    { clear. induction b as [|[x p] b IH]; intros os os' y H; [reflexivity|]. cbn [eff]. rewrite H. apply IH. intros n. apply H. }
    apply E. intros n. f_equal. lia.
Qed.
Lemma eff_skip ow l its os y : (forall xp, In xp its -> ow (fst xp) <> Some l) -> eff mexp ow l its os y = y.
Proof.
  revert os y. induction its as [|[x p] its IH]; intros os y H; [reflexivity|]. cbn [eff]. pose proof (H (x, p) (or_introl eq_refl)) as Hx. cbn [fst] in Hx.
  rewrite IH by (intros xp Hxp; apply H; now right). destruct (ow x) as [l'|]; [|reflexivity]. destruct (Nat.eqb_spec l' l); [congruence|reflexivity].
Qed.
Lemma eff_feed (st : state) cr tab l f xs its1 its2 os y : tab_ok st cr tab -> In f (map fst cr) -> owner st (at_field tab f) = Some l ->
  Forall (item_ok cr) (its1 ++ its2) -> ~ In f (map fst (its1 ++ its2)) ->
  eff mexp (owner st) l (map (at_item (at_field tab)) (its1 ++ feed f xs ++ its2)) os y =
  fold_left (fun y no => app1 mexp y (UZ (fst no)) (snd no)) (combine xs (map (fun j => os (j + List.length its1)) (seq 0 (List.length xs)))) y.
Proof.
  intros T Hf O Ok N. rewrite !map_app, !eff_app.
  assert (S : forall its, (forall i, In i its -> In i (its1 ++ its2)) -> forall os y, eff mexp (owner st) l (map (at_item (at_field tab)) its) os y = y).
  { intros its Hs os' y'. apply eff_skip. intros xp Hx. apply in_map_iff in Hx. destruct Hx as (i & <- & Hi). cbn [at_item fst]. intros X. apply N. apply Hs in Hi.
    assert (E : fst i = f). { rewrite Forall_forall in Ok. destruct (Ok i Hi) as (k & Hk & _). eapply (tab_apart st cr tab (fst i) f l T); eauto. change (fst i) with (fst (fst i, k)). now apply in_map. }
    rewrite <- E. now apply in_map. }
  rewrite (S its2) by (intros i Hi; apply in_or_app; auto). rewrite (S its1) by (intros i Hi; apply in_or_app; auto). rewrite map_length.
  generalize (List.length its1). intros n0. clear S Ok N. assert (Gn : forall j0, eff mexp (owner st) l (map (at_item (at_field tab)) (feed f xs)) (fun n => os (n + j0 + n0)) y = fold_left (fun y no => app1 mexp y (UZ (fst no)) (snd no)) (combine xs (map (fun j => os (j + n0)) (seq j0 (List.length xs)))) y).
  { revert y. induction xs as [|x xs IH]; intros y j0; [reflexivity|]. cbn [feed map at_item fst snd eff List.length seq combine fold_left]. rewrite O, Nat.eqb_refl. cbn [Nat.add]. rewrite <- (IH _ (S j0)).
    unfold feed. assert (E : forall b os os' y, (forall n, os n = os' n) -> eff mexp (owner st) l b os y = eff mexp (owner st) l b os' y).
    { clear. induction b as [|[x p] b IH]; intros os os' y H; [reflexivity|]. cbn [eff]. rewrite H. apply IH. intros n. apply H. }
    apply E. intros n. f_equal. lia. }
  specialize (Gn 0). cbn [Nat.add] in Gn. rewrite <- Gn.
  assert (E : forall b os os' y, (forall n, os n = os' n) -> eff mexp (owner st) l b os y = eff mexp (owner st) l b os' y).
  { clear. induction b as [|[x p] b IH]; intros os os' y H; [reflexivity|]. cbn [eff]. rewrite H. apply IH. intros n. apply H. }
  apply E. intros n. f_equal. lia.
Qed.
Lemma eff_single (st : state) cr tab l f p its1 its2 os y : tab_ok st cr tab -> In f (map fst cr) -> owner st (at_field tab f) = Some l ->
  Forall (item_ok cr) (its1 ++ its2) -> ~ In f (map fst (its1 ++ its2)) ->
  eff mexp (owner st) l (map (at_item (at_field tab)) (its1 ++ (f, p) :: its2)) os y = app1 mexp y p (os (List.length its1)).
Proof.
  intros T Hf O Ok N. rewrite map_app, eff_app.
  assert (S : forall its, (forall i, In i its -> In i (its1 ++ its2)) -> forall os y, eff mexp (owner st) l (map (at_item (at_field tab)) its) os y = y).
  { intros its Hs os' y'. apply eff_skip. intros xp Hx. apply in_map_iff in Hx. destruct Hx as (i & <- & Hi). cbn [at_item fst]. intros X. apply N. apply Hs in Hi.
    assert (E : fst i = f). { rewrite Forall_forall in Ok. destruct (Ok i Hi) as (k & Hk & _). eapply (tab_apart st cr tab (fst i) f l T); eauto. change (fst i) with (fst (fst i, k)). now apply in_map. }
    rewrite <- E. now apply in_map. }
  rewrite (S its1) by (intros i Hi; apply in_or_app; auto). cbn [map at_item fst snd eff]. rewrite O, Nat.eqb_refl. rewrite (S its2) by (intros i Hi; apply in_or_app; auto). now rewrite map_length.
Qed.
End Proc.
