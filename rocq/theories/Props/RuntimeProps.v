(** Properties C50, C51, C52, C53 and C57: the runtime and debug metrics.  Histories [h] are
    arbitrary: API calls, registrations and captures in any order, with anything read
    from the runtime and the clock. *)
From Coq Require Import ZArith List String Bool Lia Arith Permutation.
From Verif.Model Require Import GoInt GoFloat GoBase Stats Uniform ExpDecay Conc CounterGauge Ewma Meter World Runtime.
From Verif.Spec Require Import RegistrySpec RuntimeSpec.
From Verif.Proofs Require Import IntFacts FloatFacts WorldBase WorldStep WorldFrame WorldSnap WorldReads RegistryProofs RegistryStep RegistryNew ExpDecayProofs ExpDecayHeap TimerHistory RuntimeProofs ProcProofs ProcHistory ProcCapture.
Import ListNotations.
Local Open Scope nat_scope.
Local Open Scope list_scope.

(** ** lists of names *)
Ltac inl := solve [repeat (first [left; reflexivity | right])].
Lemma delta_item prev rd t name n : In (name, n) (delta_gauges prev rd) ->
  exists f, In (name, f) rt_register /\ In (f, MGauge) rt_create /\ f <> "PauseNs"%string /\ In (f, UZ n) (rt_before (prev_of prev) rd t ++ rt_after (prev_of prev) rd).
Proof.
  assert (E64 : forall a b, as_int64 (a - b) = wrap64 (sub64 a b)).
  { intros a b. unfold sub64. change (as_int64 (a - b)) with (wrap64 (a - b)). apply wrap64_eq. now rewrite Zmod_mod. }
  assert (Z0 : forall st : reading -> Z, before prev st = match prev with Some r => st r | None => 0%Z end) by reflexivity.
  assert (P1 : before prev (fun r => ms_Frees (rd_mem r)) = pv_frees (prev_of prev) /\ before prev (fun r => ms_Lookups (rd_mem r)) = pv_lookups (prev_of prev) /\ before prev (fun r => ms_Mallocs (rd_mem r)) = pv_mallocs (prev_of prev) /\ before prev numGC = pv_numGC (prev_of prev) /\ before prev rd_cgo = pv_cgo (prev_of prev)) by (destruct prev; cbn; auto).
  destruct P1 as (P1 & P2 & P3 & P4 & P5). intros H. unfold delta_gauges, uint64_deltas in H. cbn [map app fst snd In] in H. rewrite P1, P2, P3, P4, P5 in H.
  destruct H as [H|[H|[H|[H|[H|[]]]]]]; injection H as <- <-; rewrite ?E64; unfold rt_before, rt_after; cbn [app].
  - exists "Frees"%string. repeat split; try inl. discriminate.
  - exists "Lookups"%string. repeat split; try inl. discriminate.
  - exists "Mallocs"%string. repeat split; try inl. discriminate.
  - exists "NumCgoCall"%string. repeat split; try inl; [discriminate|]. rewrite <- E64. change (as_int64 (rd_cgo rd - pv_cgo (prev_of prev))) with (wrap64 (rd_cgo rd - pv_cgo (prev_of prev))). inl.
  - exists "NumGC"%string. repeat split; try inl. discriminate.
Qed.
Lemma plain_item prev rd t name n : In (name, n) (plain_gauges rd) ->
  exists f, In (name, f) rt_register /\ In (f, MGauge) rt_create /\ f <> "PauseNs"%string /\ In (f, UZ n) (rt_before prev rd t ++ rt_after prev rd).
Proof.
  intros H. unfold plain_gauges in H. cbn [map app fst snd In String.append] in H. unfold rt_before, rt_after; cbn [app].
  repeat match type of H with _ \/ _ => destruct H as [H|H] end; try contradiction; injection H as <- <-;
    match goal with
    | |- context [as_int64 (?s (rd_mem rd))] => change (as_int64 (s (rd_mem rd))) with (wrap64 (s (rd_mem rd)))
    | |- context [if ?b then 1%Z else 0%Z] => change (if b then 1%Z else 0%Z) with (of_bool b)
    | _ => idtac
    end;
    match goal with |- exists f, In (?nm, f) rt_register /\ _ =>
      let r := eval cbv in (match find (fun nf => String.eqb (fst nf) nm) rt_register with Some nf => snd nf | None => ""%string end) in exists r end;
    (split; [inl|split; [inl|split; [discriminate|inl]]]).
Qed.

(** ** C57, C51: what the gauges show after a capture *)
Lemma gauge_shown mexp h name f g r rd os o x n : runtime_metric mexp h name g -> In (name, f) rt_register -> In (f, MGauge) rt_create -> f <> "PauseNs"%string ->
  nth_error (snd (p_state (preach mexp h))) x = Some g -> result mexp h (PCaptureRuntime r rd) os <> None ->
  In (f, UZ n) (rt_before (rt_prev (preach mexp h)) rd (o_now (os 0)) ++ rt_after (rt_prev (preach mexp h)) rd) ->
  shown mexp (next mexp h (PCaptureRuntime r rd) os) x o = Some (Ok (RZ n)).
Proof.
  intros M Hn Hk NP Ex Ok Hin. destruct (captured_cell mexp h name f MGauge g r rd os (UZ n) M Hn Hk NP Ok Hin) as (l & y & j & O & Ey & Cy & (n0 & ->) & E' & _ & Env & M' & O').
  cbn in M'. destruct M' as (l' & ->). cbn in O. injection O as ->. unfold shown. eapply value_gauge; [rewrite Env; exact Ex|exact E'].
Qed.
(** every gauge shows the statistic read by the latest capture *)
Theorem C57_runtime_gauges : forall mexp h name g x r rd os o n,
  runtime_metric mexp h name g -> nth_error (snd (p_state (preach mexp h))) x = Some g ->
  result mexp h (PCaptureRuntime r rd) os <> None -> In (name, n) (plain_gauges rd) ->
  shown mexp (next mexp h (PCaptureRuntime r rd) os) x o = Some (Ok (RZ n)).
Proof.
  intros mexp h name g x r rd os o n M Ex Ok H. destruct (plain_item (rt_prev (preach mexp h)) rd (o_now (os 0)) name n H) as (f & A & B & C & D). eapply gauge_shown; eauto.
Qed.
Theorem C57_gc_cpu_fraction : forall mexp h g x r rd os o,
  runtime_metric mexp h "runtime.MemStats.GCCPUFraction" g -> nth_error (snd (p_state (preach mexp h))) x = Some g ->
  result mexp h (PCaptureRuntime r rd) os <> None ->
  shown mexp (next mexp h (PCaptureRuntime r rd) os) x o = Some (Ok (RF (ms_GCCPUFraction (rd_mem rd)))).
Proof.
  intros mexp h g x r rd os o M Ex Ok.
  destruct (captured_cell mexp h _ "GCCPUFraction" MGaugeF g r rd os (UF (ms_GCCPUFraction (rd_mem rd))) M ltac:(inl) ltac:(inl) ltac:(discriminate) Ok ltac:(unfold rt_before, rt_after; cbn [app]; inl)) as (l & y & j & O & Ey & Cy & (n0 & ->) & E' & _ & Env & M' & O').
  cbn in M'. destruct M' as (l' & ->). cbn in O. injection O as ->. unfold shown.
  rewrite (value_gaugef mexp _ x l _ o ltac:(rewrite Env; exact Ex) E'). do 3 f_equal. apply frombits_bits.
Qed.
(** the timer gets the time the reading took, once *)
Theorem C57_timer : forall mexp h g r rd os, runtime_metric mexp h "runtime.ReadMemStats" g ->
  result mexp h (PCaptureRuntime r rd) os <> None ->
  exists s, sample_of (fst (p_state (preach mexp h))) g = Some s /\
    sample_of (fst (p_state (next mexp h (PCaptureRuntime r rd) os))) g = Some (record_all mexp s [(time_sub (o_now (os 1)) (o_now (os 0)), os 1)]).
Proof.
  intros mexp h g r rd os M Ok.
  destruct (captured_cell mexp h _ "ReadMemStats" MTimer g r rd os (US (o_now (os 0))) M ltac:(inl) ltac:(inl) ltac:(discriminate) Ok ltac:(unfold rt_before, rt_after; cbn [app]; inl)) as (l & y & j & O & Ey & Cy & (s & -> & W) & _ & E' & Env & M' & O').
  destruct (metric_at mexp h _ "ReadMemStats" MTimer g M ltac:(inl) ltac:(inl)) as (_ & _ & Mg).
  exists s. rewrite (sample_own _ MTimer g l Mg O) by auto. rewrite Ey. split; [reflexivity|]. rewrite (sample_own _ MTimer g l M' O') by auto.
  destruct (rt_once (rt_prev (preach mexp h)) rd (o_now (os 0)) "ReadMemStats" (US (o_now (os 0))) ltac:(discriminate) ltac:(unfold rt_before, rt_after; cbn [app]; inl)) as (i1 & i2 & Ei & Nf & Fo).
  specialize (E' i1 i2 Ei Nf Fo). destruct i1 as [|a i1].
  - rewrite E'. reflexivity.
  - exfalso. unfold rt_items, rt_before in Ei. cbn [app] in Ei. injection Ei as <- _. apply Nf. cbn. auto.
Qed.
Theorem C57_debug_gauges : forall mexp h name g x r rd os o n,
  debug_metric mexp h name g -> nth_error (snd (p_state (preach mexp h))) x = Some g ->
  result mexp h (PCaptureDebug r rd) os <> None -> In (name, n) (debug_gauges rd) ->
  shown mexp (next mexp h (PCaptureDebug r rd) os) x o = Some (Ok (RZ n)).
Proof.
  intros mexp h name g x r rd os o n M Ex Ok H.
  assert (F : exists f, In (name, f) dbg_register /\ In (f, MGauge) dbg_create /\ f <> "Pause"%string /\ In (f, UZ n) ([("ReadGCStats"%string, US (o_now (os 0))); ("LastGC"%string, UZ (gc_LastGC rd)); ("NumGC"%string, UZ (gc_NumGC rd))] ++ [("PauseTotal"%string, UZ (gc_PauseTotal rd))])).
  { cbn in H. destruct H as [H|[H|[H|[]]]]; injection H as <- <-; [exists "LastGC"%string|exists "NumGC"%string|exists "PauseTotal"%string]; (split; [inl|split; [inl|split; [discriminate|cbn [app]; inl]]]). }
  destruct F as (f & A & B & C & D).
  destruct (dbg_captured_cell mexp h name f MGauge g r rd os (UZ n) M A B C Ok D) as (l & y & O & Ey & Cy & (n0 & ->) & E' & Env & M' & O').
  destruct (dbg_once (dbg_last (preach mexp h)) rd (o_now (os 0)) f (UZ n) C D) as (i1 & i2 & Ei & Nf & Fo). specialize (E' i1 i2 Ei Nf Fo).
  cbn in M'. destruct M' as (l' & ->). cbn in O. injection O as ->. unfold shown. eapply value_gauge; [rewrite Env; exact Ex|exact E'].
Qed.
Theorem C57_debug_timer : forall mexp h g r rd os, debug_metric mexp h "debug.ReadGCStats" g ->
  result mexp h (PCaptureDebug r rd) os <> None ->
  exists s, sample_of (fst (p_state (preach mexp h))) g = Some s /\
    sample_of (fst (p_state (next mexp h (PCaptureDebug r rd) os))) g = Some (record_all mexp s [(time_sub (o_now (os 1)) (o_now (os 0)), os 1)]).
Proof.
  intros mexp h g r rd os M Ok.
  destruct (dbg_captured_cell mexp h _ "ReadGCStats" MTimer g r rd os (US (o_now (os 0))) M ltac:(inl) ltac:(inl) ltac:(discriminate) Ok ltac:(cbn [app]; inl)) as (l & y & O & Ey & Cy & (s & -> & W) & E' & Env & M' & O').
  destruct (dbg_metric_at mexp h _ "ReadGCStats" MTimer g M ltac:(inl) ltac:(inl)) as (_ & _ & Mg).
  exists s. rewrite (sample_own _ MTimer g l Mg O) by auto. rewrite Ey. split; [reflexivity|]. rewrite (sample_own _ MTimer g l M' O') by auto.
  destruct (dbg_once (dbg_last (preach mexp h)) rd (o_now (os 0)) "ReadGCStats" (US (o_now (os 0))) ltac:(discriminate) ltac:(cbn [app]; inl)) as (i1 & i2 & Ei & Nf & Fo).
  specialize (E' i1 i2 Ei Nf Fo). destruct i1 as [|a i1].
  - rewrite E'. reflexivity.
  - exfalso. unfold dbg_items in Ei. cbn [app] in Ei. injection Ei as <- _. apply Nf. cbn. auto.
Qed.

(** Frees, Lookups, Mallocs, NumGC, NumCgoCall: the change since the previous capture that
    returned (since 0, at the first one), modulo the width of the counter *)
Theorem C51_deltas : forall mexp h name g x r rd os o n,
  runtime_metric mexp h name g -> nth_error (snd (p_state (preach mexp h))) x = Some g ->
  result mexp h (PCaptureRuntime r rd) os <> None -> In (name, n) (delta_gauges (last_capture mexp h) rd) ->
  shown mexp (next mexp h (PCaptureRuntime r rd) os) x o = Some (Ok (RZ n)).
Proof.
  intros mexp h name g x r rd os o n M Ex Ok H. destruct (delta_item _ rd (o_now (os 0)) name n H) as (f & A & B & C & D). rewrite <- prev_reach in D. eapply gauge_shown; eauto.
Qed.
(** so the values shown after each of any further calls' captures sum up to the total change *)
Definition total (l : list Z) : Z := fold_right Z.add 0%Z l.
Lemma metric_later mexp h h' name g : runtime_metric mexp h name g -> runtime_metric mexp (h ++ h') name g.
Proof. intros (h1 & x & os & h2 & o & -> & R). exists h1, x, os, (h2 ++ h'), o. rewrite <- app_assoc. split; [reflexivity|exact R]. Qed.
Lemma env_later mexp h h' x g : nth_error (snd (p_state (preach mexp h))) x = Some g -> nth_error (snd (p_state (preach mexp (h ++ h')))) x = Some g.
Proof. intros E. rewrite preach_app. apply (proj2 (PI_run mexp h' _ (preach_PI mexp h))). exact E. Qed.
Lemma captured_result mexp h r rd os : rt_done (preach mexp h) = true -> result mexp h (PCaptureRuntime r rd) os <> None -> result mexp h (PCaptureRuntime r rd) os = Some (Ok RUnit).
Proof. intros D N. destruct (capture_step mexp (preach mexp h) r rd os (preach_PI mexp h) D (capture_ok_registry mexp _ _ _ _ N)) as (w' & E & _). unfold result. now rewrite E. Qed.
Lemma shown_after_app mexp h1 h2 x : forall s, shown_after mexp s (h1 ++ h2) x = shown_after mexp s h1 x ++ shown_after mexp (prun mexp s h1) h2 x.
Proof. induction h1 as [|co h1 IH]; intros s; [reflexivity|]. cbn [app shown_after]. rewrite IH. cbn [prun fold_left]. now rewrite app_assoc. Qed.
Lemma total_app a b : total (a ++ b) = (total a + total b)%Z.
Proof. induction a; cbn [app total fold_right]; [reflexivity|]. unfold total in *. rewrite IHa. lia. Qed.
Lemma deltas_sum mexp name (stat : reading -> Z) (W : Z) h g x :
  (0 < W)%Z -> (forall prev rd, exists n, In (name, n) (delta_gauges prev rd) /\ (n mod W = (stat rd - before prev stat) mod W)%Z) ->
  runtime_metric mexp h name g -> nth_error (snd (p_state (preach mexp h))) x = Some g ->
  (exists f k, In (name, f) rt_register /\ In (f, k) rt_create) ->
  forall h', (total (shown_after mexp (preach mexp h) h' x) mod W = (before (last_capture mexp (h ++ h')) stat - before (last_capture mexp h) stat) mod W)%Z.
Proof.
  intros HW HD M Ex (f & k & Hf & Hk). induction h' as [|[c os] h' IH] using rev_ind.
  - rewrite app_nil_r. cbn [shown_after total fold_right]. now rewrite Z.sub_diag.
  - rewrite shown_after_app, total_app. rewrite app_assoc. rewrite last_capture_snoc. rewrite <- preach_app. set (hh := h ++ h') in *.
    assert (Mh : runtime_metric mexp hh name g) by (apply metric_later; exact M). assert (Eh : nth_error (snd (p_state (preach mexp hh))) x = Some g) by (apply env_later; exact Ex).
    assert (Dn : rt_done (preach mexp hh) = true) by (destruct (metric_at mexp hh name f k g Mh Hf Hk); auto).
    assert (Z0 : forall z, ((total (shown_after mexp (preach mexp h) h' x) + total [] ) mod W = z mod W <-> total (shown_after mexp (preach mexp h) h' x) mod W = z mod W)%Z) by (intros z; cbn [total fold_right]; now rewrite Z.add_0_r).
    cbn [shown_after fst snd]. fold (result mexp hh c os). destruct c as [c|r|r rd|r|r rd]; try (rewrite app_nil_r; apply Z0; exact IH).
    destruct (result mexp hh (PCaptureRuntime r rd) os) as [[v|m]|] eqn:R; try (rewrite app_nil_r; apply Z0; exact IH).
    destruct (HD (last_capture mexp hh) rd) as (n & Hn & En).
    pose proof (C51_deltas mexp hh name g x r rd os (os 0) n Mh Eh ltac:(congruence) Hn) as Sh. unfold next in Sh. rewrite preach_snoc in Sh. rewrite Sh. cbn [app total fold_right]. rewrite Z.add_0_r.
    rewrite Z.add_mod, IH, En, <- Z.add_mod by lia. f_equal. cbn [before]. lia.
Qed.
Theorem C51_sum : forall mexp h name stat g x h', In (name, stat) uint64_deltas ->
  runtime_metric mexp h name g -> nth_error (snd (p_state (preach mexp h))) x = Some g ->
  as_int64 (total (shown_after mexp (preach mexp h) h' x)) = as_int64 (before (last_capture mexp (h ++ h')) stat - before (last_capture mexp h) stat).
Proof.
  intros mexp h name stat g x h' H M Ex. change (wrap64 (total (shown_after mexp (preach mexp h) h' x)) = wrap64 (before (last_capture mexp (h ++ h')) stat - before (last_capture mexp h) stat)). apply wrap64_eq.
  apply (deltas_sum mexp name stat (2 ^ 64) h g x ltac:(lia)); auto.
  - intros prev rd. exists (as_int64 (stat rd - before prev stat)). split.
    + unfold delta_gauges. apply in_or_app. left. change (name, as_int64 (stat rd - before prev stat)) with ((fun nf : string * (reading -> Z) => (fst nf, as_int64 (snd nf rd - before prev (snd nf)))) (name, stat)). now apply in_map.
    + change (as_int64 (stat rd - before prev stat)) with (wrap64 (stat rd - before prev stat)). apply wrap64_eq. apply wrap64_wrap64.
  - cbn in H. destruct H as [H|[H|[H|[H|[]]]]]; injection H as <- <-; [exists "Frees"%string|exists "Lookups"%string|exists "Mallocs"%string|exists "NumCgoCall"%string]; exists MGauge; split; inl.
Qed.
(** NumGC: exactly the number of collections, if there are less than 2^32 between captures *)
Theorem C51_sum_numGC_mod : forall mexp h g x h',
  runtime_metric mexp h "runtime.MemStats.NumGC" g -> nth_error (snd (p_state (preach mexp h))) x = Some g ->
  (total (shown_after mexp (preach mexp h) h' x) mod 2 ^ 32 = (before (last_capture mexp (h ++ h')) numGC - before (last_capture mexp h) numGC) mod 2 ^ 32)%Z.
Proof.
  intros mexp h g x h' M Ex. apply (deltas_sum mexp "runtime.MemStats.NumGC" numGC (2 ^ 32) h g x ltac:(lia)); auto.
  - intros prev rd. exists ((numGC rd - before prev numGC) mod 2 ^ 32)%Z. split; [unfold delta_gauges; apply in_or_app; right; left; reflexivity|]. now rewrite Zmod_mod.
  - exists "NumGC"%string, MGauge. split; inl.
Qed.
Theorem C51_numGC_exact : forall mexp h g x r rd os o P n0 n,
  runtime_metric mexp h "runtime.MemStats.NumGC" g -> nth_error (snd (p_state (preach mexp h))) x = Some g ->
  result mexp h (PCaptureRuntime r rd) os <> None ->
  match last_capture mexp h with Some rd0 => shows P n0 rd0 | None => n0 = 0 end -> shows P n rd -> n0 <= n -> (Z.of_nat n - Z.of_nat n0 < 2 ^ 32)%Z ->
  shown mexp (next mexp h (PCaptureRuntime r rd) os) x o = Some (Ok (RZ (Z.of_nat n - Z.of_nat n0))).
Proof.
  intros mexp h g x r rd os o P n0 n M Ex Ok H0 (Hn & _) Le Lt. apply (C51_deltas mexp h "runtime.MemStats.NumGC" g x r rd os o); auto.
  unfold delta_gauges. apply in_or_app. right. left. f_equal. unfold numGC. rewrite Hn.
  assert (B : before (last_capture mexp h) (fun r => ms_NumGC (rd_mem r)) = (Z.of_nat n0 mod 2 ^ 32)%Z) by (destruct (last_capture mexp h) as [rd0|]; [apply H0|subst n0; reflexivity]).
  change (before (last_capture mexp h) (fun r0 => ms_NumGC (rd_mem r0))) with (before (last_capture mexp h) numGC) in B. unfold numGC in B at 1. rewrite B. rewrite <- Zminus_mod. apply Z.mod_small. lia.
Qed.

(** ** C50: the pauses recorded *)
Theorem C50_pauses : forall mexp h g r rd os P n0 n, runtime_metric mexp h "runtime.MemStats.PauseNs" g ->
  result mexp h (PCaptureRuntime r rd) os <> None ->
  match last_capture mexp h with Some rd0 => shows P n0 rd0 | None => n0 = 0 end -> shows P n rd -> n0 <= n -> (Z.of_nat n - Z.of_nat n0 < 2 ^ 32)%Z ->
  exists s, sample_of (fst (p_state (preach mexp h))) g = Some s /\
    let values := map (fun k => as_int64 (P k)) (recorded_gcs n0 n) in
    sample_of (fst (p_state (next mexp h (PCaptureRuntime r rd) os))) g =
      Some (record_all mexp s (combine values (map os (seq 23 (List.length values))))).
Proof.
  intros mexp h g r rd os P n0 n M Ok H0 Hn Le Lt.
  destruct (metric_at mexp h _ "PauseNs" MHist g M ltac:(inl) ltac:(inl)) as (D & E & Mg). pose proof (preach_PI mexp h) as PIh.
  destruct (made_own _ _ _ Mg) as (l & O). destruct (made_cell (p_state (preach mexp h)) MHist g l (proj1 PIh) (in_env _ _ _ E) Mg O) as (y & Ey & Cy & s & -> & W).
  exists s. rewrite (sample_own _ MHist g l Mg O) by auto. rewrite Ey. split; [reflexivity|]. intros values.
  destruct (capture_step mexp (preach mexp h) r rd os PIh D (capture_ok_registry mexp _ _ _ _ Ok)) as (w' & Ep & _ & _ & C & Gr).
  unfold next. rewrite preach_snoc, Ep. cbn [fst p_state snd]. destruct Gr as [_ Gm]. destruct (Gm MHist g Mg) as [M' O']. cbn [fst] in *. rewrite O in O'.
  rewrite (sample_own _ MHist g l M' O') by auto. rewrite (C l _ Ey Cy). unfold rt_items.
  assert (Pv : pauses (pv_numGC (rt_prev (preach mexp h))) (rd_mem rd) = values).
  { rewrite prev_reach. assert (Q : pv_numGC (prev_of (last_capture mexp h)) = (Z.of_nat n0 mod 2 ^ 32)%Z) by (destruct (last_capture mexp h) as [rd0|]; cbn [prev_of remember pv_numGC]; [apply H0|subst n0; reflexivity]).
    rewrite Q, (pauses_are P n0 n rd Hn Le ltac:(lia)), map_map. reflexivity. }
  rewrite Pv. pose proof PIh as (_ & T & _). rewrite D in T.
  rewrite (eff_feed mexp (p_state (preach mexp h)) rt_create (rt_tab (preach mexp h)) l "PauseNs" values _ _ (fun n => os (S n)) _ T ltac:(apply (strs_sub ["PauseNs"%string] (map fst rt_create)); [reflexivity|left; reflexivity])).
  - rewrite fold_record. do 2 f_equal. f_equal. change (List.length (rt_before (rt_prev (preach mexp h)) rd (o_now (os 0)))) with 22. generalize (List.length values). intros c.
    assert (X : forall j0, map (fun j => os (S (j + 22))) (seq j0 c) = map os (seq (j0 + 23) c)).
    { induction c as [|c IH]; intros j0; [reflexivity|]. cbn [seq map]. f_equal; [f_equal; lia|]. rewrite IH. reflexivity. }
    apply (X 0).
  - unfold owner. rewrite E. exact O.
  - apply Forall_forall. intros i Hi. pose proof (rt_items_ok (rt_prev (preach mexp h)) rd (o_now (os 0))) as K. rewrite Forall_forall in K. apply K. unfold rt_items. rewrite !in_app_iff in *. tauto.
  - intros X. cut (existsb (String.eqb "PauseNs") (map fst (rt_before (rt_prev (preach mexp h)) rd (o_now (os 0)) ++ rt_after (rt_prev (preach mexp h)) rd)) = true); [discriminate|]. apply existsb_exists. exists "PauseNs"%string. split; [exact X|reflexivity].
Qed.
