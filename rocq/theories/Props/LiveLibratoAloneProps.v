(** Property C72: batches for Librato that are left alone.  If the rest of the process does
    nothing while a batch is made, the batch made of single calls (Model/LiveLibrato.v) is the
    batch made in one step (Model/Librato.v), which C49 is about. *)
From Coq Require Import ZArith List String Bool Lia Permutation.
From Verif.Model Require Import GoInt GoFloat GoBase Stats World Fmt Report Librato.
From Verif.Spec Require Import ApiSpec RegistrySpec HealthSpec GetAllSpec TextSpec ReportSpec ReadOnlySpec.
From Verif.Proofs Require Import WorldBase WorldStep HealthProofs GetAllProofs ReportProofs.
From Verif.Props Require Import SnapshotProps HealthProps GetAllProps ReportProps LiveProps LiveLibratoProps LiveAloneProps.
From Verif.Model Require Import Live LiveLibrato.
Import ListNotations.
Local Open Scope string_scope.
Local Open Scope list_scope.
Local Open Scope nat_scope.

Section AloneLibrato.
Variable sq : f64 -> f64.
Variable mexp : f64 -> f64.
Variable o : orc.
Variable self : reporter.
Notation alone := (alone o).
(** as [alone], for the world [w] *)
Definition alone_in {A B} (w : world) (lm : L A) (m : M B) (e : env) (R : A -> B -> env -> Prop) : Prop :=
  exists k ss e',
    match m o w with
    | (w', Ok b) => exists a, R a b e' /\ ext e e' /\ forall n, lm (nothing o (k + n)) (w, e) = MkExec (nothing o n) ss (w', e') (Some (Ok a))
    | (w', Panic msg) => forall n, lm (nothing o (k + n)) (w, e) = MkExec (nothing o n) ss (w', e') (Some (Panic msg))
    end.
Lemma in_bind {A B C D} w (lm : L A) (m : M B) (lf : A -> L C) (f : B -> M D) e R R' : alone_in w lm m e R ->
  (forall a b e' w', m o w = (w', Ok b) -> ext e e' -> R a b e' -> alone_in w' (lf a) (f b) e' R') -> alone_in w (lbind lm lf) (bind m f) e R'.
Proof.
  intros (k & ss & e' & X) Hf. unfold alone_in at 1. destruct (m o w) as [w1 [b|msg]] eqn:Em.
  - rewrite (bind_ok _ _ _ _ _ _ Em). destruct X as (a & Ra & E & X). destruct (Hf a b e' w1 eq_refl E Ra) as (k2 & ss2 & e2 & Y). exists (k + k2), (ss ++ ss2), e2.
    assert (Z : forall n, lbind lm lf (nothing o (k + k2 + n)) (w, e) = let r2 := lf a (nothing o (k2 + n)) (w1, e') in MkExec (left r2) (ss ++ acted r2) (at_end r2) (outcome r2)).
    { intros n. unfold lbind. rewrite <- Nat.add_assoc, X. reflexivity. }
    destruct (f b o w1) as [w2 [d|msg]].
    + destruct Y as (c & Rc & E2 & Y). exists c. split; [exact Rc|]. split; [eapply ext_trans; eauto|]. intros n. now rewrite Z, Y.
    + intros n. now rewrite Z, Y.
  - rewrite (bind_panic _ _ _ _ _ _ Em). exists k, ss, e'. intros n. unfold lbind. now rewrite X.
Qed.
Lemma in_value w c (m : M val) K e : World.call mexp e c = Some (v_rv m) -> (forall w' s, m o w = (w', Ok s) -> cls s = K) ->
  alone_in w (Live.call mexp c) m e (fun a s e' => nth_error e' (fst a) = Some s /\ cls s = K).
Proof.
  intros C Hk. destruct (alone_call_map mexp o c m RVal e C w) as (k & ss & e' & X). exists k, ss, e'. destruct (m o w) as [w1 [s|msg]] eqn:Em; [|exact X].
  destruct X as (a & (_ & Ea & ->) & X). exists a. split; [|exact X]. split; [|now apply (Hk w1)]. rewrite Ea. cbn [yields]. rewrite nth_error_app2 by lia. now rewrite Nat.sub_diag.
Qed.
Ltac called E K := etransitivity; [eapply call_at; [reflexivity|exact E]|]; unfold m_count, m_value, m_stat, m_percentiles, m_snapshot, only; rewrite K; reflexivity.
Ltac ask lem E K := eapply alone_bind; [apply (lem mexp o); called E K|]; let a := fresh "a" in let b := fresh "b" in let e' := fresh "e" in let X := fresh "X" in intros a b e' X ?; apply X in E; clear X; unfold same in *; subst.

Lemma alone_hist_gauges name y s ps : forall e, nth_error e y = Some s -> cls s = CSample -> alone (live_gauges mexp (hist_gauge self name) y ps) (hist_gauges self name s ps) e same.
Proof.
  induction ps as [|p ps IH]; intros e E K; cbn [live_gauges hist_gauges]; [now apply alone_ret|]. ask alone_ask_f E K.
  eapply alone_bind; [now apply IH|]. intros r r' e2 _ <-. now apply alone_ret.
Qed.
Lemma alone_timer_gauges name y s ps : forall e, nth_error e y = Some s -> cls s = CTimer ->
  alone (live_gauges mexp (timer_gauge self name) y ps) (timer_gauges self name s ps) e (fun a b e' => a = b /\ nth_error e' y = Some s).
Proof.
  induction ps as [|p ps IH]; intros e E K; cbn [live_gauges timer_gauges]; [now apply alone_ret|]. ask alone_ask_f E K.
  eapply alone_bind; [now apply IH|]. intros r r' e2 _ (<- & E2). now apply alone_ret.
Qed.
(** the sample of a histogram, however it is reached by reading *)
Definition sampled (w : world) (v : val) : Prop := forall w1, gentle (heap w) (heap w1) -> forall w2 s, hist_sample v o w1 = (w2, Ok s) -> cls s = CSample.
Lemma in_measure name x v e w : nth_error e x = Some v -> sampled w v -> alone_in w (live_measure sq mexp self name x) (measure sq self name v) e same.
Proof.
  intros E S. unfold live_measure, measure. cbv zeta. set (nm := if String.eqb (namespace self) "" then name else _). clearbody nm.
  refine ((_ : forall lf m, alone_in w (lf (cls v)) m e same -> alone_in w (lbind (kind_at x) lf) m e same) _ _ _).
  { intros lf m (k & ss & e' & X). exists k, ss, e'.
    assert (Z : forall n, lbind (kind_at x) lf (nothing o n) (w, e) = lf (cls v) (nothing o n) (w, e)).
    { intros n. unfold lbind, kind_at. cbn [outcome left at_end acted fst snd app]. rewrite E. now destruct (lf (cls v) (nothing o n) (w, e)). }
    destruct (m o w) as [w1 [b|msg]].
    - destruct X as (a & Ra & Ex & X). exists a. split; [exact Ra|]. split; [exact Ex|]. intros n. now rewrite Z.
    - intros n. now rewrite Z. }
  cbv beta. destruct (cls v) eqn:K; try (exact (alone_ret o _ _ e same eq_refl w)).
  - refine ((_ : alone _ _ e same) w).
    ask alone_ask_z E K. destruct (0 <? b)%Z; [|now apply alone_ret]. ask alone_ask_z E K. now apply alone_ret.
  - refine ((_ : alone _ _ e same) w). ask alone_ask_z E K. now apply alone_ret.
  - refine ((_ : alone _ _ e same) w). ask alone_ask_f E K. now apply alone_ret.
  - eapply in_bind with (R := same); [refine (alone_ask_z mexp o _ _ e _ w); called E K|]. intros n n' e1 w1 H1 X1 <-. apply X1 in E. destruct (0 <? n)%Z; [|exact (alone_ret o _ _ e1 same eq_refl w1)].
    assert (G1 : gentle (heap w) (heap w1)) by (pose proof (gm_hist_count v o w) as G; now rewrite H1 in G).
    eapply in_bind; [apply (in_value w1 (OSample x) (hist_sample v) CSample); [called E K|exact (S w1 G1)]|]. intros a s e2 w2 _ _ (Es & Ks). cbv zeta. set (y := fst a) in *. clearbody y. clear E K.
    refine ((_ : alone _ _ e2 same) w2).
    ask alone_ask_z Es Ks. ask alone_stat_z Es Ks. ask alone_stat_z Es Ks. ask alone_stat_z Es Ks. ask alone_ask_z Es Ks. ask alone_stat_f Es Ks. ask alone_stat_f Es Ks.
    eapply alone_bind; [now apply alone_hist_gauges|]. intros g g' ? _ <-. now apply alone_ret.
  - refine ((_ : alone _ _ e same) w). ask alone_ask_z E K. ask alone_ask_f E K. ask alone_ask_f E K. ask alone_ask_f E K. now apply alone_ret.
  - refine ((_ : alone _ _ e same) w). ask alone_ask_z E K. ask alone_ask_z E K. destruct (0 <? b0)%Z; [|now apply alone_ret].
    ask alone_ask_z E K. ask alone_stat_f E K. ask alone_ask_z E K. ask alone_stat_z E K. ask alone_stat_z E K. ask alone_ask_z E K. ask alone_stat_f E K. ask alone_stat_f E K.
    eapply alone_bind; [now apply alone_timer_gauges|]. intros g g' ? _ (<- & E3). clear E. ask alone_ask_f E3 K. ask alone_ask_f E3 K. ask alone_ask_f E3 K. now apply alone_ret.
Qed.
Lemma gm_first l : gm (first_score l). Proof. apply gm_lift. Qed.
#[local] Hint Resolve gm_first : gm.
Lemma gm_hist_gauges name s ps : gm (hist_gauges self name s ps).
Proof. induction ps as [|p ps IH]; cbn [hist_gauges]; gms. Qed.
Lemma gm_timer_gauges name s ps : gm (timer_gauges self name s ps).
Proof. induction ps as [|p ps IH]; cbn [timer_gauges]; gms. Qed.
#[local] Hint Resolve gm_hist_gauges gm_timer_gauges : gm.
Lemma gm_measure name v : gm (measure sq self name v).
Proof. unfold measure. cbv zeta. destruct (cls v); gms. Qed.
Lemma in_each np es : forall e w, Forall2 (placed e) np es -> Forall (fun kv => sampled w (snd kv)) es ->
  alone_in w (live_each (fun name x => lbind (live_measure sq mexp self name x) (fun gc => lret [gc])) np) (measure_each sq self es) e (fun ms gc _ => gc = (List.concat (map fst ms), List.concat (map snd ms))).
Proof.
  revert es. induction np as [|[n x] np IH]; intros es e w F S; inversion F as [|? [n' v] ? ? (N & E) F']; subst; cbn [live_each measure_each fst snd] in *; [exact (alone_ret o [] _ e (fun ms gc _ => gc = (List.concat (map fst ms), List.concat (map snd ms))) eq_refl w)|]. subst n'.
  inversion S as [|? ? S1 S2]; subst. cbn [snd] in S1.
  eapply in_bind with (R := fun a b _ => a = [b]).
  { destruct (in_measure n x v e w E S1) as (k & ss & e' & X). exists k, ss, e'. destruct (measure sq self n v o w) as [w1 [b|msg]].
    - destruct X as (a & <- & Ex & X). exists [a]. split; [reflexivity|]. split; [exact Ex|]. intros m. unfold lbind. rewrite X. cbn. now rewrite app_nil_r.
    - intros m. unfold lbind. now rewrite X. }
  intros a [g c] e1 w1 H1 X1 ->. assert (G1 : gentle (heap w) (heap w1)) by (pose proof (gm_measure n v o w) as G; now rewrite H1 in G).
  eapply in_bind; [apply IH; [eapply placed_ext; eauto|]|].
  - eapply Forall_impl; [|exact S2]. intros kv Hk w2 G2. apply Hk. eapply gentle_trans; eauto.
  - intros ms [gs cs] e2 w2 _ _ Hm. injection Hm as -> ->. exact (alone_ret o ([(g, c)] ++ ms) _ e2 (fun ms gc _ => gc = (List.concat (map fst ms), List.concat (map snd ms))) eq_refl w2).
Qed.
Lemma vok_sampled (st : state) v : inv st -> vok (heap (fst st)) v -> sampled (fst st) v.
Proof.
  intros I V w1 G w2 s H. destruct v; cbn [hist_sample] in H; try discriminate H.
  - cbn [vok] in V. destruct V as (z & Ez & T). destruct z; cbn in T; try discriminate T. destruct (wf_obj _ (proj1 I) _ _ Ez) as [Ks _]. pose proof (gentle_obj _ _ _ _ G Ez) as E1. cbn in E1.
    unfold bind, load in H. rewrite E1 in H. injection H as _ <-. exact Ks.
  - unfold bind, load in H. destruct (nth_error (heap w1) l) as [[]|]; try discriminate H. injection H as _ <-. reflexivity.
  - injection H as _ <-. reflexivity.
Qed.
Lemma in_same {A B} w (lm : L A) (m m' : M B) e R : m o w = m' o w -> alone_in w lm m' e R -> alone_in w lm m e R.
Proof. unfold alone_in. now intros ->. Qed.
Lemma in_build (st : state) now r v b : inv st -> nth_error (snd st) r = Some v -> base v = Some b ->
  alone_in (fst st) (live_build sq mexp self now r) (build_request sq self now v) (snd st) same.
Proof.
  intros I E B. unfold live_build, build_request. eapply in_bind; [exact (alone_res o _ _ _)|]. intros q q' e1 w1 H1 X1 Hq. unfold same in Hq. subst q'. cbv zeta.
  assert (w1 = fst st) as -> by (unfold lift in H1; congruence).
  assert (Vv : vok (heap (fst st)) v) by (destruct I as [_ Fv]; rewrite Forall_forall in Fv; apply Fv; eapply nth_error_In; eauto).
  destruct (reg_each_run st v b o I Vv B) as (l & R & _ & _ & Fl).
  assert (K : cls v = CReg) by (destruct v; try discriminate B; reflexivity). apply X1 in E.
  apply in_same with (m' := bind (bind (reg_each v) (fun es => measure_each sq self es)) (fun '(gs, cs) => ret (MkBatch gs cs (wrap64 (q * interval_sec self)) (source self)))); [symmetry; apply bind_assoc|].
  unfold live_visit. eapply in_bind with (R := fun ms gc _ => gc = (List.concat (map fst ms), List.concat (map snd ms))).
  - eapply in_bind; [refine (alone_call_map mexp o (OEach r) (reg_each v) RPairs e1 _ (fst st)); called E K|]. intros a es e2 w2 H2 _ (-> & -> & ->). cbn [rv_pairs yields]. unfold as_it_is. rewrite R in H2. injection H2 as <- <-.
    apply in_each; [apply places_placed|]. eapply Forall_impl; [|exact Fl]. intros kv (_ & V). now apply vok_sampled.
  - intros ms [gs cs] e2 w2 _ _ Hm. injection Hm as -> ->. exact (alone_ret o _ _ e2 same eq_refl w2).
Qed.
End AloneLibrato.

(** Left alone, the Librato reporter does what it does in one step. *)
Theorem C72_librato_alone : forall sq mexp p o self now r v b, let st := reach mexp p in nth_error (snd st) r = Some v -> base v = Some b ->
  as_one_step o st (live_build sq mexp self now r) (build_request sq self now v).
Proof.
  intros sq mexp p o self now r v b st E B. pose proof (reach_inv mexp p) as I. change (run mexp state_init p) with st in I. clearbody st.
  destruct (in_build sq mexp o self st now r v b I E B) as (k & ss & e' & X). exists k. intros n Hn. replace n with (k + (n - k)) by lia. cbv zeta. destruct st as [w e0]. cbn [fst snd] in *. destruct (build_request sq self now v o w) as [w1 [bt|msg]].
  - destruct X as (a & <- & _ & X). rewrite X. auto.
  - rewrite X. auto.
Qed.

(** ** Example: the registry of C72_librato_example; [40] calls are enough, [3] are not *)
Definition in_one_step : res batch := snd (build_request (fun x => fmul x x) (every_ten [ratio 1 2]) (1234 * 10 ^ 8) (VReg 0) o8 (fst (reach one_exp selling))).
Definition of_batch (f : batch -> list (string * Z)) : res (list (string * Z)) := match in_one_step with Ok b => Ok (f b) | Panic m => Panic m end.
Example C72_librato_alone_example : let st := reach one_exp selling in
  nth_error (snd st) 0 = Some (VReg 0) /\ base (VReg 0) = Some 0 /\
  batch_of counters_sent (nothing o8 40) = Some (of_batch counters_sent) /\ of_batch counters_sent = Ok [("ns.c.count", float64bits (f_of_int 1)); ("ns.t", float64bits (f_of_int 1))] /\
  batch_of gauge_names (nothing o8 40) = Some (of_batch gauge_names) /\ batch_of timer_sums (nothing o8 40) = Some (of_batch timer_sums) /\
  batch_of gauge_names (nothing o8 3) = None.
Proof. cbv zeta. repeat (split; [vm_compute; reflexivity|]). vm_compute; reflexivity. Qed.
