(** Without overlap the published rate is the current one. *)
From Coq Require Import ZArith List Lia Arith Permutation.
From Verif.Model Require Import GoInt GoFloat Conc Ewma Meter.
From Verif.Spec Require Import Traces EwmaSpec MeterSpec.
From Verif.Proofs Require Import IntFacts LinProofs PcProofs EwmaConc LogFacts MeterPc MeterInv MeterRun MeterPub.
Import ListNotations.
Open Scope Z_scope.

Section M.
Variable mexp : f64 -> f64.
Variable jd : nat.
Notation mstep := (mstep mexp).
Notation trace := (list (event mlabel meter_op meter_ret)).

Definition ticking (o : option mpc) : bool :=
  match o with
  | Some (PTick i _ _ _) | Some (PPub i (Some _) _) | Some (PTicked i _) => Nat.eqb i jd
  | _ => false end.

Lemma ticking_next pc s : ticking (Some (mnext pc s)) = match pc with PTickBegin i _ => Nat.eqb i jd | PTicked _ _ => false | _ => ticking (Some pc) end.
Proof.
  destruct pc as [r| |id|id|id|id n|id n|id n w|id rest st|id|id|id|id|op|id st|order|id rest|id w q rest|id rest| |d]; cbn; try reflexivity.
  - now destruct (m_stopped (meter_at s id)).
  - now destruct (next_w w).
  - destruct st; try reflexivity. now destruct rest.
  - now destruct (m_stopped (meter_at s id)).
  - now destruct op.
  - now destruct st.
  - now destruct (visit order (live s)).
  - destruct (wnext q (ewma_get id w s)); try reflexivity. now destruct (next_w w).
  - now destruct rest.
Qed.

Lemma lab_tbegun pc s s' l : mstep pc s s' l -> ticks_begun jd l = match pc with PTickBegin i _ => if Nat.eqb i jd then 1%nat else 0%nat | _ => 0%nat end.
Proof.
  unfold ticks_begun. intro St. stepcase St; try reflexivity; [destruct pc; try reflexivity; discriminate|destruct (started s); reflexivity| |now rewrite noewf].
  cbn. now destruct (Nat.eqb id jd).
Qed.
Lemma lab_tended pc s s' l : mstep pc s s' l -> ticks_ended jd l = match pc with PTicked i _ => if Nat.eqb i jd then 1%nat else 0%nat | _ => 0%nat end.
Proof.
  unfold ticks_ended. intro St. stepcase St; try reflexivity; [destruct pc; try reflexivity; discriminate|destruct (started s); reflexivity|now rewrite noewf|].
  cbn. now destruct (Nat.eqb id jd).
Qed.
Lemma lab_rate pc s s' l v : mstep pc s s' l -> rate_stores (ewma_labels jd v l) = [] \/ exists w q rest, pc = PTick jd w q rest.
Proof.
  intro St. stepcase St; try (left; reflexivity).
  - left. destruct (started s); reflexivity.
  - left. cbn. destruct (Nat.eqb id jd && which_eqb w v)%bool; reflexivity.
  - rewrite ewma_labels_map. destruct (Nat.eqb_spec id jd) as [->|]; [right; eauto|left; reflexivity].
Qed.
Lemma lab_pub pc s s' l v : mstep pc s s' l ->
  pubs jd v l = match pc with
    | PPub i _ (S1 r _ _ _) => if (Nat.eqb i jd && which_eqb A1 v)%bool then [float64bits r] else []
    | PPub i _ (S5 r _ _) => if (Nat.eqb i jd && which_eqb A5 v)%bool then [float64bits r] else []
    | PPub i _ (S15 r _) => if (Nat.eqb i jd && which_eqb A15 v)%bool then [float64bits r] else []
    | _ => [] end.
Proof.
  intro St. stepcase St; try reflexivity.
  - destruct pc; try reflexivity; try discriminate Hl. destruct st; try reflexivity; discriminate Hl.
  - destruct (started s); reflexivity.
  - cbn. destruct (Nat.eqb id jd && _)%bool; reflexivity.
  - cbn. destruct (Nat.eqb id jd && _)%bool; reflexivity.
  - cbn. destruct (Nat.eqb id jd && _)%bool; reflexivity.
  - apply pubs_ew.
Qed.

Definition curf (v : which) (s : marb) : f64 := rate_of (w_rate (get_a v (meter_at s jd))).
Definition fresh (v : which) (s : marb) : Prop := get_pub v (meter_at s jd) = float64bits (curf v s).
Definition ld (st : pub_stage) (s : marb) : Prop :=
  match st with
  | U1 => True
  | U5 r1 => r1 = curf A1 s
  | U15 r1 r5 => r1 = curf A1 s /\ r5 = curf A5 s
  | UC r1 r5 r15 => r1 = curf A1 s /\ r5 = curf A5 s /\ r15 = curf A15 s
  | UT r1 r5 r15 _ => r1 = curf A1 s /\ r5 = curf A5 s /\ r15 = curf A15 s
  | S1 r1 r5 r15 _ => r1 = curf A1 s /\ r5 = curf A5 s /\ r15 = curf A15 s
  | S5 r5 r15 _ => r5 = curf A5 s /\ r15 = curf A15 s
  | S15 r15 _ => r15 = curf A15 s
  | SM _ => True
  end.
Definition published (st : pub_stage) (s : marb) : Prop :=
  match st with
  | S5 _ _ _ => fresh A1 s | S15 _ _ => fresh A1 s /\ fresh A5 s | SM _ => fresh A1 s /\ fresh A5 s /\ fresh A15 s
  | _ => True end.

Record inv_ap (s : marb) (pcs : nat -> option mpc) (tr : trace) : Prop := {
  ap_tk : exists rs, NoDup rs /\ ticks_begun jd (labels tr) = (ticks_ended jd (labels tr) + length rs)%nat /\ forall t, In t rs <-> ticking (pcs t) = true;
  ap_ld : apart jd tr -> forall t rest st, pcs t = Some (PPub jd rest st) -> ld st s;
  ap_pub : apart jd tr -> forall t rest st, pcs t = Some (PPub jd (Some rest) st) -> published st s;
  ap_end : apart jd tr -> forall t rest, pcs t = Some (PTicked jd rest) -> forall v, fresh v s;
  ap_calm : apart jd tr -> (forall t, ticking (pcs t) = false) -> forall v, fresh v s;
}.

Lemma apart_prefix tr es : apart jd (tr ++ es) -> apart jd tr.
Proof. intros H pre post ->. apply (H pre (post ++ es)). now rewrite app_assoc. Qed.

Lemma apart_key s pcs tr t : inv_all s pcs tr -> inv_ap s pcs tr -> apart jd tr -> ticking (pcs t) = true ->
  (forall u, ticking (pcs u) = true -> u = t) /\ (forall u st, pcs u <> Some (PPub jd None st)).
Proof.
  intros A [] Hap Ht. destruct ap_tk0 as (rs & D & E & Hrs). destruct (Hap tr [] (eq_sym (app_nil_r tr))) as [H1 H2].
  assert (Hin : In t rs) by now apply Hrs. destruct rs as [|x rs]; [contradiction|]. cbn in E.
  assert (rs = []) by (destruct rs; [reflexivity|cbn in E; lia]). subst rs. destruct Hin as [->|[]]. split.
  - intros u Hu. apply Hrs in Hu. now destruct Hu as [->|[]].
  - intros u st Hu. pose proof (lg_open _ _ (ia_log _ _ _ A) u) as Lo. rewrite Hu in Lo. destruct (open_call u tr) as [[op ls]|] eqn:Eo; [|contradiction].
    cbn in Lo. destruct Lo as (n & -> & _). apply (H2 ltac:(lia) u n ls Eo).
Qed.

Lemma ap_exec sched : pc_inv (mcode mexp) (inv_more inv_ap) (fst (cexec (meter_body mexp) arb_init sched)) (snd (cexec (meter_body mexp) arb_init sched)).
Proof.
  apply meter_ind_more.
  - split; try discriminate.
    + exists []. repeat split; [constructor|contradiction|discriminate].
    + intros _ _ v. unfold fresh, curf. rewrite meter_at_out by (cbn; lia). destruct v; vm_compute; reflexivity.
  - intros s pcs tr t op A I Ht. pose proof I as [].
    assert (Lb : labels (tr ++ [EInv t op]) = labels tr) by (rewrite labels_app; apply app_nil_r).
    assert (ET : forall u, ticking (pupd pcs t (Some (mentry op)) u) = ticking (pcs u)).
    { intro u. pcase u t; [|reflexivity]. rewrite Ht. now destruct op. }
    split.
    + rewrite Lb. destruct ap_tk0 as (rs & D & E & Hrs). exists rs. split; [exact D|]. split; [exact E|]. intro u. rewrite ET. apply Hrs.
    + intros Ha u rest st. apply apart_prefix in Ha. pcase u t; [destruct op; discriminate|eauto].
    + intros Ha u rest st. apply apart_prefix in Ha. pcase u t; [destruct op; discriminate|eauto].
    + intros Ha u rest. apply apart_prefix in Ha. pcase u t; [destruct op; discriminate|eauto].
    + intros Ha Hn. apply apart_prefix in Ha. apply ap_calm0; [exact Ha|]. intro u. now rewrite <- ET.
  - intros s pcs tr t r A I Ht. pose proof I as [].
    assert (Lb : labels (tr ++ [ERes t r]) = labels tr) by (rewrite labels_app; apply app_nil_r).
    assert (ET : forall u, ticking (pupd pcs t None u) = ticking (pcs u)).
    { intro u. pcase u t; [|reflexivity]. now rewrite Ht. }
    split.
    + rewrite Lb. destruct ap_tk0 as (rs & D & E & Hrs). exists rs. split; [exact D|]. split; [exact E|]. intro u. rewrite ET. apply Hrs.
    + intros Ha u rest st. apply apart_prefix in Ha. pcase u t; [discriminate|eauto].
    + intros Ha u rest st. apply apart_prefix in Ha. pcase u t; [discriminate|eauto].
    + intros Ha u rest. apply apart_prefix in Ha. pcase u t; [discriminate|eauto].
    + intros Ha Hn. apply apart_prefix in Ha. apply ap_calm0; [exact Ha|]. intro u. now rewrite <- ET.
  - intros s pcs tr t pc s' l A I Ht St Hn A'. pose proof I as [].
    assert (Lb : labels (tr ++ map (EStep t) l) = labels tr ++ l) by (now rewrite labels_app, labels_steps).
    assert (Hu : okids pc s) by (intros i Hi; apply (st_len _ _ _ (ia_st _ _ _ A) t); now rewrite Ht).
    assert (TN := ticking_next pc s).
    assert (Key : apart jd tr -> ticking (Some pc) = true -> (forall u, u <> t -> ticking (pcs u) = false) /\ (forall u st, pcs u <> Some (PPub jd None st))).
    { intros Ha Htk. destruct (apart_key s pcs tr t A I Ha) as [K1 K2]; [now rewrite Ht|]. split; [|exact K2].
      intros u N. destruct (ticking (pcs u)) eqn:E; [|reflexivity]. elim N. now apply K1. }
    assert (Key2 : apart jd tr -> forall rest st, pc = PPub jd rest st -> forall u, u <> t -> ticking (pcs u) = false).
    { intros Ha rest st -> u N. destruct rest as [rest|].
      - apply Key; auto. cbn. apply Nat.eqb_refl.
      - destruct (ticking (pcs u)) eqn:E; [|reflexivity]. destruct (apart_key s pcs tr u A I Ha E) as [_ K2]. elim (K2 t st). exact Ht. }
    (* the current rates do not change unless the meter is being ticked *)
    assert (Rt : (exists w q rest, pc = PTick jd w q rest) \/ forall v, curf v s' = curf v s).
    { destruct pc as [r| |id|id|id|id n|id n|id n w|id rest st|id|id|id|id|op|id st|order|id rest|id w q rest|id rest| |d];
        try (right; intro v; unfold curf; rewrite (step_rate _ _ _ _ _ _ v St Hu); destruct (lab_rate _ _ _ _ v St) as [->|(? & ? & ? & ?)]; [reflexivity|discriminate]).
      destruct (Nat.eq_dec id jd) as [->|N]; [left; eauto|right]. intro v. unfold curf. rewrite (step_rate _ _ _ _ _ _ v St Hu).
      destruct (lab_rate _ _ _ _ v St) as [->|(? & ? & ? & E)]; [reflexivity|]. congruence. }
    assert (Pb : (exists rest st, pc = PPub jd rest st) \/ forall v, get_pub v (meter_at s' jd) = get_pub v (meter_at s jd)).
    { destruct pc as [r| |id|id|id|id n|id n|id n w|id rest st|id|id|id|id|op|id st|order|id rest|id w q rest|id rest| |d];
        try (right; intro v; rewrite (step_pub _ _ _ _ _ _ v St Hu), (lab_pub _ _ _ _ v St); reflexivity).
      destruct (Nat.eq_dec id jd) as [->|N]; [left; eauto|right]. intro v. rewrite (step_pub _ _ _ _ _ _ v St Hu), (lab_pub _ _ _ _ v St).
      apply Nat.eqb_neq in N. rewrite N. destruct st; reflexivity. }
    assert (Ldm : (forall v, curf v s' = curf v s) -> forall st, ld st s -> ld st s').
    { intros E st. destruct st; cbn; rewrite ?E; auto. }
    assert (PbS : forall v rest st, pc = PPub jd rest st -> get_pub v (meter_at s' jd) =
        match st with S1 r _ _ _ => if which_eqb A1 v then float64bits r else get_pub v (meter_at s jd)
        | S5 r _ _ => if which_eqb A5 v then float64bits r else get_pub v (meter_at s jd)
        | S15 r _ => if which_eqb A15 v then float64bits r else get_pub v (meter_at s jd)
        | _ => get_pub v (meter_at s jd) end).
    { intros v rest st ->. rewrite (step_pub _ _ _ _ _ _ v St Hu), (lab_pub _ _ _ _ v St), Nat.eqb_refl. cbn [andb].
      destruct st; try reflexivity; destruct v; reflexivity. }
    (* a publication keeps fresh rates fresh *)
    assert (Fr : apart jd tr -> forall rest st, pc = PPub jd rest st -> forall v, fresh v s -> fresh v s').
    { intros Ha rest st E v. destruct Rt as [(w & q & r & E2)|Rt]; [congruence|]. unfold fresh. rewrite Rt. intro F.
      rewrite (PbS v rest st E). assert (L : ld st s) by (apply (ap_ld0 Ha t rest); congruence).
      destruct st; try exact F; cbn in L; destruct v; cbn; try exact F; f_equal; tauto. }
    assert (Fr' : apart jd tr -> (forall w q rest, pc <> PTick jd w q rest) -> forall v, fresh v s -> fresh v s').
    { intros Ha NT v F. destruct Pb as [(rest & st & E)|Pb]; [now apply (Fr Ha rest st)|].
      destruct Rt as [(w & q & r & E2)|Rt]; [elim (NT _ _ _ E2)|]. unfold fresh. now rewrite Pb, Rt. }
    split.
    + rewrite Lb, begun1_app, ended1_app, (lab_tbegun _ _ _ _ St), (lab_tended _ _ _ _ St). destruct ap_tk0 as (rs & D & E & Hrs).
      assert (Same : ticking (Some (mnext pc s)) = ticking (Some pc) -> forall u, In u rs <-> ticking (pupd pcs t (Some (mnext pc s)) u) = true).
      { intros E1 u. rewrite Hrs. pcase u t; [|tauto]. now rewrite Ht, E1. }
      destruct pc; try (exists rs; split; [exact D|]; split; [lia|]; apply Same; exact TN).
      * destruct (Nat.eqb id jd) eqn:Ei.
        -- exists (t :: rs). split; [constructor; [|exact D]; rewrite Hrs, Ht; discriminate|]. split; [cbn; lia|].
           intro u. cbn [In]. rewrite Hrs. pcase u t; [rewrite TN; tauto|]. intuition congruence.
        -- exists rs. split; [exact D|]. split; [lia|]. apply Same. exact TN.
      * destruct (Nat.eqb id jd) eqn:Ei.
        -- destruct (nodup_remove_len t rs D) as (rs' & D' & L' & Hrs'); [apply Hrs; now rewrite Ht|].
           exists rs'. split; [exact D'|]. split; [lia|]. intro u. rewrite Hrs', Hrs. pcase u t; [rewrite TN; intuition discriminate|tauto].
        -- exists rs. split; [exact D|]. split; [lia|]. apply Same. rewrite TN. cbn. now rewrite Ei.
    + intros Ha u rest st. apply apart_prefix in Ha. pcase u t.
      * intro E. injection E as E. destruct (stage_next _ _ _ _ _ _ _ _ St E) as [->|[st0 Epc]]; [exact Logic.I|].
        assert (L : ld st0 s) by (apply (ap_ld0 Ha t rest); congruence).
        destruct Rt as [(w & q & r & E2)|Rt]; [congruence|]. apply Ldm; [exact Rt|]. subst pc. cbn [mnext] in E.
        destruct st0; try (injection E as <-; cbn in *; unfold curf, ewma_get; tauto).
        destruct rest; discriminate E.
      * intro E. destruct Rt as [(w & q & r & E2)|Rt]; [|apply Ldm; eauto].
        destruct (Key Ha) as [K1 K2]; [subst pc; cbn; apply Nat.eqb_refl|]. destruct rest as [rest|]; [|elim (K2 u st E)].
        specialize (K1 u N). rewrite E in K1. cbn in K1. now rewrite Nat.eqb_refl in K1.
    + intros Ha u rest st. apply apart_prefix in Ha. pcase u t.
      * intro E. injection E as E. destruct (stage_next _ _ _ _ _ _ _ _ St E) as [->|[st0 Epc]]; [exact Logic.I|].
        assert (L : ld st0 s) by (apply (ap_ld0 Ha t (Some rest)); congruence).
        assert (P0 : published st0 s) by (apply (ap_pub0 Ha t rest); congruence).
        pose proof (Fr Ha _ _ Epc) as F1. destruct Rt as [(w & q & r & E2)|Rt]; [congruence|].
        assert (New : forall v, (match st0 with S1 _ _ _ _ => v = A1 | S5 _ _ _ => v = A5 | S15 _ _ => v = A15 | _ => False end) -> fresh v s').
        { intros v Hv. unfold fresh. rewrite Rt, (PbS v _ _ Epc). destruct st0; try contradiction Hv; subst v; cbn in *; f_equal; tauto. }
        subst pc. cbn [mnext] in E. destruct st0; try (injection E as <-; exact Logic.I); try discriminate E.
        -- injection E as <-. cbn. now apply New.
        -- injection E as <-. cbn in *. split; [now apply F1|now apply New].
        -- injection E as <-. cbn in *. split; [now apply F1|]. split; [now apply F1|now apply New].
      * intro E. assert (Tu : ticking (pcs u) = true) by (rewrite E; cbn; apply Nat.eqb_refl).
        assert (Nt : forall w q r, pc <> PTick jd w q r).
        { intros w q r ->. destruct (Key Ha) as [K1 K2]; [cbn; apply Nat.eqb_refl|]. rewrite (K1 u N) in Tu. discriminate. }
        pose proof (ap_pub0 Ha u rest st E) as P0. pose proof (Fr' Ha Nt) as F1. destruct st; cbn in *; intuition.
    + intros Ha u rest. apply apart_prefix in Ha. pcase u t.
      * intros E v. injection E as E. destruct pc as [r| |id|id|id|id n|id n|id n w|id rst st|id|id|id|id|op|id st|order|id rst|id w q rst|id rst| |d]; cbn in E; try discriminate E.
        -- destruct (m_stopped (meter_at s id)); discriminate E.
        -- destruct (next_w w); discriminate E.
        -- destruct st; try discriminate E. destruct rst as [rst|]; [|discriminate E]. injection E as -> ->.
           pose proof (ap_pub0 Ha t rest _ Ht) as P0. cbn in P0. apply (Fr Ha _ _ eq_refl). destruct v; tauto.
        -- destruct (m_stopped (meter_at s id)); discriminate E.
        -- destruct op; discriminate E.
        -- destruct st; discriminate E.
        -- destruct (visit order (live s)); discriminate E.
        -- destruct (wnext q (ewma_get id w s)); try discriminate E. destruct (next_w w); discriminate E.
        -- destruct rst; discriminate E.
      * intros E v. assert (Tu : ticking (pcs u) = true) by (rewrite E; cbn; apply Nat.eqb_refl).
        assert (Nt : forall w q r, pc <> PTick jd w q r).
        { intros w q r ->. destruct (Key Ha) as [K1 K2]; [cbn; apply Nat.eqb_refl|]. rewrite (K1 u N) in Tu. discriminate. }
        apply (Fr' Ha Nt). now apply (ap_end0 Ha u rest).
    + intros Ha Hc v. apply apart_prefix in Ha. pose proof (Hc t) as Hct. rewrite pupd_same, TN in Hct.
      assert (Nt : forall w q r, pc <> PTick jd w q r).
      { intros w q r ->. cbn in Hct. now rewrite Nat.eqb_refl in Hct. }
      apply (Fr' Ha Nt). destruct (ticking (Some pc)) eqn:Et.
      * destruct pc; try discriminate; try (cbn in Et; congruence). cbn in Et. apply Nat.eqb_eq in Et. subst id. exact (ap_end0 Ha t rest Ht v).
      * apply (ap_calm0 Ha). intro u. destruct (Nat.eq_dec u t) as [->|N]; [now rewrite Ht|]. specialize (Hc u). now rewrite pupd_other in Hc.
Qed.
End M.
