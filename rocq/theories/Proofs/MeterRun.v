(** Executions of the meter machine: locks, removal and the outline of calls. *)
From Coq Require Import ZArith List Lia Arith Permutation.
From Verif.Model Require Import GoInt GoFloat Conc Ewma Meter.
From Verif.Spec Require Import Traces MeterSpec.
From Verif.Proofs Require Import IntFacts LinProofs PcProofs EwmaConc LogFacts MeterPc MeterInv.
Import ListNotations.
Open Scope Z_scope.

Ltac stepcase St :=
  destruct St as [pc s Hl|s|id s Hw Hr|id s|id s|id n s Hy Hp|id n s Hy Hp|id n s|id n w s|id rest r1 r5 r15 m s|id rest r5 r15 m s
    |id rest r15 m s|id rest m s|id s Hy|id s Hw Hr|id s|id s|order s Hw|id rest s|id w q rest s e' els Hq Hs|id rest s|s|d s].

Lemma along_app {A} (Q : list A -> A -> Prop) ls l : along Q ls ->
  (forall pre x post, l = pre ++ x :: post -> Q (ls ++ pre) x) -> along Q (ls ++ l).
Proof.
  intros H Hl pre x post E. change (x :: post) with ([x] ++ post) in E. apply split_app in E.
  destruct E as [(e1 & e2 & -> & -> & <-)|(p & E & ->)].
  - now apply (Hl e1 x post).
  - destruct p as [|y p].
    + cbn in E. specialize (Hl [] x post (eq_sym E)). now rewrite !app_nil_r in Hl.
    + cbn in E. injection E as <- E. now apply (H pre x p).
Qed.

Section M.
Variable mexp : f64 -> f64.
Notation mstep := (mstep mexp).
Notation trace := (list (event mlabel meter_op meter_ret)).

(** ** the lock *)
Record inv_lock (s : marb) (pcs : nat -> option mpc) (ls : list mlabel) : Prop := {
  lk_w : wlock s = true <-> exists t, writing (pcs t) = true;
  lk_u : forall t u, writing (pcs t) = true -> writing (pcs u) = true -> t = u;
  lk_r : exists rs, NoDup rs /\ length rs = rlocks s /\ forall t, In t rs <-> reading (pcs t) = true;
  lk_x : wlock s = true -> rlocks s = 0%nat;
  lk_n : rounds_begun ls = (rounds_ended ls + rlocks s)%nat;
}.

Lemma neutral_lock s pcs ls t x : inv_lock s pcs ls -> writing (pcs t) = false -> reading (pcs t) = false ->
  writing x = false -> reading x = false -> inv_lock s (pupd pcs t x) ls.
Proof.
  intros [] W0 R0 W1 R1.
  assert (EW : forall u, writing (pupd pcs t x u) = writing (pcs u)) by (intro u; pcase u t; congruence).
  assert (ER : forall u, reading (pupd pcs t x u) = reading (pcs u)) by (intro u; pcase u t; congruence).
  split; try assumption.
  - rewrite lk_w0. split; intros [u Hu]; exists u; rewrite EW in *; exact Hu.
  - intros u v. rewrite !EW. auto.
  - destruct lk_r0 as (rs & D & Ln & Hrs). exists rs. split; [exact D|]. split; [exact Ln|]. intro u. rewrite ER. apply Hrs.
Qed.

Lemma step_guard pc s s' l : mstep pc s s' l ->
  match pc with PNewLock _ | PStopLock _ => wlock s = false /\ rlocks s = 0%nat | PTickAll _ => wlock s = false | _ => True end.
Proof. intro St. stepcase St; trivial; try (split; assumption). destruct pc; trivial; discriminate. Qed.

Lemma nodup_remove_len (t : nat) rs : NoDup rs -> In t rs -> exists rs', NoDup rs' /\ length rs = S (length rs') /\ forall u, In u rs' <-> (In u rs /\ u <> t).
Proof.
  intros D H. apply in_split in H. destruct H as (a & b & ->). exists (a ++ b). split; [now apply NoDup_remove_1 in D|].
  split; [rewrite !app_length; cbn; lia|]. apply NoDup_remove_2 in D. intro u. rewrite !in_app_iff in *. cbn. split.
  - intro H. split; [tauto|]. intros ->. tauto.
  - intros [[H|[H|H]] N]; auto. congruence.
Qed.

Lemma step_lock s pcs ls t pc s' l : inv_lock s pcs ls -> pcs t = Some pc -> mstep pc s s' l ->
  inv_lock s' (pupd pcs t (Some (mnext pc s))) (ls ++ l).
Proof.
  intros [] Ht St. pose proof (step_guard _ _ _ _ St) as G.
  pose proof (step_wlock _ _ _ _ _ St) as EW. pose proof (step_rlocks _ _ _ _ _ St) as ER.
  pose proof (writing_next pc s) as WN. pose proof (reading_next pc s) as RN.
  assert (NoW : wlock s = false -> forall u, writing (pcs u) = false).
  { intros E u. destruct (writing (pcs u)) eqn:Eu; [|reflexivity]. rewrite (proj2 lk_w0) in E; [discriminate|eauto]. }
  split.
  - rewrite EW. split.
    + intro H. destruct pc; try discriminate H; try (exists t; rewrite pupd_same, WN; reflexivity);
        (destruct (proj1 lk_w0 H) as [u Hu]; exists u; destruct (Nat.eq_dec u t) as [->|N];
          [rewrite Ht in Hu; try discriminate Hu; now rewrite pupd_same, WN|now rewrite pupd_other]).
    + intros [u Hu]. destruct (Nat.eq_dec u t) as [->|N].
      * rewrite pupd_same, WN in Hu. destruct pc; try discriminate Hu; try reflexivity; apply lk_w0; exists t; now rewrite Ht.
      * rewrite pupd_other in Hu by exact N. destruct pc; try reflexivity; try (apply lk_w0; eauto);
          (exfalso; apply N; apply lk_u0; [exact Hu|now rewrite Ht]).
  - intros u v. pcase u t; pcase v t; auto; rewrite ?WN; intros Hu Hv.
    + destruct pc; try discriminate Hu; try (apply lk_u0; [now rewrite Ht|exact Hv]); rewrite NoW in Hv by tauto; discriminate.
    + destruct pc; try discriminate Hv; try (apply lk_u0; [exact Hu|now rewrite Ht]); rewrite NoW in Hu by tauto; discriminate.
  - destruct lk_r0 as (rs & D & Ln & Hrs). rewrite ER.
    assert (Same : reading (Some (mnext pc s)) = reading (Some pc) ->
      exists rs, NoDup rs /\ length rs = rlocks s /\ forall u, In u rs <-> reading (pupd pcs t (Some (mnext pc s)) u) = true).
    { intro E. exists rs. split; [exact D|]. split; [exact Ln|]. intro u. rewrite Hrs. pcase u t; [|tauto]. now rewrite Ht, E. }
    destruct pc; try (apply Same; exact RN).
    + exists (t :: rs). split; [constructor; [|exact D]; rewrite Hrs, Ht; discriminate|]. split; [cbn; now rewrite Ln|].
      intro u. cbn [In]. rewrite Hrs. pcase u t; [rewrite RN; tauto|]. intuition congruence.
    + destruct (nodup_remove_len t rs D) as (rs' & D' & L' & Hrs'); [apply Hrs; now rewrite Ht|].
      exists rs'. split; [exact D'|]. split; [lia|]. intro u. rewrite Hrs', Hrs. pcase u t; [rewrite RN; intuition discriminate|tauto].
  - rewrite EW, ER. destruct pc; try exact lk_x0; try discriminate; try tauto; try congruence.
    intro H. rewrite lk_x0; auto.
  - rewrite begun_app, ended_app, (lab_begun _ _ _ _ _ St), (lab_ended _ _ _ _ _ St), ER. destruct pc; try lia.
    destruct lk_r0 as (rs & D & Ln & Hrs). assert (In t rs) by (apply Hrs; now rewrite Ht). destruct rs; [contradiction|]. cbn in Ln. lia.
Qed.

(** ** after the removal *)
Definition round_ok (pre : list mlabel) (l : mlabel) : Prop :=
  match l with
  | LRound ids => ids = members pre
  | LInserted _ | LDeleted _ => rounds_begun pre = rounds_ended pre
  | _ => True
  end.
Definition calm_after (j : nat) (pre : list mlabel) (l : mlabel) : Prop := In j (deleted pre) -> ~ tick_action j l.

Record inv_del (s : marb) (pcs : nat -> option mpc) (ls : list mlabel) : Prop := {
  dl_use : forall j t, In j (deleted ls) -> reading (pcs t) = true -> ~ In j (used (pcs t));
  dl_lab : forall j, along (calm_after j) ls;
  dl_round : along round_ok ls;
}.

Lemma neutral_del s pcs ls t x : inv_del s pcs ls -> reading x = false -> inv_del s (pupd pcs t x) ls.
Proof.
  intros [] R1. split; try assumption. intros j u Hj. pcase u t; [congruence|eauto].
Qed.

Lemma step_tick_action pc s s' l x j : mstep pc s s' l -> In x l -> tick_action j x ->
  (reading (Some pc) = true /\ In j (used (Some pc))) \/ ((exists o, pc = PTickAll o) /\ In j (live s)).
Proof.
  intro St. stepcase St; cbn [In]; try tauto; try (intros [<-|[]] H; cbn in H; try contradiction; subst; eauto).
  - intros [<-|H] HH; [contradiction|]. destruct (started s); [contradiction|]. destruct H as [<-|[]]. contradiction.
  - left. cbn. auto.
  - intro H. apply in_map_iff in H. destruct H as (e & <- & He). cbn. destruct e; try contradiction; intros ->; auto.
  - left. cbn. auto.
Qed.

Lemma in_deleted_mono j a b : In j (deleted a) -> In j (deleted (a ++ b)).
Proof. rewrite deleted_app, in_app_iff. auto. Qed.

Lemma step_del s pcs ls t pc s' l : inv_st s pcs ls -> inv_lock s pcs ls -> inv_del s pcs ls -> pcs t = Some pc -> mstep pc s s' l ->
  (forall id, needs pc = Some id -> m_ready (meter_at s id) = true) ->
  inv_del s' (pupd pcs t (Some (mnext pc s))) (ls ++ l).
Proof.
  intros I LK [] Ht St Hn.
  pose proof (lab_deleted _ _ _ _ _ St) as ED.
  assert (NoR : writing (Some pc) = true -> forall u, reading (pcs u) = false).
  { intros W u. destruct LK. assert (wlock s = true) by (apply lk_w0; exists t; now rewrite Ht). specialize (lk_x0 H).
    destruct lk_r0 as (rs & D & Ln & Hrs). destruct (reading (pcs u)) eqn:E; [|reflexivity]. apply Hrs in E. destruct rs; [contradiction|]. cbn in Ln. lia. }
  assert (Rd : writing (Some pc) = true -> rounds_begun ls = rounds_ended ls).
  { intro W. destruct LK. assert (wlock s = true) by (apply lk_w0; exists t; now rewrite Ht). rewrite (lk_x0 H) in lk_n0. lia. }
  split.
  - intros j u. rewrite deleted_app, ED, in_app_iff. pcase u t.
    + intros Hj HR Hu. apply used_next in Hu.
      assert (RR : reading (Some pc) = true \/ exists o, pc = PTickAll o).
      { rewrite reading_next in HR. destruct pc; try discriminate HR; auto. right. eauto. }
      assert (Hj' : In j (deleted ls)).
      { destruct Hj as [|Hj]; [assumption|]. destruct pc; try contradiction Hj. destruct RR as [RR|[o RR]]; discriminate RR. }
      destruct Hu as [Hu|[[-> _]|[Hu|Hu]]].
      * destruct RR as [RR|[o ->]]; [|destruct Hu]. apply (dl_use0 j t Hj'); rewrite Ht; assumption.
      * destruct RR as [RR|[o RR]]; discriminate RR.
      * destruct RR as [RR|[o ->]]; [|discriminate Hu]. destruct pc; try discriminate RR; discriminate Hu.
      * rewrite (st_live _ _ _ I) in Hu. apply members_in in Hu. tauto.
    + intros [Hj|Hj] HR; [eauto|]. destruct pc; try contradiction Hj. rewrite NoR in HR by reflexivity. discriminate.
  - intro j. apply along_app; [apply dl_lab0|]. intros pre x post E Hj TA.
    assert (Hx : In x l) by (rewrite E; apply in_or_app; right; now left).
    destruct (step_tick_action _ _ _ _ _ _ St Hx TA) as [[R U]|[[o ->] Hlv]].
    + assert (Hj' : In j (deleted ls)).
      { rewrite deleted_app, in_app_iff in Hj. destruct Hj as [|Hj]; [assumption|]. assert (In j (deleted l)) by (rewrite E; now apply in_deleted_mono).
        rewrite ED in H. destruct pc; try contradiction; discriminate R. }
      apply (dl_use0 j t Hj'); rewrite Ht; assumption.
    + assert (Hj' : In j (deleted ls)).
      { rewrite deleted_app, in_app_iff in Hj. destruct Hj as [|Hj]; [assumption|]. assert (In j (deleted l)) by (rewrite E; now apply in_deleted_mono).
        rewrite ED in H. contradiction. }
      rewrite (st_live _ _ _ I) in Hlv. apply members_in in Hlv. tauto.
  - apply along_app; [exact dl_round0|]. intros pre x post E. revert E.
    assert (One : forall y, l = [y] -> l = pre ++ x :: post -> pre = [] /\ x = y).
    { intros y -> E. destruct pre as [|p pre]; [injection E; auto|]. injection E as <- E. destruct pre; discriminate E. }
    stepcase St; intro E; try (destruct pre; discriminate E); try (destruct (One _ eq_refl E) as [-> ->]; cbn; rewrite ?app_nil_r; auto; fail).
    + destruct pre as [|p pre]; cbn in E.
      * injection E as <- _. cbn. rewrite app_nil_r. now apply Rd.
      * injection E as <- E. destruct (started s); [destruct pre; discriminate E|]. destruct pre as [|p pre]; [injection E as <- _; exact Logic.I|].
        injection E as <- E. destruct pre; discriminate E.
    + destruct (One _ eq_refl E) as [-> ->]; cbn. rewrite app_nil_r. exact (st_live _ _ _ I).
    + assert (Hx : In x (map (LEwma id w) els)) by (rewrite E; apply in_or_app; right; now left).
      apply in_map_iff in Hx. destruct Hx as (e & <- & _). exact Logic.I.
Qed.

(** ** the outline of calls *)
Lemma acts_app a b : acts (a ++ b) = acts a ++ acts b. Proof. apply flat_map_app. Qed.

Definition stored_before (id : nat) (w : which) : list act :=
  match w with A1 => [] | A5 => [AStored id A1] | A15 => [AStored id A1; AStored id A5] end.
Definition pub_part (id : nat) (st : pub_stage) : list act :=
  match st with
  | S5 _ _ _ => [APub id A1] | S15 _ _ => [APub id A1; APub id A5] | SM _ => [APub id A1; APub id A5; APub id A15]
  | _ => [] end.
Definition fed_before (id : nat) (n : Z) (w : which) : list act :=
  match w with A1 => [] | A5 => [AFed id A1 n] | A15 => [AFed id A1 n; AFed id A5 n] end.
Definition tprog (op : meter_op) (a : list act) (id : nat) (rest : list nat) (part : list act) : Prop :=
  exists o ids before, op = MTickAll o /\ Permutation (before ++ id :: rest) ids /\ NoDup ids /\
    a = ARound ids :: flat_map tick_acts before ++ part.
Definition is_read (op : meter_op) : bool :=
  match op with MCount _ | MRate _ _ | MRateMean _ | MSnapshot _ => true | _ => false end.
Definition prog (pc : mpc) (op : meter_op) (a : list act) : Prop :=
  match pc with
  | PEnd r => call_done op a r
  | PNew | PNewLock _ | PNewIns _ => op = MNew /\ a = []
  | PNewUnlock id => op = MNew /\ a = [AIns id]
  | PMark id n | PMarkAdd id n => op = MMark id n /\ a = []
  | PMarkUpd id n w => op = MMark id n /\ a = AMarked id n :: fed_before id n w
  | PPub id None st => exists n, op = MMark id n /\ a = [AMarked id n; AFed id A1 n; AFed id A5 n; AFed id A15 n] ++ pub_part id st
  | PPub id (Some rest) st => tprog op a id rest ([ABegin id; AStored id A1; AStored id A5; AStored id A15] ++ pub_part id st)
  | PTicked id rest => tprog op a id rest ([ABegin id; AStored id A1; AStored id A5; AStored id A15] ++ publish_acts id)
  | PTickBegin id rest => tprog op a id rest []
  | PTick id w q rest => tprog op a id rest (ABegin id :: stored_before id w ++ match q with QUnlock => [AStored id w] | _ => [] end)
  | PRUnlock => exists o ids before, op = MTickAll o /\ Permutation before ids /\ NoDup ids /\ a = ARound ids :: flat_map tick_acts before
  | PTickAll o => op = MTickAll o /\ a = []
  | PStop id => op = MStop id /\ a = []
  | PStopLock id | PStopDel id => op = MStop id /\ a = [ACas id true]
  | PStopUnlock id => op = MStop id /\ a = [ACas id true; ADel id]
  | PRead op' => op = op' /\ a = [] /\ is_read op' = true
  | PSnap id _ => op = MSnapshot id /\ a = []
  | PAdv d => op = MAdvance d /\ a = []
  end.

Lemma visit_perm o l : NoDup l -> Permutation (visit o l) l.
Proof.
  intro D. unfold visit. apply NoDup_Permutation.
  - assert (D1 : NoDup (filter (fun x => memn x l) (nodup Nat.eq_dec o))) by (apply NoDup_filter, NoDup_nodup).
    assert (D2 : NoDup (filter (fun x => negb (memn x o)) l)) by now apply NoDup_filter.
    assert (X : forall x, In x (filter (fun x => memn x l) (nodup Nat.eq_dec o)) -> ~ In x (filter (fun x => negb (memn x o)) l)).
    { intros x H1 H2. apply filter_In in H1. apply filter_In in H2. destruct H1 as [H1 _], H2 as [_ H2]. apply nodup_In in H1.
      apply Bool.negb_true_iff in H2. enough (memn x o = true) by congruence. unfold memn. apply existsb_exists. exists x. split; [exact H1|apply Nat.eqb_refl]. }
    revert D1 X. generalize (filter (fun x => memn x l) (nodup Nat.eq_dec o)). intros a D1 X. induction D1 as [|x a Hx D1 IH]; [exact D2|].
    cbn. constructor.
    + rewrite in_app_iff. intros [H|H]; [contradiction|]. apply (X x); [now left|exact H].
    + apply IH. intros y Hy. apply X. now right.
  - exact D.
  - intro x. rewrite in_app_iff, !filter_In, nodup_In.
    assert (M : forall y k, memn y k = true <-> In y k).
    { intros y k. unfold memn. rewrite existsb_exists. split; [intros (z & Hz & E); apply Nat.eqb_eq in E; now subst|intro H; exists y; split; [exact H|apply Nat.eqb_refl]]. }
    rewrite Bool.negb_true_iff, M. split; [intuition|]. intro H. destruct (memn x o) eqn:E; [left; split; [now apply M|exact H]|right; auto].
Qed.

Lemma wstep_acts q e e' ls id w : wstep q e e' ls -> tick_pc (Some q) = true ->
  acts (map (LEwma id w) ls) = match q with QStore _ _ _ | QIStore _ => [AStored id w] | _ => [] end.
Proof. intros [] T; try discriminate T; reflexivity. Qed.

Lemma wnext_unlock q e : tick_pc (Some q) = true -> (match q with QStore _ _ _ | QIStore _ | QUnlock => True | _ => wnext q e <> QUnlock /\ wnext q e <> QEnd WNone end).
Proof. destruct q; try discriminate; intros _; cbn; try exact Logic.I; try (split; discriminate); destruct (w_init e); split; discriminate. Qed.

Ltac apps := repeat (progress (cbn [app flat_map stored_before]; rewrite <- ?app_assoc, ?app_nil_r)); reflexivity.
Lemma prog_step pc s s' l op a : NoDup (live s) -> mstep pc s s' l -> prog pc op a -> prog (mnext pc s) op (a ++ acts l).
Proof.
  intros ND St P. stepcase St.
  - cbn [acts flat_map]. rewrite app_nil_r. destruct pc; try discriminate Hl; cbn [mnext prog] in *.
    + destruct st; try discriminate Hl; exact P.
    + destruct P as (-> & -> & E). destruct op0; try discriminate E; cbn; auto.
    + destruct P as (-> & ->). destruct st; cbn; auto.
  - destruct P as [-> ->]. cbn. auto.
  - destruct P as [-> ->]. cbn. auto.
  - destruct P as [-> ->]. cbn. destruct (started s); cbn; auto.
  - destruct P as [-> ->]. cbn. eauto.
  - destruct P as [-> ->]. cbn. rewrite Hp. cbn. auto.
  - destruct P as [-> ->]. cbn. rewrite Hp. cbn. auto.
  - destruct P as [-> ->]. cbn. auto.
  - destruct P as [-> ->]. destruct w; cbn; auto. exists n. auto.
  - destruct rest as [rest|]; cbn in *.
    + destruct P as (o & ids & before & -> & P1 & P2 & ->). exists o, ids, before. cbn. now rewrite <- app_assoc.
    + destruct P as (n & -> & ->). exists n. auto.
  - destruct rest as [rest|]; cbn in *.
    + destruct P as (o & ids & before & -> & P1 & P2 & ->). exists o, ids, before. cbn. now rewrite <- app_assoc.
    + destruct P as (n & -> & ->). exists n. auto.
  - destruct rest as [rest|]; cbn in *.
    + destruct P as (o & ids & before & -> & P1 & P2 & ->). exists o, ids, before. cbn. now rewrite <- app_assoc.
    + destruct P as (n & -> & ->). exists n. auto.
  - destruct rest as [rest|]; cbn in *.
    + destruct P as (o & ids & before & -> & P1 & P2 & ->). exists o, ids, before. cbn. now rewrite <- app_assoc.
    + destruct P as (n & -> & ->). cbn. auto.
  - destruct P as [-> ->]. cbn. destruct (m_stopped (meter_at s id)); cbn; auto.
  - destruct P as [-> ->]. cbn. auto.
  - destruct P as [-> ->]. cbn. auto.
  - destruct P as [-> ->]. cbn. auto.
  - destruct P as [-> ->]. cbn [mnext acts flat_map act_of app]. pose proof (visit_perm order (live s) ND) as V.
    destruct (visit order (live s)) as [|i r]; cbn [loop_pc prog].
    + exists order, (live s), []. cbn. auto.
    + exists order, (live s), []. cbn. auto.
  - destruct P as (o & ids & before & -> & P1 & P2 & ->). exists o, ids, before. cbn. rewrite app_nil_r. auto.
  - destruct P as (o & ids & before & -> & P1 & P2 & ->). rewrite (wstep_acts _ _ _ _ id w Hs Hq).
    pose proof (wnext_unlock q (ewma_get id w s) Hq) as U.
    pose proof (wnext_tick q (ewma_get id w s) Hq) as T. cbn [mnext].
    assert (K : match q with QStore _ _ _ | QIStore _ | QUnlock => True | _ => False end \/
                match q with QStore _ _ _ | QIStore _ | QUnlock => False | _ => True end) by (destruct q; auto).
    destruct K as [K|K].
    + clear U T. destruct q as [n|r| | | |h|h n|h n|h n b| | | | |n|n|]; try contradiction K; cbn [wnext].
      * destruct h; cbn [prog]; [exists o, ids, before; repeat split; auto; apps|].
        destruct w; cbn; exists o, ids, before; repeat split; auto; apps.
      * cbn [prog]. exists o, ids, before. repeat split; auto. apps.
      * destruct w; cbn; exists o, ids, before; repeat split; auto; apps.
    + assert (Un : wnext q (ewma_get id w s) <> QUnlock /\ wnext q (ewma_get id w s) <> QEnd WNone) by (destruct q; try contradiction K; exact U).
      destruct Un as [U1 U2]. destruct T as [T|T]; [|contradiction].
      assert (E : prog (PTick id w (wnext q (ewma_get id w s)) rest) (MTickAll o)
         (ARound ids :: flat_map tick_acts before ++ (ABegin id :: stored_before id w ++ []))).
      { exists o, ids, before. repeat split; auto. destruct (wnext q (ewma_get id w s)); try reflexivity. contradiction. }
      assert (EQ : (match q with QUnlock => [AStored id w] | _ => [] end) = []) by (destruct q; try reflexivity; contradiction K).
      assert (EQ2 : (match q with QStore _ _ _ | QIStore _ => [AStored id w] | _ => [] end) = []) by (destruct q; try reflexivity; contradiction K).
      rewrite EQ, EQ2. rewrite (app_nil_r (ARound ids :: _)). destruct (wnext q (ewma_get id w s)); try discriminate T; exact E.
  - destruct P as (o & ids & before & -> & P1 & P2 & ->). cbn [mnext].
    assert (E : flat_map tick_acts (before ++ [id]) = flat_map tick_acts before ++ tick_acts id) by (rewrite flat_map_app; cbn [flat_map]; now rewrite app_nil_r).
    destruct rest as [|i r]; cbn [loop_pc prog].
    + exists o, ids, (before ++ [id]). repeat split; auto. rewrite E. cbn. now rewrite <- app_assoc.
    + exists o, ids, (before ++ [id]). rewrite <- app_assoc. repeat split; auto. rewrite E. cbn. now rewrite app_nil_r, <- app_assoc.
  - destruct P as (o & ids & before & -> & P1 & P2 & ->). cbn. split; [reflexivity|]. exists ids, before. auto.
  - destruct P as [-> ->]. reflexivity.
Qed.

Record inv_log (pcs : nat -> option mpc) (tr : trace) : Prop := {
  lg_open : forall t, match pcs t, open_call t tr with
                      | None, None => True
                      | Some pc, Some (op, ls) => prog pc op (acts ls)
                      | _, _ => False end;
  lg_done : forall t c, In c (done_calls t tr) -> call_done (c_op c) (acts (c_labels c)) (c_ret c);
}.

(** ** Stop, and Marks that begin after it returned *)
Record inv_late (s : marb) (pcs : nat -> option mpc) (tr : trace) : Prop := {
  la_pc : forall t id ls, open_call t tr = Some (MStop id, ls) -> pcs t = Some (PStop id) \/ m_stopped (meter_at s id) = true;
  la_stop : forall id, returned (MStop id) tr -> m_stopped (meter_at s id) = true;
  la_mark : forall pre post t id n, tr = pre ++ post -> returned (MStop id) pre -> open_call t pre = None ->
    (forall c, In c (done_calls t post) -> c_op c = MMark id n -> c_labels c = [LSkipped id n]) /\
    (forall ls, open_call t post = Some (MMark id n, ls) ->
       (pcs t = Some (PMark id n) /\ ls = []) \/ (pcs t = Some (PEnd MUnit) /\ ls = [LSkipped id n]));
}.

Record inv_all (s : marb) (pcs : nat -> option mpc) (tr : trace) : Prop := {
  ia_st : inv_st s pcs (labels tr);
  ia_lock : inv_lock s pcs (labels tr);
  ia_del : inv_del s pcs (labels tr);
  ia_log : inv_log pcs tr;
  ia_late : inv_late s pcs tr;
}.

Lemma entry_neutral op : newing (Some (mentry op)) = None /\ deleting (Some (mentry op)) = None /\ used (Some (mentry op)) = [] /\
  writing (Some (mentry op)) = false /\ reading (Some (mentry op)) = false.
Proof. now destruct op. Qed.

Lemma init_all : inv_all arb_init (fun _ => None) [].
Proof.
  assert (M : forall j, meter_at arb_init j = meter_nil) by (intro j; apply meter_at_out; cbn; lia).
  split.
  - split; try (cbn; intros; first [contradiction|discriminate|reflexivity]); try (apply NoDup_nil); try (intro j; rewrite M; reflexivity).
    + intro j. rewrite M. cbn. split; [discriminate|contradiction].
    + cbn. split; [discriminate|congruence].
    + intros j H. rewrite M in H. discriminate H.
  - split; cbn; intros; try discriminate; try reflexivity; try (split; [discriminate|intros [t Ht]; discriminate]).
    exists []. repeat split; [constructor|contradiction|discriminate].
  - split; cbn; intros; try contradiction; apply along_nil.
  - split; cbn; intros; try contradiction. exact Logic.I.
  - split; cbn; intros; try discriminate.
    + now apply returned_nil in H.
    + symmetry in H. apply app_eq_nil in H. destruct H as [-> ->]. now apply returned_nil in H0.
Qed.

Lemma call_all s pcs tr t op : inv_all s pcs tr -> pcs t = None -> inv_all s (pupd pcs t (Some (mentry op))) (tr ++ [EInv t op]).
Proof.
  intros [A B C D E] Ht. destruct (entry_neutral op) as (N1 & N2 & N3 & N4 & N5).
  assert (Lb : labels (tr ++ [EInv t op]) = labels tr) by (rewrite labels_app; apply app_nil_r).
  split; rewrite ?Lb.
  - apply neutral_st; auto. now rewrite Ht.
  - apply neutral_lock; auto; now rewrite Ht.
  - now apply neutral_del.
  - destruct D. split.
    + intro u. rewrite open_inv. specialize (lg_open0 u). pcase u t.
      * rewrite Nat.eqb_refl. destruct op; cbn; auto.
      * destruct (Nat.eqb_spec t u); [congruence|]. exact lg_open0.
    + intros u c. rewrite done_inv. apply lg_done0.
  - destruct E, D. split.
    + intros u id ls. rewrite open_inv. pcase u t.
      * rewrite Nat.eqb_refl. intros [= -> <-]. now left.
      * destruct (Nat.eqb_spec t u); [congruence|]. apply la_pc0.
    + intros id (u & c & Hc & Eo). rewrite done_inv in Hc. apply la_stop0. now exists u, c.
    + intros pre post u id n Ep Hr Ho. apply split_snoc in Ep. destruct Ep as [[-> ->]|(p & -> & ->)].
      * split; [intros c []|intros ls H; discriminate H].
      * destruct (la_mark0 pre p u id n eq_refl Hr Ho) as [M1 M2].
        split; [intros c; rewrite done_inv; apply M1|]. intros ls. rewrite open_inv. pcase u t.
        -- rewrite Nat.eqb_refl. intros [= -> <-]. now left.
        -- destruct (Nat.eqb_spec t u); [congruence|]. apply M2.
Qed.

Lemma ret_all s pcs tr t r : inv_all s pcs tr -> pcs t = Some (PEnd r) -> inv_all s (pupd pcs t None) (tr ++ [ERes t r]).
Proof.
  intros [A B C D E] Ht.
  assert (Lb : labels (tr ++ [ERes t r]) = labels tr) by (rewrite labels_app; apply app_nil_r).
  split; rewrite ?Lb.
  - apply neutral_st; auto. now rewrite Ht.
  - apply neutral_lock; auto; now rewrite Ht.
  - now apply neutral_del.
  - destruct D. split.
    + intro u. rewrite open_res. specialize (lg_open0 u). pcase u t.
      * now rewrite Nat.eqb_refl.
      * destruct (Nat.eqb_spec t u); [congruence|]. exact lg_open0.
    + intros u c. rewrite done_res. destruct (Nat.eqb_spec t u) as [<-|]; [|apply lg_done0]. specialize (lg_open0 t). rewrite Ht in lg_open0.
      destruct (open_call t tr) as [[op ls]|]; [|contradiction]. rewrite in_app_iff. intros [H|[<-|[]]]; [now apply (lg_done0 t)|]. exact lg_open0.
  - destruct E, D. split.
    + intros u id ls. rewrite open_res. pcase u t; [now rewrite Nat.eqb_refl|]. destruct (Nat.eqb_spec t u); [congruence|]. apply la_pc0.
    + intros id (u & c & Hc & Eo). rewrite done_res in Hc. destruct (Nat.eqb_spec t u) as [<-|]; [|apply la_stop0; now exists u, c].
      specialize (la_pc0 t id). destruct (open_call t tr) as [[op ls]|]; [|apply la_stop0; now exists t, c].
      apply in_app_or in Hc. destruct Hc as [Hc|[<-|[]]]; [apply la_stop0; now exists t, c|]. cbn in Eo. subst op.
      destruct (la_pc0 ls eq_refl) as [X|X]; [|exact X]. congruence.
    + intros pre post u id n Ep Hr Ho. apply split_snoc in Ep. destruct Ep as [[-> ->]|(p & -> & ->)].
      * split; [intros c []|intros ls H; discriminate H].
      * destruct (la_mark0 pre p u id n eq_refl Hr Ho) as [M1 M2]. split.
        -- intros c. rewrite done_res. destruct (Nat.eqb_spec t u) as [<-|]; [|apply M1]. destruct (open_call t p) as [[op ls]|]; [|apply M1].
           rewrite in_app_iff. intros [H|[<-|[]]]; [now apply M1|]. cbn. intros ->. destruct (M2 ls eq_refl) as [[X _]|[_ X]]; [congruence|exact X].
        -- intros ls. rewrite open_res. pcase u t; [rewrite Nat.eqb_refl; discriminate|]. destruct (Nat.eqb_spec t u); [congruence|]. apply M2.
Qed.

Lemma step_all s pcs tr t pc s' l : inv_all s pcs tr -> pcs t = Some pc -> mstep pc s s' l ->
  (forall id, needs pc = Some id -> m_ready (meter_at s id) = true) ->
  inv_all s' (pupd pcs t (Some (mnext pc s))) (tr ++ map (EStep t) l).
Proof.
  intros [A B C D E] Ht St Hn.
  assert (Lb : labels (tr ++ map (EStep t) l) = labels tr ++ l) by (now rewrite labels_app, labels_steps).
  assert (Mono : forall id, m_stopped (meter_at s id) = true -> m_stopped (meter_at s' id) = true).
  { intros id H. rewrite (step_stopped _ _ _ _ _ _ St Hn). destruct pc; trivial. rewrite H. apply Bool.orb_true_r. }
  split; rewrite ?Lb.
  - eapply step_st; eassumption.
  - eapply step_lock; eassumption.
  - eapply step_del; eassumption.
  - destruct D. split.
    + intro u. rewrite open_steps. specialize (lg_open0 u). pcase u t.
      * rewrite Nat.eqb_refl. rewrite Ht in lg_open0. destruct (open_call t tr) as [[op ls]|]; [|contradiction]. rewrite acts_app.
        eapply prog_step; try eassumption. rewrite (st_live _ _ _ A). unfold members. apply NoDup_filter. apply (st_nodup _ _ _ A).
      * destruct (Nat.eqb_spec t u); [congruence|]. exact lg_open0.
    + intros u c. rewrite done_steps. apply lg_done0.
  - destruct E, D. split.
    + intros u id ls. rewrite open_steps. pcase u t.
      * rewrite Nat.eqb_refl. specialize (lg_open0 t). rewrite Ht in lg_open0. destruct (open_call t tr) as [[op l0]|] eqn:Eo; [|discriminate].
        intros [= -> <-]. right. destruct (la_pc0 t id l0 Eo) as [X|X]; [|now apply Mono].
        rewrite Ht in X. injection X as ->. rewrite (step_stopped _ _ _ _ _ _ St Hn), Nat.eqb_refl. reflexivity.
      * destruct (Nat.eqb_spec t u); [congruence|]. intro H. destruct (la_pc0 u id ls H) as [X|X]; [now left|right; now apply Mono].
    + intros id (u & c & Hc & Eo). rewrite done_steps in Hc. apply Mono, la_stop0. now exists u, c.
    + intros pre post u id n Ep Hr Ho. apply split_app in Ep. destruct Ep as [(e1 & e2 & Es & -> & ->)|(p & -> & ->)].
      * apply map_split in Es. destruct Es as (l1 & l2 & -> & -> & ->). rewrite done_steps_nil, open_steps_nil. split; [intros c []|discriminate].
      * destruct (la_mark0 pre p u id n eq_refl Hr Ho) as [M1 M2]. rewrite done_steps. split; [exact M1|].
        intros ls. rewrite open_steps. pcase u t.
        -- rewrite Nat.eqb_refl. destruct (open_call t p) as [[op l0]|] eqn:Eo; [|discriminate]. intros [= -> <-].
           destruct (M2 l0 eq_refl) as [[X ->]|[X ->]]; rewrite Ht in X; injection X as ->.
           ++ assert (Sp : m_stopped (meter_at s id) = true) by (apply la_stop0; now apply returned_mono).
              right. cbn [mnext]. rewrite Sp. split; [reflexivity|]. cbn. inversion St; subst; try reflexivity; try congruence. discriminate.
           ++ inversion St; subst. discriminate.
        -- destruct (Nat.eqb_spec t u); [congruence|]. apply M2.
Qed.

(** executions, with room for one more invariant *)
Section Ind.
Variable more : marb -> (nat -> option mpc) -> trace -> Prop.
Definition inv_more s pcs tr := inv_all s pcs tr /\ more s pcs tr.
Lemma meter_ind_more : more arb_init (fun _ => None) [] ->
  (forall s pcs tr t op, inv_all s pcs tr -> more s pcs tr -> pcs t = None -> more s (pupd pcs t (Some (mentry op))) (tr ++ [EInv t op])) ->
  (forall s pcs tr t r, inv_all s pcs tr -> more s pcs tr -> pcs t = Some (PEnd r) -> more s (pupd pcs t None) (tr ++ [ERes t r])) ->
  (forall s pcs tr t pc s' l, inv_all s pcs tr -> more s pcs tr -> pcs t = Some pc -> mstep pc s s' l ->
     (forall id, needs pc = Some id -> m_ready (meter_at s id) = true) ->
     inv_all s' (pupd pcs t (Some (mnext pc s))) (tr ++ map (EStep t) l) ->
     more s' (pupd pcs t (Some (mnext pc s))) (tr ++ map (EStep t) l)) ->
  forall sched, pc_inv (mcode mexp) inv_more (fst (cexec (meter_body mexp) arb_init sched)) (snd (cexec (meter_body mexp) arb_init sched)).
Proof.
  intros H0 Hc Hr Hs. apply meter_ind; unfold inv_more.
  - split; [apply init_all|exact H0].
  - intros s pcs tr t op [A M] Ht. split; [now apply call_all|now apply Hc].
  - intros s pcs tr t r [A M] Ht. split; [now apply ret_all|now apply Hr].
  - intros s pcs tr t pc s' l [A M] Ht St Hn. assert (A' := step_all _ _ _ _ _ _ _ A Ht St Hn). split; [exact A'|now apply (Hs s pcs tr t pc)].
Qed.
End Ind.
Lemma meter_all sched : pc_inv (mcode mexp) inv_all (fst (cexec (meter_body mexp) arb_init sched)) (snd (cexec (meter_body mexp) arb_init sched)).
Proof.
  destruct (meter_ind_more (fun _ _ _ => True)) with sched as (pcs & H1 & H2 & _); auto. now exists pcs.
Qed.
End M.
