(** The rates a meter publishes. *)
From Coq Require Import ZArith List Lia Arith Permutation.
From Verif.Model Require Import GoInt GoFloat Conc Ewma Meter.
From Verif.Spec Require Import Traces EwmaSpec MeterSpec.
From Verif.Proofs Require Import IntFacts LinProofs PcProofs EwmaConc LogFacts MeterPc MeterInv MeterRun.
Import ListNotations.
Open Scope Z_scope.

Lemma last_app {A} (a b : list A) d : last (a ++ b) d = last b (last a d).
Proof.
  revert a. induction b as [|x b IH] using rev_ind; intro a; [now rewrite app_nil_r|]. now rewrite app_assoc, !last_last.
Qed.
Lemma which_eqb_refl w : which_eqb w w = true. Proof. now destruct w. Qed.
Lemma which_eqb_eq v w : which_eqb v w = true -> v = w. Proof. now destruct v, w. Qed.
Lemma which_eqb_neq v w : which_eqb v w = false -> v <> w. Proof. now destruct v, w. Qed.

Lemma ewma_labels_app id w a b : ewma_labels id w (a ++ b) = ewma_labels id w a ++ ewma_labels id w b. Proof. apply flat_map_app. Qed.
Lemma pubs_app id w a b : pubs id w (a ++ b) = pubs id w a ++ pubs id w b. Proof. apply flat_map_app. Qed.
Lemma means_app id a b : means id (a ++ b) = means id a ++ means id b. Proof. apply flat_map_app. Qed.
Lemma rate_stores_app a b : rate_stores (a ++ b) = rate_stores a ++ rate_stores b. Proof. apply flat_map_app. Qed.
Lemma begun1_app id a b : ticks_begun id (a ++ b) = (ticks_begun id a + ticks_begun id b)%nat. Proof. unfold ticks_begun. now rewrite filter_app, app_length. Qed.
Lemma ended1_app id a b : ticks_ended id (a ++ b) = (ticks_ended id a + ticks_ended id b)%nat. Proof. unfold ticks_ended. now rewrite filter_app, app_length. Qed.

Lemma get_set_a v w e m : get_a v (set_a w e m) = if which_eqb v w then e else get_a v m. Proof. now destruct v, w. Qed.
Lemma get_set_pub v w b m : get_pub v (set_pub w b m) = if which_eqb v w then b else get_pub v m. Proof. now destruct v, w. Qed.
Lemma ewma_labels_map id w j v ls : ewma_labels j v (map (LEwma id w) ls) = if (Nat.eqb id j && which_eqb w v)%bool then ls else [].
Proof.
  unfold ewma_labels. induction ls as [|x ls IH]; cbn; [now destruct (_ && _)%bool|]. rewrite IH. now destruct (_ && _)%bool.
Qed.

Lemma wstep_rate q e e' ls : wstep q e e' ls -> w_rate e' = last (rate_stores ls) (w_rate e).
Proof. now intros []. Qed.

Section M.
Variable mexp : f64 -> f64.
Notation mstep := (mstep mexp).
Notation trace := (list (event mlabel meter_op meter_ret)).

Definition okids (pc : mpc) (s : marb) := forall i, In i (used (Some pc)) -> (i < length (ms s))%nat.

Ltac keeps := intros []; try reflexivity; match goal with w : which, v : which |- _ => destruct w, v; reflexivity | w : which |- _ => destruct w; reflexivity end.

Lemma step_rate pc s s' l j v : mstep pc s s' l -> okids pc s ->
  w_rate (get_a v (meter_at s' j)) = last (rate_stores (ewma_labels j v l)) (w_rate (get_a v (meter_at s j))).
Proof.
  intros St Hu. stepcase St; try (rewrite (keep_upd (fun m => w_rate (get_a v m))) by keeps; reflexivity); try reflexivity.
  - rewrite meter_at_new. destruct (Nat.eqb_spec j (length (ms s))) as [->|]; [|reflexivity]. rewrite meter_at_out by lia. now destruct v.
  - change (meter_at (insert_live id s) j) with (meter_at (upd_meter id set_ready s) j).
    rewrite (keep_upd (fun m => w_rate (get_a v m))) by keeps. destruct (started s); reflexivity.
  - unfold ewma_set. rewrite meter_at_upd. cbn [ewma_labels flat_map].
    destruct (Nat.eqb_spec j id) as [->|N]; cbn [andb].
    + assert (Hid : (id < length (ms s))%nat) by (apply Hu; now left). apply Nat.ltb_lt in Hid as ->. rewrite get_set_a, Nat.eqb_refl. cbn [andb].
      destruct (which_eqb v w) eqn:E.
      * apply which_eqb_eq in E. subst. now rewrite which_eqb_refl.
      * destruct (which_eqb w v); reflexivity.
    + destruct (Nat.eqb_spec id j); [congruence|]. reflexivity.
  - unfold ewma_set. rewrite meter_at_upd, ewma_labels_map.
    destruct (Nat.eqb_spec j id) as [->|N]; cbn [andb].
    + assert (Hid : (id < length (ms s))%nat) by (apply Hu; now left). apply Nat.ltb_lt in Hid as ->. rewrite get_set_a, Nat.eqb_refl. cbn [andb].
      destruct (which_eqb v w) eqn:E.
      * apply which_eqb_eq in E. subst. rewrite which_eqb_refl. now apply (wstep_rate q).
      * destruct (which_eqb w v) eqn:E2; [|reflexivity]. apply which_eqb_eq in E2. subst. now rewrite which_eqb_refl in E.
    + destruct (Nat.eqb_spec id j); [congruence|]. reflexivity.
Qed.

Lemma pubs_ew j v id w ls : pubs j v (map (LEwma id w) ls) = [].
Proof. now apply noew. Qed.

Ltac pubcase id j v w Hu :=
  rewrite meter_at_upd; cbn [pubs flat_map app]; destruct (Nat.eqb_spec j id) as [->|N]; cbn [andb];
  [ let Hid := fresh in assert (Hid : (id < _)%nat) by (apply Hu; now left); apply Nat.ltb_lt in Hid as ->; rewrite get_set_pub, Nat.eqb_refl; cbn [andb];
    destruct v; reflexivity
  | destruct (Nat.eqb_spec id j); [congruence|]; reflexivity].

Lemma step_pub pc s s' l j v : mstep pc s s' l -> okids pc s ->
  get_pub v (meter_at s' j) = last (pubs j v l) (get_pub v (meter_at s j)).
Proof.
  intros St Hu. stepcase St; unfold ewma_set; try (rewrite (keep_upd (get_pub v)) by keeps; reflexivity); try reflexivity.
  - rewrite meter_at_new. destruct (Nat.eqb_spec j (length (ms s))) as [->|]; [|reflexivity]. rewrite meter_at_out by lia. now destruct v.
  - change (meter_at (insert_live id s) j) with (meter_at (upd_meter id set_ready s) j).
    rewrite (keep_upd (get_pub v)) by keeps. destruct (started s); reflexivity.
  - pubcase id j v A1 Hu.
  - pubcase id j v A5 Hu.
  - pubcase id j v A15 Hu.
  - rewrite (keep_upd (get_pub v)) by keeps. now rewrite pubs_ew.
Qed.

Lemma step_mean pc s s' l j : mstep pc s s' l -> okids pc s -> m_mean (meter_at s' j) = last (means j l) (m_mean (meter_at s j)).
Proof.
  intros St Hu. stepcase St; unfold ewma_set; try (rewrite (keep_upd m_mean) by keeps; reflexivity); try reflexivity.
  - rewrite meter_at_new. destruct (Nat.eqb_spec j (length (ms s))) as [->|]; [|reflexivity]. now rewrite meter_at_out by lia.
  - change (meter_at (insert_live id s) j) with (meter_at (upd_meter id set_ready s) j).
    rewrite (keep_upd m_mean) by keeps. destruct (started s); reflexivity.
  - rewrite meter_at_upd. cbn [means flat_map app]. destruct (Nat.eqb_spec j id) as [->|N]; cbn [andb].
    + assert (Hid : (id < length (ms s))%nat) by (apply Hu; now left). apply Nat.ltb_lt in Hid as ->. now rewrite Nat.eqb_refl.
    + destruct (Nat.eqb_spec id j); [congruence|]. reflexivity.
  - rewrite (keep_upd m_mean) by keeps. unfold means. now rewrite noew.
Qed.

Lemma step_start pc s s' l j : mstep pc s s' l -> (m_start (meter_at s' j) = m_start (meter_at s j) \/ m_start (meter_at s' j) = now s') /\ now s <= now s'.
Proof.
  intro St. stepcase St; unfold ewma_set; try (split; [left; now rewrite (keep_upd m_start) by keeps|cbn; lia]); try (split; [now left|cbn; lia]).
  - split; [|cbn; lia]. rewrite meter_at_new. destruct (Nat.eqb_spec j (length (ms s))) as [->|]; [now right|now left].
  - split; [|cbn; lia]. left. apply (keep_upd m_start id set_ready). keeps.
Qed.

(** ** published values *)
Definition pub_ok (pre : list mlabel) (l : mlabel) : Prop :=
  match l with
  | LPub id w b => exists v, was_rate id w pre v /\ b = float64bits v
  | LMean id b => exists p1 p2 d, pre = p1 ++ p2 /\ 0 <= d <= max_int64 /\
      b = float64bits (fdiv (f_of_int (count_at id p1)) (seconds d))
  | _ => True
  end.
Definition mean_ok (id : nat) (ls : list mlabel) (b : Z) : Prop :=
  exists p1 p2 d, ls = p1 ++ p2 /\ 0 <= d <= max_int64 /\ b = float64bits (fdiv (f_of_int (count_at id p1)) (seconds d)).
Definition cnt_ok (id : nat) (ls : list mlabel) (c : Z) : Prop := exists p1 p2, ls = p1 ++ p2 /\ c = count_at id p1.
Definition stage_ok (id : nat) (st : pub_stage) (ls : list mlabel) : Prop :=
  match st with
  | U1 => True
  | U5 r1 => was_rate id A1 ls r1
  | U15 r1 r5 => was_rate id A1 ls r1 /\ was_rate id A5 ls r5
  | UC r1 r5 r15 => was_rate id A1 ls r1 /\ was_rate id A5 ls r5 /\ was_rate id A15 ls r15
  | UT r1 r5 r15 c => was_rate id A1 ls r1 /\ was_rate id A5 ls r5 /\ was_rate id A15 ls r15 /\ cnt_ok id ls c
  | S1 r1 r5 r15 m => was_rate id A1 ls r1 /\ was_rate id A5 ls r5 /\ was_rate id A15 ls r15 /\ mean_ok id ls m
  | S5 r5 r15 m => was_rate id A5 ls r5 /\ was_rate id A15 ls r15 /\ mean_ok id ls m
  | S15 r15 m => was_rate id A15 ls r15 /\ mean_ok id ls m
  | SM m => mean_ok id ls m
  end.

Record inv_pub (s : marb) (pcs : nat -> option mpc) (ls : list mlabel) : Prop := {
  pu_cur : forall j v, w_rate (get_a v (meter_at s j)) = last (rate_stores (ewma_labels j v ls)) 0;
  pu_pub : forall j v, get_pub v (meter_at s j) = pub_at j v ls;
  pu_mean : forall j, m_mean (meter_at s j) = mean_at j ls;
  pu_start : forall j, m_start (meter_at s j) <= now s;
  pu_now : 0 <= now s;
  pu_stage : forall t id rest st, pcs t = Some (PPub id rest st) -> stage_ok id st ls;
  pu_lab : along pub_ok ls;
}.

Lemma was_rate_mono id w a b v : was_rate id w a v -> was_rate id w (a ++ b) v.
Proof.
  intros (x & H & E). exists x. split; [|exact E]. destruct H as [H|H]; [now left|right]. rewrite ewma_labels_app, rate_stores_app. apply in_or_app. now left.
Qed.
Lemma mean_ok_mono id a b m : mean_ok id a m -> mean_ok id (a ++ b) m.
Proof. intros (p1 & p2 & d & -> & H1 & H2). exists p1, (p2 ++ b), d. now rewrite app_assoc. Qed.
Lemma cnt_ok_mono id a b m : cnt_ok id a m -> cnt_ok id (a ++ b) m.
Proof. intros (p1 & p2 & -> & H). exists p1, (p2 ++ b). now rewrite app_assoc. Qed.
Lemma stage_mono id st a b : stage_ok id st a -> stage_ok id st (a ++ b).
Proof. destruct st; cbn; intuition auto using was_rate_mono, mean_ok_mono, cnt_ok_mono. Qed.

Lemma last_in {A} (l : list A) d : last l d = d \/ In (last l d) l.
Proof. induction l as [|x l IH] using rev_ind; [now left|]. rewrite last_last. right. apply in_or_app. right. now left. Qed.
Lemma cur_was s pcs ls j v : inv_pub s pcs ls -> was_rate j v ls (rate_of (w_rate (get_a v (meter_at s j)))).
Proof.
  intros []. exists (w_rate (get_a v (meter_at s j))). split; [|reflexivity]. rewrite pu_cur0. destruct (last_in (rate_stores (ewma_labels j v ls)) 0); auto.
Qed.

Lemma stage_next pc0 s0 s' l jd jrest jst : mstep pc0 s0 s' l -> mnext pc0 s0 = PPub jd jrest jst ->
  (jst = U1) \/ exists st0, pc0 = PPub jd jrest st0.
Proof.
  intros St E. stepcase St; cbn in E; try discriminate E.
  - destruct pc; try discriminate Hl; cbn in E.
    + destruct st; try discriminate Hl; injection E as <- <- <-; right; eauto.
    + destruct op; discriminate E.
    + destruct st; discriminate E.
  - now rewrite Hp in E.
  - now rewrite Hp in E.
  - destruct (next_w w); [discriminate|]. injection E as <- <- <-. now left.
  - injection E as <- <- <-. right. eauto.
  - injection E as <- <- <-. right. eauto.
  - injection E as <- <- <-. right. eauto.
  - destruct rest; discriminate E.
  - destruct (m_stopped (meter_at s id)); discriminate E.
  - destruct (visit order (live s)); discriminate E.
  - destruct (wnext q (ewma_get id w s)); try discriminate E. destruct (next_w w); [discriminate|]. injection E as <- <- <-. now left.
  - destruct rest; discriminate E.
Qed.

Lemma since_range s pcs ls j : inv_pub s pcs ls -> 0 <= since (m_start (meter_at s j)) (now s) <= max_int64.
Proof. intros []. unfold since. specialize (pu_start0 j). assert (0 <= max_int64) by (vm_compute; discriminate). lia. Qed.

Lemma step_pubinv s pcs ls t pc s' l : inv_st s pcs ls -> inv_pub s pcs ls -> pcs t = Some pc -> mstep pc s s' l ->
  inv_pub s' (pupd pcs t (Some (mnext pc s))) (ls ++ l).
Proof.
  intros A P Ht St. pose proof P as [].
  assert (Hu : okids pc s) by (intros i Hi; apply (st_len _ _ _ A t); now rewrite Ht).
  assert (Stg : forall id rest st, pc = PPub id rest st -> stage_ok id st ls) by (intros id rest st ->; eauto).
  split.
  - intros j v. rewrite (step_rate _ _ _ _ _ _ St Hu), pu_cur0, ewma_labels_app, rate_stores_app, last_app. reflexivity.
  - intros j v. unfold pub_at. rewrite (step_pub _ _ _ _ _ _ St Hu), pu_pub0, pubs_app, last_app. reflexivity.
  - intros j. unfold mean_at. rewrite (step_mean _ _ _ _ _ St Hu), pu_mean0, means_app, last_app. reflexivity.
  - intro j. destruct (step_start _ _ _ _ j St) as [[->| ->] H]; specialize (pu_start0 j); lia.
  - destruct (step_start _ _ _ _ 0%nat St) as [_ H]. lia.
  - intros u id rest st. pcase u t; [|intro H; apply stage_mono; eauto].
    intro E. injection E as E. destruct (stage_next _ _ _ _ _ _ _ St E) as [->|[st0 ->]]; [exact Logic.I|].
    specialize (Stg id rest st0 eq_refl). apply stage_mono. cbn [mnext] in E.
    destruct st0; try (injection E as <-; cbn in *); try exact (cur_was _ _ _ _ A1 P); try tauto.
    + split; [exact Stg|]. exact (cur_was _ _ _ id A5 P).
    + split; [tauto|]. split; [tauto|]. exact (cur_was _ _ _ id A15 P).
    + repeat split; try tauto. exists ls, []. split; [now rewrite app_nil_r|]. apply (st_count _ _ _ A).
    + repeat split; try tauto. destruct Stg as (_ & _ & _ & p1 & p2 & -> & ->).
      exists p1, p2, (since (m_start (meter_at s id)) (now s)). split; [reflexivity|]. split; [exact (since_range _ _ _ id P)|reflexivity].
    + destruct rest; discriminate E.
  - apply along_app; [exact pu_lab0|]. intros pre x post E.
    assert (One : forall y, l = [y] -> pre = [] /\ x = y).
    { intros y E1. rewrite E in E1. destruct pre as [|p pre]; [injection E1; auto|]. injection E1 as <- E1. destruct pre; discriminate E1. }
    destruct x as [| | | | | | | | | | |xi xw xb|xi xb]; try exact Logic.I.
    + assert (Hx : In (LPub xi xw xb) l) by (rewrite E; apply in_or_app; right; now left).
      stepcase St; cbn in Hx; try contradiction; try (destruct Hx as [Hx|[]]; try discriminate Hx); try (destruct (One _ eq_refl) as [-> E1]; injection E1 as -> -> ->; cbn; rewrite app_nil_r; specialize (Stg _ _ _ eq_refl); cbn in Stg; eexists; split; [|reflexivity]; tauto).
      * destruct Hx as [Hx|Hx]; [discriminate|]. destruct (started s); [contradiction|]. destruct Hx as [Hx|[]]; discriminate.
      * apply in_map_iff in Hx. destruct Hx as (? & ? & _); discriminate.
    + assert (Hx : In (LMean xi xb) l) by (rewrite E; apply in_or_app; right; now left).
      stepcase St; cbn in Hx; try contradiction; try (destruct Hx as [Hx|[]]; try discriminate Hx).
      * destruct Hx as [Hx|Hx]; [discriminate|]. destruct (started s); [contradiction|]. destruct Hx as [Hx|[]]; discriminate.
      * destruct (One _ eq_refl) as [-> E1]; injection E1 as -> ->; cbn; rewrite app_nil_r. exact (Stg _ _ _ eq_refl).
      * apply in_map_iff in Hx. destruct Hx as (? & ? & _); discriminate.
Qed.

(** ** what the reading methods return *)
Definition pc_read (t : nat) (op : meter_op) (tr : trace) (pc : mpc) : Prop :=
  match pc with
  | PEnd r => read_ok t op tr r
  | PSnap id st => op = MSnapshot id /\ match st with
    | N1 c => seen t op tr (count_at id) c
    | N5 c r1 => seen t op tr (count_at id) c /\ seen t op tr (pub_at id A1) r1
    | N15 c r1 r5 => seen t op tr (count_at id) c /\ seen t op tr (pub_at id A1) r1 /\ seen t op tr (pub_at id A5) r5
    | NM c r1 r5 r15 => seen t op tr (count_at id) c /\ seen t op tr (pub_at id A1) r1 /\ seen t op tr (pub_at id A5) r5 /\ seen t op tr (pub_at id A15) r15
    end
  | _ => True
  end.
Definition inv_read (pcs : nat -> option mpc) (tr : trace) : Prop :=
  (forall t pc op ls, pcs t = Some pc -> open_call t tr = Some (op, ls) -> pc_read t op tr pc) /\
  (forall pre post t r op ls, tr = pre ++ ERes t r :: post -> open_call t pre = Some (op, ls) -> read_ok t op pre r).

Lemma seen_mono t op (tr es : trace) f v : (forall e, In e es -> who e <> t) -> seen t op tr f v -> seen t op (tr ++ es) f v.
Proof.
  intros H (b & a & -> & Ho & Hw & E). exists b, (a ++ es). split; [now rewrite app_assoc|]. split; [exact Ho|]. split; [|exact E].
  intros e He. apply in_app_or in He. destruct He; auto.
Qed.
Lemma seen_now t op (tr : trace) f v : open_call t tr = Some (op, []) -> v = f (labels tr) -> seen t op tr f v.
Proof. intros Ho E. exists tr, []. rewrite app_nil_r. repeat split; auto. Qed.

Lemma read_mono t op (tr es : trace) pc : (forall e, In e es -> who e <> t) -> pc_read t op tr pc -> pc_read t op (tr ++ es) pc.
Proof.
  intros H. assert (M : forall f v, seen t op tr f v -> seen t op (tr ++ es) f v) by (intros; now apply seen_mono).
  destruct pc; cbn; auto.
  - destruct op; cbn; auto; try (intros (n & -> & Hs); exists n; split; [reflexivity|now apply M]).
    intros (c & r1 & r5 & r15 & m & -> & H1 & H2 & H3 & H4 & H5). exists c, r1, r5, r15, m. repeat split; auto.
  - intros [-> Hs]. split; [reflexivity|]. destruct st; intuition.
Qed.

Lemma acts_nil_read op ls r : call_done op (acts ls) r -> is_read op = true -> acts ls = [].
Proof. destruct op; cbn; intros H E; try discriminate; exact H. Qed.

Record inv_vals (s : marb) (pcs : nat -> option mpc) (tr : trace) : Prop := {
  iv_pub : inv_pub s pcs (labels tr);
  iv_read : inv_read pcs tr;
  iv_nil : forall t pc op ls, pcs t = Some pc -> open_call t tr = Some (op, ls) -> is_read op = true -> ls = [];
}.

Lemma step_read_label pc s s' l op a : mstep pc s s' l -> prog pc op a -> is_read op = true -> l = [] /\ s' = s /\ loads pc = true.
Proof.
  intros St P R. stepcase St; cbn in P.
  - auto.
  - destruct P as [-> _]; discriminate.
  - destruct P as [-> _]; discriminate.
  - destruct P as [-> _]; discriminate.
  - destruct P as [-> _]; discriminate.
  - destruct P as [-> _]; discriminate.
  - destruct P as [-> _]; discriminate.
  - destruct P as [-> _]; discriminate.
  - destruct P as [-> _]; discriminate.
  - destruct rest; [destruct P as (? & ? & ? & -> & _)|destruct P as (? & -> & _)]; discriminate.
  - destruct rest; [destruct P as (? & ? & ? & -> & _)|destruct P as (? & -> & _)]; discriminate.
  - destruct rest; [destruct P as (? & ? & ? & -> & _)|destruct P as (? & -> & _)]; discriminate.
  - destruct rest; [destruct P as (? & ? & ? & -> & _)|destruct P as (? & -> & _)]; discriminate.
  - destruct P as [-> _]; discriminate.
  - destruct P as [-> _]; discriminate.
  - destruct P as [-> _]; discriminate.
  - destruct P as [-> _]; discriminate.
  - destruct P as [-> _]; discriminate.
  - destruct P as (? & ? & ? & -> & _); discriminate.
  - destruct P as (? & ? & ? & -> & _); discriminate.
  - destruct P as (? & ? & ? & -> & _); discriminate.
  - destruct P as (? & ? & ? & -> & _); discriminate.
  - destruct P as [-> _]; discriminate.
Qed.

Lemma vals_exec sched : pc_inv (mcode mexp) (inv_more inv_vals) (fst (cexec (meter_body mexp) arb_init sched)) (snd (cexec (meter_body mexp) arb_init sched)).
Proof.
  apply meter_ind_more.
  - assert (M : forall j, meter_at arb_init j = meter_nil) by (intro j; apply meter_at_out; cbn; lia).
    split.
    + split; try (intros; rewrite M; reflexivity); try (intros; rewrite M; destruct v; reflexivity); try discriminate; try apply along_nil.
    + split; [discriminate|]. intros [|] ? ? ? ? ? H; discriminate H.
    + discriminate.
  - intros s pcs tr t op A [P [R1 R2] Z] Ht.
    assert (Lb : labels (tr ++ [EInv t op]) = labels tr) by (rewrite labels_app; apply app_nil_r).
    split.
    + rewrite Lb. destruct P. split; auto. intros u id rest st. pcase u t; [destruct op; discriminate|eauto].
    + split.
      * intros u pc op' ls. rewrite open_inv. pcase u t.
        -- intros [= <-] _. destruct op; exact Logic.I.
        -- destruct (Nat.eqb_spec t u); [congruence|]. intros H1 H2. apply read_mono; [|eauto]. intros e [<-|[]]. cbn. congruence.
      * intros pre post u r op' ls Ep Ho. change (ERes u r :: post) with ([ERes u r] ++ post) in Ep. rewrite app_assoc in Ep. apply split_snoc in Ep.
        destruct Ep as [[-> Ep]|(p & -> & ->)]; [apply app_inj_tail in Ep; destruct Ep; discriminate|].
        apply (R2 pre p u r op' ls); [now rewrite <- app_assoc|exact Ho].
    + intros u pc op' ls. rewrite open_inv. pcase u t; [rewrite Nat.eqb_refl; now intros _ [= <- <-]|]. destruct (Nat.eqb_spec t u); [congruence|]. apply Z.
  - intros s pcs tr t r A [P [R1 R2] Z] Ht.
    assert (Lb : labels (tr ++ [ERes t r]) = labels tr) by (rewrite labels_app; apply app_nil_r).
    split.
    + rewrite Lb. destruct P. split; auto. intros u id rest st. pcase u t; [discriminate|eauto].
    + split.
      * intros u pc op' ls. rewrite open_res. pcase u t; [discriminate|].
        destruct (Nat.eqb_spec t u); [congruence|]. intros H1 H2. apply read_mono; [|eauto]. intros e [<-|[]]. cbn. congruence.
      * intros pre post u r' op' ls Ep Ho. change (ERes u r' :: post) with ([ERes u r'] ++ post) in Ep. rewrite app_assoc in Ep. apply split_snoc in Ep.
        destruct Ep as [[-> Ep]|(p & -> & ->)].
        -- apply app_inj_tail in Ep. destruct Ep as [-> [= -> ->]]. exact (R1 t (PEnd r) op' ls Ht Ho).
        -- apply (R2 pre p u r' op' ls); [now rewrite <- app_assoc|exact Ho].
    + intros u pc op' ls. rewrite open_res. pcase u t; [discriminate|]. destruct (Nat.eqb_spec t u); [congruence|]. apply Z.
  - intros s pcs tr t pc s' l A [P [R1 R2] Z] Ht St Hn A'.
    assert (Lb : labels (tr ++ map (EStep t) l) = labels tr ++ l) by (now rewrite labels_app, labels_steps).
    pose proof (lg_open _ _ (ia_log _ _ _ A) t) as Lo. rewrite Ht in Lo.
    pose proof (lg_open _ _ (ia_log _ _ _ A') t) as Lo'. rewrite pupd_same in Lo'.
    assert (Hwho : forall u, u <> t -> forall e : event mlabel meter_op meter_ret, In e (map (EStep t) l) -> who e <> u).
    { intros u N e He. apply in_map_iff in He. destruct He as (x & <- & _). cbn. congruence. }
    split.
    + rewrite Lb. eapply step_pubinv; try eassumption. exact (ia_st _ _ _ A).
    + split.
      * intros u pc' op' ls Eu. pcase u t.
        -- injection Eu as <-. rewrite open_steps, Nat.eqb_refl. destruct (open_call t tr) as [[op l0]|] eqn:Eo; [|contradiction].
           intros [= <- <-]. destruct (is_read op) eqn:Er.
           ++ destruct (step_read_label _ _ _ _ _ _ St Lo Er) as (-> & -> & Hld). cbn [map]. rewrite app_nil_r.
              pose proof (Z t pc op l0 Ht Eo Er) as ->. pose proof (R1 t pc op [] Ht Eo) as Rd.
              pose proof P as []. pose proof (ia_st _ _ _ A) as AS.
              destruct pc; try discriminate Hld; cbn in Lo.
              ** destruct rest; [destruct Lo as (? & ? & ? & -> & _)|destruct Lo as (? & -> & _)]; discriminate.
              ** destruct Lo as (-> & _ & _). destruct op0; try discriminate Er; cbn.
                 --- eexists. split; [reflexivity|]. apply seen_now; [exact Eo|]. apply (st_count _ _ _ AS).
                 --- eexists. split; [reflexivity|]. apply seen_now; [exact Eo|]. apply pu_pub0.
                 --- eexists. split; [reflexivity|]. apply seen_now; [exact Eo|]. apply pu_mean0.
                 --- split; [reflexivity|]. apply seen_now; [exact Eo|]. apply (st_count _ _ _ AS).
              ** destruct Lo as (-> & _). cbn in Rd. destruct Rd as [_ Rd]. destruct st; cbn.
                 --- split; [reflexivity|]. split; [exact Rd|]. apply seen_now; [exact Eo|]. apply (pu_pub0 id A1).
                 --- split; [reflexivity|]. destruct Rd as [Rd1 Rd2]. repeat split; auto. apply seen_now; [exact Eo|]. apply (pu_pub0 id A5).
                 --- split; [reflexivity|]. destruct Rd as (Rd1 & Rd2 & Rd3). repeat split; auto. apply seen_now; [exact Eo|]. apply (pu_pub0 id A15).
                 --- destruct Rd as (Rd1 & Rd2 & Rd3 & Rd4). do 5 eexists. split; [reflexivity|]. repeat split; eauto. apply seen_now; [exact Eo|]. apply pu_mean0.
           ++ rewrite open_steps, Nat.eqb_refl, Eo in Lo'. destruct (mnext pc s); cbn; try exact Logic.I.
              ** destruct op; try discriminate Er; exact Logic.I.
              ** cbn in Lo'. destruct Lo' as [-> _]. discriminate Er.
        -- rewrite open_steps. destruct (Nat.eqb_spec t u); [congruence|]. intro Ho. apply read_mono; [|eauto]. now apply Hwho.
      * intros pre post u r' op' ls Ep Ho. apply split_app in Ep. destruct Ep as [(e1 & e2 & Es & -> & E2)|(p & E2 & ->)].
        -- exfalso. assert (In (ERes u r') (map (@EStep mlabel meter_op meter_ret t) l)) by (rewrite Es, <- E2; apply in_or_app; right; now left).
           apply in_map_iff in H. destruct H as (? & ? & _); discriminate.
        -- destruct p as [|e p].
           ++ exfalso. cbn in E2. assert (In (ERes u r') (map (@EStep mlabel meter_op meter_ret t) l)) by (rewrite <- E2; now left).
              apply in_map_iff in H. destruct H as (? & ? & _); discriminate.
           ++ cbn in E2. injection E2 as <- E2. now apply (R2 pre p u r' op' ls).
    + intros u pc' op' ls. rewrite open_steps. pcase u t.
      * rewrite Nat.eqb_refl. intros _. destruct (open_call t tr) as [[op l0]|] eqn:Eo; [|discriminate]. intros [= <- <-] Er.
        rewrite (Z t pc op l0 Ht Eo Er). destruct (step_read_label _ _ _ _ _ _ St Lo Er) as (-> & _). reflexivity.
      * destruct (Nat.eqb_spec t u); [congruence|]. apply Z.
Qed.
End M.
