(** What the meter properties need beyond the invariants. *)
From Coq Require Import ZArith List Lia Arith Permutation.
From Verif.Model Require Import GoInt GoFloat Conc Ewma Meter.
From Verif.Spec Require Import Traces EwmaSpec MeterSpec.
From Verif.Proofs Require Import IntFacts LinProofs PcProofs EwmaConc LogFacts MeterPc MeterInv MeterRun MeterPub MeterApart MeterEwma.
Import ListNotations.
Open Scope Z_scope.

Lemma log_labels {L Op R} t (tr : list (event L Op R)) :
  (forall c x, In c (done_calls t tr) -> In x (c_labels c) -> In x (labels tr)) /\
  (forall op ls x, open_call t tr = Some (op, ls) -> In x ls -> In x (labels tr)).
Proof.
  induction tr as [|e tr [I1 I2]] using rev_ind; [split; [contradiction|discriminate]|].
  assert (M : forall x, In x (labels tr) -> In x (labels (tr ++ [e]))) by (intros; rewrite labels_app; apply in_or_app; now left).
  destruct e as [u op|u l|u r].
  - split.
    + intros c x. rewrite done_inv. eauto.
    + intros op' ls x. rewrite open_inv. destruct (Nat.eqb u t); [intros [= <- <-] []|eauto].
  - change [EStep u l] with (map (@EStep L Op R u) [l]) in *. split.
    + intros c x. rewrite done_steps. eauto.
    + intros op' ls x. rewrite open_steps. destruct (Nat.eqb u t); [|eauto]. destruct (open_call t tr) as [[o l0]|] eqn:E; [|discriminate].
      intros [= <- <-] H. apply in_app_or in H. destruct H as [H|[<-|[]]]; [eauto|]. rewrite labels_app. apply in_or_app. right. now left.
  - split.
    + intros c x. rewrite done_res. destruct (Nat.eqb u t); [|eauto]. destruct (open_call t tr) as [[o l0]|] eqn:E; [|eauto].
      intro H. apply in_app_or in H. destruct H as [H|[<-|[]]]; [eauto|]. cbn. eauto.
    + intros op' ls x. rewrite open_res. destruct (Nat.eqb u t); [discriminate|eauto].
Qed.

Definition rank (w : which) : nat := match w with A1 => 0%nat | A5 => 1%nat | A15 => 2%nat end.

Section M.
Variable mexp : f64 -> f64.
Notation mstep := (mstep mexp).
Notation trace := (list (event mlabel meter_op meter_ret)).

Definition owes (id : nat) (w : which) (o : option mpc) : option Z :=
  match o with Some (PMarkUpd i n v) => if (Nat.eqb i id && Nat.leb (rank v) (rank w))%bool then Some n else None | _ => None end.

Definition skip_ok (pre : list mlabel) (l : mlabel) : Prop :=
  match l with LSkipped id _ => wins id pre = 1%nat | _ => True end.

Record inv_mark (s : marb) (pcs : nat -> option mpc) (tr : trace) : Prop := {
  mk_skip : along skip_ok (labels tr);
  mk_cas : forall id, wins id (labels tr) <> 0%nat -> exists t, In (EInv t (MStop id)) tr;
  mk_owes : forall id w, exists pend, NoDup (map fst pend) /\
    Permutation (marked id (labels tr)) (feds id w (labels tr) ++ map snd pend) /\
    forall t n, In (t, n) pend <-> owes id w (pcs t) = Some n;
}.

Lemma feds_app id w a b : feds id w (a ++ b) = feds id w a ++ feds id w b.
Proof. unfold feds. now rewrite ewma_labels_app, flat_map_app. Qed.
Lemma owes_next id w pc s : owes id w (Some (mnext pc s)) =
  match pc with
  | PMarkAdd i n => if Nat.eqb i id then Some n else None
  | PMarkUpd i n v => if (Nat.eqb i id && Nat.ltb (rank v) (rank w))%bool then Some n else None
  | _ => None end.
Proof.
  destruct pc as [r| |i|i|i|i n|i n|i n v|i rest st|i|i|i|i|op|i st|order|i rest|i v q rest|i rest| |d]; cbn; try reflexivity.
  - now destruct (m_stopped (meter_at s i)).
  - now rewrite Bool.andb_true_r.
  - destruct v, w; cbn; destruct (Nat.eqb i id); reflexivity.
  - destruct st; try reflexivity. now destruct rest.
  - now destruct (m_stopped (meter_at s i)).
  - now destruct op.
  - now destruct st.
  - now destruct (visit order (live s)).
  - destruct (wnext q (ewma_get i v s)); try reflexivity. now destruct (next_w v).
  - now destruct rest.
Qed.
Lemma lab_marked j pc s s' l : mstep pc s s' l -> marked j l = match pc with PMarkAdd i n => if Nat.eqb i j then [n] else [] | _ => [] end.
Proof.
  intro St. stepcase St; try reflexivity.
  - destruct pc; try reflexivity; discriminate.
  - destruct (started s); reflexivity.
  - cbn. now destruct (Nat.eqb id j).
  - now apply noew.
Qed.
Lemma tick_nofed q e e' ls : wstep q e e' ls -> tick_pc (Some q) = true -> flat_map (fun l => match l with EFed n => [n] | _ => [] end) ls = [].
Proof. now intros []. Qed.
Lemma lab_feds j v pc s s' l : mstep pc s s' l ->
  feds j v l = match pc with PMarkUpd i n u => if (Nat.eqb i j && which_eqb u v)%bool then [n] else [] | _ => [] end.
Proof.
  intro St. unfold feds. stepcase St; try reflexivity.
  - destruct pc; try reflexivity; discriminate.
  - destruct (started s); reflexivity.
  - cbn. now destruct (Nat.eqb id j && which_eqb w v)%bool.
  - rewrite ewma_labels_map. destruct (Nat.eqb id j && which_eqb w v)%bool; [|reflexivity]. now apply (tick_nofed q (ewma_get id w s) e').
Qed.
Lemma lab_skip pc s s' l j k : mstep pc s s' l -> In (LSkipped j k) l -> l = [LSkipped j k] /\ m_stopped (meter_at s j) = true.
Proof.
  intro St. stepcase St; cbn [In]; try contradiction; try (intros [H|[]]; discriminate H).
  - intros [H|H]; [discriminate|]. destruct (started s); [contradiction|]. destruct H as [H|[]]; discriminate.
  - intros [[= <- <-]|[]]. auto.
  - intro H. apply in_map_iff in H. destruct H as (? & ? & _); discriminate.
Qed.
Lemma lab_win pc s s' l j : mstep pc s s' l -> wins j l <> 0%nat -> pc = PStop j.
Proof.
  unfold wins. intro St. stepcase St; try (intro H; elim H; reflexivity).
  - intro H. elim H. destruct (started s); reflexivity.
  - cbn. destruct (negb (m_stopped (meter_at s id))); [|intro H; elim H; reflexivity]. destruct (Nat.eqb_spec id j) as [->|]; [reflexivity|]. intro H; elim H; reflexivity.
  - intro H. elim H. now rewrite noewf.
Qed.

Lemma rank_lt v w : Nat.leb (rank v) (rank w) = (which_eqb v w || Nat.ltb (rank v) (rank w))%bool.
Proof. now destruct v, w. Qed.
Lemma rank_irr v w : which_eqb v w = true -> Nat.ltb (rank v) (rank w) = false.
Proof. now destruct v, w. Qed.

Lemma mark_exec sched : pc_inv (mcode mexp) (inv_more inv_mark) (fst (cexec (meter_body mexp) arb_init sched)) (snd (cexec (meter_body mexp) arb_init sched)).
Proof.
  apply meter_ind_more.
  - split.
    + apply along_nil.
    + intros id H. elim H. reflexivity.
    + intros id w. exists []. split; [constructor|]. split; [constructor|]. split; [contradiction|discriminate].
  - intros s pcs tr t op A [] Ht.
    assert (Lb : labels (tr ++ [EInv t op]) = labels tr) by (rewrite labels_app; apply app_nil_r).
    split; rewrite ?Lb.
    + exact mk_skip0.
    + intros id H. destruct (mk_cas0 id H) as [u Hu]. exists u. apply in_or_app. now left.
    + intros id w. destruct (mk_owes0 id w) as (pend & D & P & E). exists pend. split; [exact D|]. split; [exact P|].
      intros u n. rewrite E. pcase u t; [|reflexivity]. rewrite Ht. destruct op; reflexivity.
  - intros s pcs tr t r A [] Ht.
    assert (Lb : labels (tr ++ [ERes t r]) = labels tr) by (rewrite labels_app; apply app_nil_r).
    split; rewrite ?Lb.
    + exact mk_skip0.
    + intros id H. destruct (mk_cas0 id H) as [u Hu]. exists u. apply in_or_app. now left.
    + intros id w. destruct (mk_owes0 id w) as (pend & D & P & E). exists pend. split; [exact D|]. split; [exact P|].
      intros u n. rewrite E. pcase u t; [|reflexivity]. now rewrite Ht.
  - intros s pcs tr t pc s' l A [] Ht St Hn A'.
    assert (Lb : labels (tr ++ map (EStep t) l) = labels tr ++ l) by (now rewrite labels_app, labels_steps).
    split; rewrite ?Lb.
    + apply along_app; [exact mk_skip0|]. intros pre x post ->. destruct x; try exact Logic.I. cbn.
      destruct (lab_skip _ _ _ _ id n St) as [E Hs]; [apply in_or_app; right; now left|].
      assert (pre = []) as -> by (destruct pre as [|y pre]; [reflexivity|]; destruct pre; discriminate E). rewrite app_nil_r.
      now rewrite (st_wins _ _ _ (ia_st _ _ _ A)), Hs.
    + intros id. unfold wins. rewrite filter_app, app_length. intro H.
      assert (D : wins id (labels tr) <> 0%nat \/ wins id l <> 0%nat) by (unfold wins; lia). destruct D as [D|D].
      * destruct (mk_cas0 id D) as [u Hu]. exists u. apply in_or_app. now left.
      * apply (lab_win _ _ _ _ _ St) in D. subst pc. pose proof (lg_open _ _ (ia_log _ _ _ A) t) as Lo. rewrite Ht in Lo.
        destruct (open_call t tr) as [[op ls]|] eqn:Eo; [|contradiction]. destruct Lo as [-> _]. apply open_in in Eo. exists t. apply in_or_app. now left.
    + intros id w. destruct (mk_owes0 id w) as (pend & D & P & E). rewrite ?Lb, feds_app, (lab_feds _ _ _ _ _ _ St).
      unfold marked. rewrite flat_map_app. fold (marked id (labels tr)) (marked id l). rewrite (lab_marked _ _ _ _ _ St).
      assert (ON := owes_next id w pc s).
      assert (Same : owes id w (Some (mnext pc s)) = owes id w (Some pc) ->
        forall u n, In (u, n) pend <-> owes id w (pupd pcs t (Some (mnext pc s)) u) = Some n).
      { intros Eo u n. rewrite E. pcase u t; [|reflexivity]. now rewrite Ht, Eo. }
      destruct pc as [r| |i|i|i|i n|i n|i n v|i rest st|i|i|i|i|op|i st|order|i rest|i v q rest|i rest| |d];
        try (exists pend; rewrite !app_nil_r; split; [exact D|]; split; [exact P|]; apply Same; exact ON).
      * destruct (Nat.eqb_spec i id) as [->|N].
        -- exists ((t, n) :: pend). rewrite app_nil_r. cbn [map fst snd]. split.
           ++ constructor; [|exact D]. intro H. apply in_map_iff in H. destruct H as ([u m] & Eu & Hin). cbn in Eu. subst u. apply E in Hin. rewrite Ht in Hin. discriminate.
           ++ split; [rewrite P, <- app_assoc; apply Permutation_app_head; apply Permutation_app_comm|].
              intros u m. cbn [In]. pcase u t.
              ** rewrite ON, E, Ht. cbn. intuition congruence.
              ** rewrite E. intuition congruence.
        -- exists pend. rewrite !app_nil_r. split; [exact D|]. split; [exact P|]. apply Same. exact ON.
      * destruct (Nat.eqb_spec i id) as [->|N].
        2:{ exists pend. cbn [andb]. rewrite !app_nil_r. split; [exact D|]. split; [exact P|]. apply Same. rewrite ON. cbn. destruct (Nat.eqb_spec i id); [congruence|reflexivity]. }
        cbn [andb] in *. destruct (which_eqb v w) eqn:Ev.
        -- assert (Hin : In (t, n) pend) by (apply E; rewrite Ht; cbn; now rewrite Nat.eqb_refl, rank_lt, Ev).
           apply in_split in Hin. destruct Hin as (p1 & p2 & ->). exists (p1 ++ p2).
           rewrite map_app in D, P |- *. cbn [map fst] in D. cbn [map snd] in P. rewrite map_app. split; [now apply NoDup_remove_1 in D|]. split.
           ++ rewrite app_nil_r, P, <- app_assoc. apply Permutation_app_head. symmetry. apply (Permutation_middle (map snd p1) (map snd p2) n).
           ++ intros u m. apply NoDup_remove_2 in D. pcase u t.
              ** rewrite ON, (rank_irr _ _ Ev). split; [|discriminate]. intro H. elim D. rewrite <- map_app. now apply (in_map fst) in H.
              ** rewrite <- E, !in_app_iff. cbn [In]. intuition congruence.
        -- exists pend. rewrite !app_nil_r. split; [exact D|]. split; [exact P|]. apply Same. rewrite ON. cbn. now rewrite Nat.eqb_refl, rank_lt, Ev.
Qed.

(** ** nobody is stuck *)
Lemma runs (c : config marb mlabel meter_op meter_ret) pcs u pc : at_pcs (mcode mexp) c pcs -> pcs u = Some pc ->
  (match mcode mexp pc with Ret _ => True | Atom e _ _ _ => e (sh c) = true end) -> can_run c u.
Proof.
  intros Hp E H. unfold can_run. specialize (Hp u). rewrite E in Hp. destruct (th c u) as [|op cd]; [contradiction|]. subst cd. exact H.
Qed.

Record inv_mx (s : marb) (pcs : nat -> option mpc) (tr : trace) : Prop := {
  mx_q : forall t id w q rest, pcs t = Some (PTick id w q rest) -> tick_pc (Some q) = true;
  mx_m : forall j v, w_mutex (get_a v (meter_at s j)) = true -> exists t q rest, pcs t = Some (PTick j v q rest) /\ holds (Some q) = true;
}.

Lemma wstep_mutex q e e' ls : wstep q e e' ls -> w_mutex e' = true ->
  holds (Some (wnext q e)) = true \/ (w_mutex e = true /\ holds (Some q) = false).
Proof.
  intros St Hm; destruct St; cbn in *; try discriminate; auto; try (destruct h; auto; fail); try (destruct (w_init w); auto; fail).
Qed.
Lemma holds_not_end r : holds (Some (QEnd r)) = false. Proof. reflexivity. Qed.

Lemma step_mutex pc s s' l j v : mstep pc s s' l -> okids pc s -> w_mutex (get_a v (meter_at s' j)) = true ->
  (exists q rest, pc = PTick j v q rest /\ holds (Some (wnext q (ewma_get j v s))) = true) \/
  (w_mutex (get_a v (meter_at s j)) = true /\ forall q rest, pc = PTick j v q rest -> holds (Some q) = false).
Proof.
  intros St Hu.
  assert (K : forall id f, (forall m, w_mutex (get_a v (f m)) = w_mutex (get_a v m)) -> w_mutex (get_a v (meter_at (upd_meter id f s) j)) = true -> w_mutex (get_a v (meter_at s j)) = true).
  { intros id f Hf. now rewrite (keep_upd (fun m => w_mutex (get_a v m))). }
  revert K. stepcase St; intro K; try (intro H; right; split; [exact H|discriminate]); try (intro H; right; split; [|discriminate]; apply K in H; [exact H|intro m0; destruct v; reflexivity]).
  - intro H. right. split; [exact H|]. intros q rest ->. discriminate.
  - rewrite meter_at_new. destruct (Nat.eqb_spec j (length (ms s))) as [->|]; [|intro H; right; split; [exact H|discriminate]].
    destruct v; discriminate.
  - intro H. right. split; [|discriminate]. unfold ewma_set in H. rewrite meter_at_upd in H. destruct (Nat.eqb_spec j id) as [->|]; [|exact H].
    assert (Hid : (id < length (ms s))%nat) by (apply Hu; now left). apply Nat.ltb_lt in Hid. rewrite Hid in H. cbn [andb] in H.
    rewrite get_set_a in H. destruct (which_eqb v w) eqn:E; [|exact H]. apply which_eqb_eq in E. subst. exact H.
  - intro H. unfold ewma_set in H. rewrite meter_at_upd in H. destruct (Nat.eqb_spec j id) as [->|N]; [|right; split; [exact H|]; congruence].
    assert (Hid : (id < length (ms s))%nat) by (apply Hu; now left). apply Nat.ltb_lt in Hid. rewrite Hid in H. cbn [andb] in H.
    rewrite get_set_a in H. destruct (which_eqb v w) eqn:E.
    + apply which_eqb_eq in E. subst. destruct (wstep_mutex _ _ _ _ Hs H) as [G|[G1 G2]]; [left; eauto|right]. split; [exact G1|]. congruence.
    + right. split; [exact H|]. intros q' r' Ep. injection Ep as Ew _ _. subst w. now rewrite which_eqb_refl in E.
Qed.

Lemma mnext_q pc s id w q rest : mnext pc s = PTick id w q rest -> (forall i v p r, pc = PTick i v p r -> tick_pc (Some p) = true) -> tick_pc (Some q) = true.
Proof.
  intros E T. destruct pc as [r| |i|i|i|i n|i n|i n v|i rst st|i|i|i|i|op|i st|order|i rst|i v p rst|i rst| |d]; cbn in E; try discriminate E.
  - destruct (m_stopped (meter_at s i)); discriminate.
  - destruct (next_w v); discriminate.
  - destruct st; try discriminate. destruct rst; discriminate.
  - destruct (m_stopped (meter_at s i)); discriminate.
  - destruct op; discriminate.
  - destruct st; discriminate.
  - destruct (visit order (live s)); discriminate.
  - injection E as _ _ <- _. reflexivity.
  - destruct (wnext_tick p (ewma_get i v s) (T _ _ _ _ eq_refl)) as [T'|T'].
    + destruct (wnext p (ewma_get i v s)); try discriminate T'; injection E as _ _ <- _; reflexivity.
    + rewrite T' in E. destruct (next_w v); [|discriminate]. injection E as _ _ <- _. reflexivity.
  - destruct rst; discriminate.
Qed.

Lemma mx_exec sched : pc_inv (mcode mexp) (inv_more inv_mx) (fst (cexec (meter_body mexp) arb_init sched)) (snd (cexec (meter_body mexp) arb_init sched)).
Proof.
  apply meter_ind_more.
  - split; [discriminate|]. intros j v H. exfalso. rewrite meter_at_out in H by (cbn; lia). destruct v; discriminate H.
  - intros s pcs tr t op A [] Ht. split.
    + intros u id w q rest. pcase u t; [destruct op; discriminate|eauto].
    + intros j v H. destruct (mx_m0 j v H) as (u & q & rest & E & Hh). exists u, q, rest. split; [|exact Hh]. rewrite pupd_other; [exact E|congruence].
  - intros s pcs tr t r A [] Ht. split.
    + intros u id w q rest. pcase u t; [discriminate|eauto].
    + intros j v H. destruct (mx_m0 j v H) as (u & q & rest & E & Hh). exists u, q, rest. split; [|exact Hh]. rewrite pupd_other; [exact E|congruence].
  - intros s pcs tr t pc s' l A [] Ht St Hn A'.
    assert (Hu : okids pc s) by (intros i Hi; apply (st_len _ _ _ (ia_st _ _ _ A) t); now rewrite Ht).
    split.
    + intros u id w q rest. pcase u t; [|eauto]. intros [= E]. apply (mnext_q _ _ _ _ _ _ E). intros i v p r ->. eauto.
    + intros j v H. destruct (step_mutex _ _ _ _ _ _ St Hu H) as [(q & rest & -> & Hh)|[H1 H2]].
      * exists t, (wnext q (ewma_get j v s)), rest. rewrite pupd_same. split; [|exact Hh]. f_equal. cbn [mnext].
        destruct (wnext q (ewma_get j v s)); try reflexivity. discriminate Hh.
      * destruct (mx_m0 j v H1) as (u & q & rest & E & Hh). exists u, q, rest. split; [|exact Hh]. rewrite pupd_other; [exact E|].
        intros ->. rewrite E in Ht. injection Ht as <-. rewrite (H2 _ _ eq_refl) in Hh. discriminate.
Qed.

Lemma meter_progress sched t : let '(c, tr) := cexec (meter_body mexp) arb_init sched in
  match open_call t tr with
  | Some (MMark id _, _) | Some (MStop id, _) | Some (MCount id, _) | Some (MRate id _, _) | Some (MRateMean id, _) | Some (MSnapshot id, _) =>
      In id (inserted (labels tr))
  | Some _ => True
  | None => False end -> exists u, can_run c u.
Proof.
  destruct (mx_exec sched) as (pcs & Hp & A & []). destruct (cexec (meter_body mexp) arb_init sched) as [c tr]. cbn [fst snd] in *.
  assert (Tk : forall u id w q rest, pcs u = Some (PTick id w q rest) -> exists u', can_run c u').
  { intros u id w q rest E. pose proof (mx_q0 _ _ _ _ _ E) as T.
    destruct (Bool.bool_dec (w_mutex (ewma_get id w (sh c))) true) as [Em|Em].
    - destruct (mx_m0 id w Em) as (u' & q' & rest' & E' & Hh). exists u'. apply (runs _ _ _ _ Hp E'). cbn [mcode]. rewrite (mx_q0 _ _ _ _ _ E').
      pose proof (gcode_enabled (ewma_get id w) (ewma_set id w) (ewma_em id w) (after_tick id w rest') q' (sh c) (mx_q0 _ _ _ _ _ E')) as G.
      destruct (gcode _ _ _ _ q'); [exact Logic.I|]. destruct G as [G|[-> _]]; [exact G|discriminate Hh].
    - exists u. apply (runs _ _ _ _ Hp E). cbn [mcode]. rewrite T.
      pose proof (gcode_enabled (ewma_get id w) (ewma_set id w) (ewma_em id w) (after_tick id w rest) q (sh c) T) as G.
      destruct (gcode _ _ _ _ q); [exact Logic.I|]. destruct G as [G|[_ G]]; [exact G|contradiction]. }
  assert (Wr : wlock (sh c) = true -> exists u, can_run c u).
  { intro H. apply (lk_w _ _ _ (ia_lock _ _ _ A)) in H. destruct H as [u Hu]. exists u.
    destruct (pcs u) as [pc|] eqn:E; [|discriminate]. apply (runs _ _ _ _ Hp E). destruct pc; try discriminate Hu; reflexivity. }
  assert (Rd : rlocks (sh c) <> 0%nat -> exists u, can_run c u).
  { intro H. destruct (lk_r _ _ _ (ia_lock _ _ _ A)) as (rs & _ & Hl & Hrs). destruct rs as [|u rs]; [cbn in Hl; lia|].
    assert (Hu : reading (pcs u) = true) by (apply Hrs; now left). destruct (pcs u) as [pc|] eqn:E; [|discriminate].
    destruct pc; try discriminate Hu; try (exists u; apply (runs _ _ _ _ Hp E); reflexivity).
    - exists u. apply (runs _ _ _ _ Hp E). destruct st; reflexivity.
    - eauto. }
  pose proof (lg_open _ _ (ia_log _ _ _ A) t) as Lo. destruct (pcs t) as [pc|] eqn:E; destruct (open_call t tr) as [[op ls]|]; try contradiction.
  intro Hop. pose proof (runs _ _ _ _ Hp E) as G. pose proof (st_ready _ _ _ (ia_st _ _ _ A)) as Rdy.
  destruct pc; try (exists t; apply G; reflexivity); cbn in Lo.
  - destruct (wlock (sh c)) eqn:Ew; [auto|]. destruct (Nat.eq_dec (rlocks (sh c)) 0) as [E0|E0]; [|auto]. exists t. apply G. cbn. now rewrite Ew, E0.
  - destruct Lo as [-> _]. exists t. apply G. cbn. now apply Rdy.
  - exists t. apply G. destruct w; reflexivity.
  - exists t. apply G. destruct st; reflexivity.
  - destruct Lo as [-> _]. exists t. apply G. cbn. now apply Rdy.
  - destruct (wlock (sh c)) eqn:Ew; [auto|]. destruct (Nat.eq_dec (rlocks (sh c)) 0) as [E0|E0]; [|auto]. exists t. apply G. cbn. now rewrite Ew, E0.
  - destruct Lo as (-> & _ & Hr). exists t. apply G. destruct op0; try discriminate Hr; cbn; now apply Rdy.
  - exists t. apply G. destruct st; reflexivity.
  - destruct (wlock (sh c)) eqn:Ew; [auto|]. exists t. apply G. cbn. now rewrite Ew.
  - eauto.
Qed.

(** ** the statements *)
Notation mrun sched := (cexec (meter_body mexp) arb_init sched).

Lemma count_sum sched id : let '(c, tr) := mrun sched in m_count (meter_at (sh c) id) = wrap64 (sumz (marked id (labels tr))).
Proof. destruct (meter_all mexp sched) as (pcs & _ & A). destruct (mrun sched) as [c tr]. apply (st_count _ _ _ (ia_st _ _ _ A)). Qed.

Lemma reads_ok sched pre post t r op ls : snd (mrun sched) = pre ++ ERes t r :: post -> open_call t pre = Some (op, ls) -> read_ok t op pre r.
Proof. destruct (vals_exec mexp sched) as (pcs & _ & _ & V). apply (iv_read _ _ _ V). Qed.

Lemma calls_ok sched t c : In c (done_calls t (snd (mrun sched))) -> call_done (c_op c) (acts (c_labels c)) (c_ret c).
Proof. destruct (meter_all mexp sched) as (pcs & _ & A). apply (lg_done _ _ (ia_log _ _ _ A)). Qed.

Lemma skip_after_stop sched pre id n post : labels (snd (mrun sched)) = pre ++ LSkipped id n :: post -> wins id pre = 1%nat.
Proof. destruct (mark_exec sched) as (pcs & _ & _ & M). intro E. exact (mk_skip _ _ _ M pre _ post E). Qed.

Lemma marks_before_stop sched id n t c : let tr := snd (mrun sched) in (forall u, ~ In (EInv u (MStop id)) tr) ->
  In c (done_calls t tr) -> c_op c = MMark id n -> acts (c_labels c) = mark_acts id n.
Proof.
  cbv zeta. destruct (mark_exec sched) as (pcs & _ & A & M). intros Hn Hc Eo.
  pose proof (lg_done _ _ (ia_log _ _ _ A) _ _ Hc) as D. rewrite Eo in D. destruct D as [_ [D|D]]; [|exact D].
  exfalso. assert (In (ASkipped id n) (acts (c_labels c))) by (rewrite D; now left). apply in_flat_map in H. destruct H as (x & Hx & Ha).
  assert (x = LSkipped id n) as ->.
  { destruct x as [i k|i k|i w e|i b|i|i| |ids| |i|i|i w b|i b]; try (destruct Ha as [Ha|[]]; discriminate Ha || (injection Ha as -> ->; reflexivity)); try contradiction.
    destruct e; destruct Ha as [Ha|[]] || destruct Ha; discriminate Ha. }
  apply (proj1 (log_labels t _) c _ Hc) in Hx. apply in_split in Hx. destruct Hx as (l1 & l2 & El).
  pose proof (mk_skip _ _ _ M l1 _ l2 El) as W. cbn in W.
  destruct (mk_cas _ _ _ M id) as [u Hu]; [|elim (Hn u Hu)]. rewrite El. unfold wins in *. rewrite filter_app, app_length. lia.
Qed.

Lemma marks_after_stop sched pre post t id n c : snd (mrun sched) = pre ++ post -> returned (MStop id) pre -> open_call t pre = None ->
  In c (done_calls t post) -> c_op c = MMark id n -> c_labels c = [LSkipped id n].
Proof.
  intros E R O. destruct (meter_all mexp sched) as (pcs & _ & A). destruct (la_mark _ _ _ (ia_late _ _ _ A) pre post t id n E R O) as [H _]. apply H.
Qed.

Lemma fed_to_all sched id w : let '(c, tr) := mrun sched in quiet c -> Permutation (marked id (labels tr)) (feds id w (labels tr)).
Proof.
  destruct (mark_exec sched) as (pcs & Hp & _ & M). destruct (mrun sched) as [c tr]. cbn [fst snd] in *. intro Q.
  destruct (mk_owes _ _ _ M id w) as (pend & _ & P & E). destruct pend as [|[t n] pend]; [now rewrite app_nil_r in P|].
  assert (H : owes id w (pcs t) = Some n) by (apply E; now left). now rewrite (quiet_pcs _ _ _ Hp Q t) in H.
Qed.

Lemma removals_deleted id ls : removals id ls = count_occ Nat.eq_dec (deleted ls) id.
Proof.
  unfold removals, deleted. induction ls as [|l ls IH]; [reflexivity|]. cbn [filter flat_map]. rewrite count_occ_app, <- IH.
  destruct l; try reflexivity. cbn. destruct (Nat.eqb_spec id0 id) as [->|]; destruct (Nat.eq_dec id0 id) || destruct (Nat.eq_dec id id); cbn; congruence || lia.
Qed.

Lemma stop_once sched id : let '(c, tr) := mrun sched in
  (wins id (labels tr) <= 1)%nat /\ (removals id (labels tr) <= wins id (labels tr))%nat /\
  (returned (MStop id) tr -> wins id (labels tr) = 1%nat) /\
  (quiet c -> returned (MStop id) tr -> removals id (labels tr) = 1%nat).
Proof.
  destruct (meter_all mexp sched) as (pcs & Hp & A). destruct (mrun sched) as [c tr]. cbn [fst snd] in *. pose proof (ia_st _ _ _ A) as S.
  rewrite removals_deleted, (st_wins _ _ _ S).
  assert (D : (count_occ Nat.eq_dec (deleted (labels tr)) id <= 1)%nat) by (apply NoDup_count_occ, (st_deln _ _ _ S)).
  split; [now destruct (m_stopped (meter_at (sh c) id)); cbn; lia|]. split.
  - destruct (in_dec Nat.eq_dec id (deleted (labels tr))) as [I|I].
    + rewrite (proj1 (st_deld _ _ _ S id I)). exact D.
    + apply (count_occ_not_In Nat.eq_dec) in I. rewrite I. lia.
  - split.
    + intro R. now rewrite (la_stop _ _ _ (ia_late _ _ _ A) id R).
    + intros Q R. pose proof (la_stop _ _ _ (ia_late _ _ _ A) id R) as H. apply (st_dele _ _ _ S) in H.
      destruct H as [H|[u H]]; [|now rewrite (quiet_pcs _ _ _ Hp Q u) in H]. apply (count_occ_In Nat.eq_dec) in H. lia.
Qed.

Lemma no_tick_after sched pre l post id : labels (snd (mrun sched)) = pre ++ l :: post -> In (LDeleted id) pre -> ~ tick_action id l.
Proof.
  intros E H. destruct (meter_all mexp sched) as (pcs & _ & A). apply (dl_lab _ _ _ (ia_del _ _ _ A) id pre l post E).
  unfold deleted. apply in_flat_map. exists (LDeleted id). split; [exact H|now left].
Qed.

Lemma rounds_right sched pre l post : labels (snd (mrun sched)) = pre ++ l :: post ->
  match l with
  | LRound ids => ids = members pre
  | LInserted _ | LDeleted _ => rounds_begun pre = rounds_ended pre
  | _ => True end.
Proof. intro E. destruct (meter_all mexp sched) as (pcs & _ & A). exact (dl_round _ _ _ (ia_del _ _ _ A) pre l post E). Qed.

Lemma ticker_once sched : let ls := labels (snd (mrun sched)) in
  NoDup (inserted ls) /\ spawns ls = match inserted ls with [] => 0%nat | _ => 1%nat end.
Proof.
  cbv zeta. destruct (meter_all mexp sched) as (pcs & _ & A). pose proof (ia_st _ _ _ A) as S. split; [apply (st_nodup _ _ _ S)|].
  rewrite (st_spawns _ _ _ S). pose proof (st_started _ _ _ S) as H. destruct (started _); destruct (inserted _) as [|x l]; try reflexivity.
  - now elim (proj1 H eq_refl).
  - assert (false = true) by (apply H; discriminate). discriminate.
Qed.

Lemma published_existed sched pre post : labels (snd (mrun sched)) = pre ++ post ->
  match post with
  | LPub id w b :: _ => exists v, was_rate id w pre v /\ b = float64bits v
  | LMean id b :: _ => exists p1 p2 d, pre = p1 ++ p2 /\ 0 <= d <= max_int64 /\ b = float64bits (fdiv (f_of_int (count_at id p1)) (seconds d))
  | _ => True end.
Proof.
  destruct (vals_exec mexp sched) as (pcs & _ & _ & V). destruct post as [|l post]; [trivial|]. intro E.
  pose proof (pu_lab _ _ _ (iv_pub _ _ _ V) pre l post E) as H. destruct l; exact H || exact Logic.I.
Qed.

Lemma fresh_apart sched id w : let '(c, tr) := mrun sched in apart id tr -> ticks_begun id (labels tr) = ticks_ended id (labels tr) ->
  get_pub w (meter_at (sh c) id) = float64bits (rate_of (w_rate (ewma_get id w (sh c)))).
Proof.
  destruct (ap_exec mexp id sched) as (pcs & _ & _ & V). destruct (mrun sched) as [c tr]. cbn [fst snd] in *. intros Ha Eq.
  apply (ap_calm _ _ _ _ V Ha). destruct (ap_tk _ _ _ _ V) as (rs & _ & E & H). assert (rs = []) as -> by (destruct rs; [reflexivity|cbn in E; lia]).
  intro t. destruct (ticking id (pcs t)) eqn:Et; [|reflexivity]. apply H in Et. destruct Et.
Qed.

(** each average of a meter: what the EWMA properties say *)
Lemma meter_average sched id w : let '(c, tr) := mrun sched in (id < length (ms (sh c)))%nat -> exists esched,
  let '(ec, etr) := cexec ewma_body (NewEWMA (ewma_alpha mexp (minutes w))) esched in
  sh ec = ewma_get id w (sh c) /\ labels etr = ewma_labels id w (labels tr) /\ (forall t, labels_of t etr = ewma_labels id w (labels_of t tr)) /\
  (forall t, In (EInv t WTick) etr -> exists o, In (EInv t (MTickAll o)) tr) /\ (forall t, th c t = Idle -> th ec t = Idle).
Proof.
  destruct (sim_exec mexp id w sched) as (pcs & Hp & _ & I). destruct (mrun sched) as [c tr]. cbn [fst snd] in *. intro Hl.
  unfold inv_sim in I. apply Nat.ltb_lt in Hl. rewrite Hl in I. destruct I as (sc & [M1 M2 M3 M4 M5]). exists sc.
  destruct (cexec ewma_body _ sc) as [ec etr]. cbn [fst snd] in *. repeat split; auto.
  intros t Ht. rewrite M2. specialize (Hp t). rewrite Ht in Hp. destruct (pcs t); [contradiction|]. reflexivity.
Qed.

Lemma meter_recurrence sched id w t0 : let '(c, tr) := mrun sched in let ls := ewma_labels id w (labels tr) in
  (id < length (ms (sh c)))%nat -> (forall t o, In (EInv t (MTickAll o)) tr -> t = t0) -> sane_feeds ls -> th c t0 = Idle ->
  takens ls = fst (between ls) /\ w_uncounted (ewma_get id w (sh c)) = snd (between ls) /\
  w_rate (ewma_get id w (sh c)) = float64bits (float_average (ewma_alpha mexp (minutes w)) (takens ls)).
Proof.
  pose proof (meter_average sched id w) as H. destruct (mrun sched) as [c tr]. cbv zeta. intros Hl Ht Hs Hi.
  destruct (H Hl) as (es & G). pose proof (single_idle (ewma_alpha mexp (minutes w)) t0 es) as Si.
  destruct (cexec ewma_body _ es) as [ec etr]. destruct G as (G1 & G2 & _ & G4 & G5). rewrite G1, G2 in Si. apply Si; auto.
  intros t Hin. destruct (G4 t Hin) as [o Ho]. eauto.
Qed.
End M.
