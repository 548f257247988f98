(** Each of a meter's three averages runs the EWMA code. *)
From Coq Require Import ZArith List Lia Arith Permutation.
From Verif.Model Require Import GoInt GoFloat Conc Ewma Meter.
From Verif.Spec Require Import Traces EwmaSpec MeterSpec.
From Verif.Proofs Require Import IntFacts LinProofs PcProofs EwmaConc LogFacts MeterPc MeterInv MeterRun MeterPub.
Import ListNotations.
Open Scope Z_scope.

Lemma wstep_conv q e e' ls : wstep q e e' ls ->
  exists en u l k, wcode q = Atom en u l k /\ en e = true /\ u e = e' /\ l e = ls /\ k e = wcode (wnext q e).
Proof.
  intro St. destruct (wcode q) as [r|en u l k] eqn:E.
  - destruct St; discriminate E.
  - exists en, u, l, k. split; [reflexivity|].
    assert (H : en e = true /\ u e = e' /\ l e = ls).
    { destruct St; cbn in E; inversion E; subst; cbn; repeat split. now apply Bool.negb_true_iff. }
    destruct H as (H1 & H2 & H3). repeat split; try assumption. now apply (wnext_ok q en u l).
Qed.

Section M.
Variable mexp : f64 -> f64.
Variable jd : nat.
Variable jw : which.
Notation mstep := (mstep mexp).
Notation trace := (list (event mlabel meter_op meter_ret)).
Notation alpha := (ewma_alpha mexp (minutes jw)).

Definition mine (o : option mpc) : option wpc :=
  match o with Some (PTick i v q _) => if (Nat.eqb i jd && which_eqb v jw)%bool then Some q else None | _ => None end.
Definition proj (ls : list mlabel) := ewma_labels jd jw ls.

Record sim (s : marb) (pcs : nat -> option mpc) (tr : trace) (c : config ewma elabel ewma_op ewma_ret) (etr : list (event elabel ewma_op ewma_ret)) : Prop := {
  sm_st : sh c = ewma_get jd jw s;
  sm_th : forall t, th c t = match mine (pcs t) with Some q => Busy WTick (wcode q) | None => Idle end;
  sm_lab : labels etr = proj (labels tr);
  sm_of : forall t, labels_of t etr = proj (labels_of t tr);
  sm_call : forall t, In (EInv t WTick) etr -> exists o, In (EInv t (MTickAll o)) tr;
}.

Definition inv_sim (s : marb) (pcs : nat -> option mpc) (tr : trace) : Prop :=
  if Nat.ltb jd (length (ms s))
  then exists sched, sim s pcs tr (fst (cexec ewma_body (NewEWMA alpha) sched)) (snd (cexec ewma_body (NewEWMA alpha) sched))
  else proj (labels tr) = [] /\ forall t, proj (labels_of t tr) = [].

Lemma open_in {L Op R} t (tr : list (event L Op R)) op ls : open_call t tr = Some (op, ls) -> In (EInv t op) tr.
Proof.
  revert op ls. induction tr as [|e tr IH] using rev_ind; intros op ls H; [discriminate H|]. apply in_or_app. destruct e as [u o|u l|u r].
  - rewrite open_inv in H. destruct (Nat.eqb_spec u t) as [->|]; [injection H as -> _; right; now left|left; eauto].
  - change [EStep u l] with (map (@EStep L Op R u) [l]) in H. rewrite open_steps in H. destruct (Nat.eqb u t); [|left; eauto].
    destruct (open_call t tr) as [[o l0]|] eqn:E; [|discriminate]. injection H as -> _. left. eauto.
  - rewrite open_res in H. destruct (Nat.eqb u t); [discriminate|left; eauto].
Qed.

Lemma step_get pc s s' l : mstep pc s s' l -> (forall i, In i (used (Some pc)) -> (i < length (ms s))%nat) -> (jd < length (ms s))%nat ->
  (match pc with
   | PMarkUpd i n w => i = jd /\ w = jw
   | PTick i w q r => i = jd /\ w = jw
   | _ => False end) \/ (ewma_get jd jw s' = ewma_get jd jw s /\ proj l = []).
Proof.
  intros St Hu Hj. unfold ewma_get.
  assert (K : forall id f, (forall m, get_a jw (f m) = get_a jw m) -> get_a jw (meter_at (upd_meter id f s) jd) = get_a jw (meter_at s jd)).
  { intros id f Hf. now apply (keep_upd (get_a jw)). }
  revert K. stepcase St; intro K; try (right; split; reflexivity); try (right; split; [apply K; intro; destruct jw; reflexivity|reflexivity]).
  - right. split; [|reflexivity]. rewrite meter_at_new. destruct (Nat.eqb_spec jd (length (ms s))); [lia|reflexivity].
  - right. split; [|unfold proj; destruct (started s); reflexivity]. apply (K id set_ready). intro; destruct jw; reflexivity.
  - destruct (Nat.eq_dec id jd) as [->|N].
    + destruct (which_eqb w jw) eqn:E; [left; split; [reflexivity|now apply which_eqb_eq]|]. right. unfold ewma_set. split.
      * apply K. intro m. rewrite get_set_a. destruct (which_eqb jw w) eqn:E2; [|reflexivity]. apply which_eqb_eq in E2. subst. now rewrite which_eqb_refl in E.
      * unfold proj. cbn. now rewrite E, Bool.andb_false_r.
    + right. unfold ewma_set. split; [now rewrite upd_miss by congruence|]. unfold proj. cbn. now apply Nat.eqb_neq in N as ->.
  - destruct (Nat.eq_dec id jd) as [->|N].
    + destruct (which_eqb w jw) eqn:E; [left; split; [reflexivity|now apply which_eqb_eq]|]. right. unfold ewma_set. split.
      * apply K. intro m. rewrite get_set_a. destruct (which_eqb jw w) eqn:E2; [|reflexivity]. apply which_eqb_eq in E2. subst. now rewrite which_eqb_refl in E.
      * unfold proj. now rewrite ewma_labels_map, E, Bool.andb_false_r.
    + right. unfold ewma_set. split; [now rewrite upd_miss by congruence|]. unfold proj. rewrite ewma_labels_map. now apply Nat.eqb_neq in N as ->.
Qed.

Lemma step_out pc s s' l : mstep pc s s' l -> (forall i, In i (used (Some pc)) -> (i < length (ms s))%nat) -> (length (ms s) <= jd)%nat -> proj l = [].
Proof.
  intros St Hu Hj. unfold proj. stepcase St; try reflexivity.
  - destruct (started s); reflexivity.
  - cbn. assert (id < length (ms s))%nat by (apply Hu; now left). destruct (Nat.eqb_spec id jd); [lia|reflexivity].
  - rewrite ewma_labels_map. assert (id < length (ms s))%nat by (apply Hu; now left). destruct (Nat.eqb_spec id jd); [lia|reflexivity].
Qed.

Lemma mine_next pc s q' : mine (Some (mnext pc s)) = Some q' ->
  (q' = Q0 /\ mine (Some pc) = None) \/ exists q r, pc = PTick jd jw q r /\ q' = wnext q (ewma_get jd jw s) /\ forall r', wnext q (ewma_get jd jw s) <> QEnd r'.
Proof.
  destruct pc as [r| |id|id|id|id n|id n|id n w|id rest st|id|id|id|id|op|id st|order|id rest|id w q rest|id rest| |d]; cbn; try discriminate.
  - destruct (m_stopped (meter_at s id)); discriminate.
  - destruct (next_w w); discriminate.
  - destruct st; try discriminate. destruct rest; discriminate.
  - destruct (m_stopped (meter_at s id)); discriminate.
  - destruct op; discriminate.
  - destruct st; discriminate.
  - destruct (visit order (live s)); discriminate.
  - intro H. left. destruct (_ && _)%bool; [|discriminate]. injection H as <-. auto.
  - intro H. assert (Dec : (exists r', wnext q (ewma_get id w s) = QEnd r') \/ forall r', wnext q (ewma_get id w s) <> QEnd r').
    { destruct (wnext q (ewma_get id w s)); try (right; discriminate). left; eauto. }
    destruct Dec as [[r' E]|E].
    + rewrite E in H. destruct (next_w w) as [w'|] eqn:Ew; [|discriminate]. cbn in H. destruct (Nat.eqb id jd && which_eqb w' jw)%bool eqn:Eb; [|discriminate].
      injection H as <-. left. split; [reflexivity|]. apply andb_prop in Eb. destruct Eb as [-> Eb]. apply which_eqb_eq in Eb. subst. destruct w, jw; try discriminate Ew; reflexivity.
    + right. assert (H' : mine (Some (PTick id w (wnext q (ewma_get id w s)) rest)) = Some q') by (destruct (wnext q (ewma_get id w s)); try exact H; elim (E r); reflexivity).
      cbn in H'. destruct (Nat.eqb id jd && which_eqb w jw)%bool eqn:Eb; [|discriminate]. apply andb_prop in Eb. destruct Eb as [Eb1 Eb2].
      apply Nat.eqb_eq in Eb1. apply which_eqb_eq in Eb2. subst. injection H' as <-. exists q, rest. auto.
  - destruct rest; discriminate.
Qed.

Lemma entered pc s op a : prog (mnext pc s) op a -> forall q', mine (Some (mnext pc s)) = Some q' -> exists o, op = MTickAll o.
Proof.
  intros P q' M. destruct (mnext pc s); try discriminate M. cbn in P. destruct P as (o & _ & _ & -> & _). eauto.
Qed.

Lemma next_w_neq w w' : next_w w = Some w' -> which_eqb w' w = false.
Proof. destruct w; intro H; inversion H; reflexivity. Qed.
Lemma tick_inv id w q rest s s' l : mstep (PTick id w q rest) s s' l ->
  exists e' els, wstep q (ewma_get id w s) e' els /\ s' = ewma_set id w s e' /\ l = map (LEwma id w) els.
Proof. intro St. inversion St; subst; [discriminate|]. eauto. Qed.

Lemma cexec_two {S L Op R} (body : Op -> code S L R) s sched ch1 ch2 :
  cexec body s (sched ++ [ch1; ch2]) =
  let '(c, tr) := cexec body s sched in let '(c1, e1) := cstep body c ch1 in let '(c2, e2) := cstep body c1 ch2 in (c2, (tr ++ e1) ++ e2).
Proof.
  change [ch1; ch2] with ([ch1] ++ [ch2]). rewrite app_assoc, cexec_snoc, cexec_snoc.
  destruct (cexec body s sched) as [c tr]. destruct (cstep body c ch1) as [c1 e1]. reflexivity.
Qed.
Lemma cexec_three {S L Op R} (body : Op -> code S L R) s sched ch1 ch2 ch3 :
  cexec body s (sched ++ [ch1; ch2; ch3]) =
  let '(c, tr) := cexec body s sched in let '(c1, e1) := cstep body c ch1 in let '(c2, e2) := cstep body c1 ch2 in
  let '(c3, e3) := cstep body c2 ch3 in (c3, ((tr ++ e1) ++ e2) ++ e3).
Proof.
  change [ch1; ch2; ch3] with ([ch1; ch2] ++ [ch3]). rewrite app_assoc, cexec_snoc, cexec_two.
  destruct (cexec body s sched) as [c tr]. destruct (cstep body c ch1) as [c1 e1]. destruct (cstep body c1 ch2) as [c2 e2]. reflexivity.
Qed.

Lemma sim_exec sched : pc_inv (mcode mexp) (inv_more inv_sim) (fst (cexec (meter_body mexp) arb_init sched)) (snd (cexec (meter_body mexp) arb_init sched)).
Proof.
  apply meter_ind_more; unfold inv_sim.
  - cbn. split; [reflexivity|]. reflexivity.
  - intros s pcs tr t op A I Ht.
    assert (Lb : labels (tr ++ [EInv t op]) = labels tr) by (rewrite labels_app; apply app_nil_r).
    assert (Lo : forall u, labels_of u (tr ++ [EInv t op]) = labels_of u tr) by (intro u; rewrite labels_of_app; apply app_nil_r).
    destruct (Nat.ltb jd (length (ms s))).
    + destruct I as (sc & []). exists sc. split; auto; rewrite ?Lb; auto.
      * intro u. rewrite sm_th0. pcase u t; [|reflexivity]. rewrite Ht. now destruct op.
      * intro u. now rewrite Lo.
      * intros u Hu. destruct (sm_call0 u Hu) as [o Ho]. exists o. apply in_or_app. now left.
    + rewrite Lb. destruct I as [I1 I2]. split; [exact I1|]. intro u. now rewrite Lo.
  - intros s pcs tr t r A I Ht.
    assert (Lb : labels (tr ++ [ERes t r]) = labels tr) by (rewrite labels_app; apply app_nil_r).
    assert (Lo : forall u, labels_of u (tr ++ [ERes t r]) = labels_of u tr) by (intro u; rewrite labels_of_app; apply app_nil_r).
    destruct (Nat.ltb jd (length (ms s))).
    + destruct I as (sc & []). exists sc. split; auto; rewrite ?Lb; auto.
      * intro u. rewrite sm_th0. pcase u t; [|reflexivity]. now rewrite Ht.
      * intro u. now rewrite Lo.
      * intros u Hu. destruct (sm_call0 u Hu) as [o Ho]. exists o. apply in_or_app. now left.
    + rewrite Lb. destruct I as [I1 I2]. split; [exact I1|]. intro u. now rewrite Lo.
  - intros s pcs tr t pc s' l A I Ht St Hn A'.
    assert (Lb : labels (tr ++ map (EStep t) l) = labels tr ++ l) by (now rewrite labels_app, labels_steps).
    assert (Lo : forall u, labels_of u (tr ++ map (EStep t) l) = labels_of u tr ++ if Nat.eqb t u then l else []) by (intro u; now rewrite labels_of_app, labels_of_steps).
    assert (Hu : forall i, In i (used (Some pc)) -> (i < length (ms s))%nat) by (intros i Hi; apply (st_len _ _ _ (ia_st _ _ _ A) t); now rewrite Ht).
    assert (InM : forall e, In e tr -> In e (tr ++ map (EStep t) l)) by (intros; apply in_or_app; now left).
    assert (Hlen := step_len _ _ _ _ _ St).
    assert (PApp : forall a b, proj (a ++ b) = proj a ++ proj b) by (intros; apply ewma_labels_app).
    destruct (Nat.ltb_spec jd (length (ms s))) as [Hj|Hj].
    2:{ destruct I as [I1 I2]. pose proof (step_out _ _ _ _ St Hu Hj) as Po. destruct (Nat.ltb_spec jd (length (ms s'))) as [Hj'|Hj'].
      - assert (pc = PNew /\ jd = length (ms s)) as [-> Ej] by (destruct pc; try lia; split; [reflexivity|lia]). inversion St; subst; [discriminate|].
        exists []. cbn [cexec crun fst snd map] in *. rewrite app_nil_r in *. split.
        + unfold ewma_get. rewrite meter_at_new. destruct (Nat.eqb_spec jd (length (ms s))); [|lia]. cbn. destruct jw; reflexivity.
        + intro u. cbn. pcase u t; [reflexivity|]. destruct (mine (pcs u)) eqn:E; [|reflexivity]. exfalso.
          assert (In jd (used (pcs u))).
          { destruct (pcs u) as [[]|]; try discriminate E. cbn in E. destruct (Nat.eqb_spec id jd); [|discriminate]. subst. now left. }
          apply (st_len _ _ _ (ia_st _ _ _ A)) in H. lia.
        + cbn. now rewrite I1.
        + intro u. cbn. now rewrite I2.
        + intros u [].
      - rewrite Lb, PApp, I1, Po. split; [reflexivity|]. intro u. rewrite Lo, PApp, I2. destruct (Nat.eqb t u); [exact Po|reflexivity]. }
    assert (Hj' : (jd < length (ms s'))%nat) by lia. apply Nat.ltb_lt in Hj'. rewrite Hj'. destruct I as (sc & SM).
    destruct (cexec ewma_body (NewEWMA alpha) sc) as [c etr] eqn:Ec. cbn [fst snd] in SM. destruct SM.
    pose proof (lg_open _ _ (ia_log _ _ _ A') t) as Lg. rewrite pupd_same in Lg.
    destruct (step_get _ _ _ _ St Hu Hj) as [Own|[Eg Ep]].
    + destruct pc as [r| |id|id|id|id n|id n|id n w|id rest st|id|id|id|id|op|id st|order|id rest|id w q rest|id rest| |d]; try contradiction Own; destruct Own as [-> ->].
      * (* Update *)
        assert (Hth : th c t = Idle) by (rewrite sm_th0, Ht; reflexivity).
        exists (sc ++ [Call t (WUpdate n); Run t; Run t]). rewrite cexec_three, Ec. cbn [cstep].
        rewrite Hth. cbn [th]. rewrite tset_same. cbn [wcode ewma_body ewma_update_c eact th sh].
        inversion St; subst; [discriminate|]. unfold always. cbn [th sh]. rewrite tset_same. cbn [fst snd sh th].
        assert (Sh0 : forall e1 : ewma, get_a jw (meter_at (ewma_set jd jw s e1) jd) = e1).
        { intro e1. unfold ewma_set. rewrite upd_hit by exact Hj. now rewrite get_set_a, which_eqb_refl. }
        assert (Pl : proj [LEwma jd jw (EFed n)] = [EFed n]) by (unfold proj; cbn; now rewrite Nat.eqb_refl, which_eqb_refl).
        split; cbn [sh th].
        -- unfold ewma_get. rewrite Sh0. rewrite sm_st0. reflexivity.
        -- intro u. pcase u t.
           ++ rewrite !tset_same. cbn. now destruct (next_w jw).
           ++ rewrite !tset_other by exact N. apply sm_th0.
        -- rewrite Lb, PApp, Pl, !labels_app, sm_lab0. cbn [labels flat_map app map]. now rewrite !app_nil_r.
        -- intro u. rewrite Lo, !labels_of_app, PApp, sm_of0. cbn. rewrite !app_nil_r. destruct (Nat.eqb t u); [now rewrite Pl|reflexivity].
        -- intros u. rewrite !in_app_iff. cbn [In map]. intros [[[H|[H|[]]]|[H|[]]]|[H|[]]]; try discriminate H. destruct (sm_call0 u H) as [o Ho]. exists o. rewrite !in_app_iff. auto.
      * (* Tick *)
        destruct (tick_inv _ _ _ _ _ _ _ St) as (e' & els & Hs & -> & ->).
        destruct (wstep_conv _ _ _ _ Hs) as (en & up & lf & k & Ew & En & Eu & El & Ek).
        assert (Hth : th c t = Busy WTick (Atom en up lf k)) by (rewrite sm_th0, Ht; cbn [mine]; rewrite Nat.eqb_refl, which_eqb_refl; cbn [andb]; now rewrite Ew).
        assert (Sh0 : ewma_get jd jw (ewma_set jd jw s e') = e').
        { unfold ewma_get, ewma_set. rewrite upd_hit by exact Hj. now rewrite get_set_a, which_eqb_refl. }
        assert (Pl : proj (map (LEwma jd jw) els) = els) by (unfold proj; now rewrite ewma_labels_map, Nat.eqb_refl, which_eqb_refl).
        assert (Dec : (exists r', wnext q (ewma_get jd jw s) = QEnd r') \/ forall r', wnext q (ewma_get jd jw s) <> QEnd r').
        { destruct (wnext q (ewma_get jd jw s)); try (right; discriminate). left; eauto. }
        destruct Dec as [[r' Er]|Er].
        -- exists (sc ++ [Run t; Run t]). rewrite cexec_two, Ec. cbn [cstep]. rewrite Hth, sm_st0, En. cbn [th sh]. rewrite tset_same, Ek, Er.
           cbn [wcode fst snd sh th].
           split; cbn [sh th].
           ++ now rewrite Eu, Sh0.
           ++ intro u. pcase u t; [rewrite !tset_same|rewrite !tset_other by exact N; apply sm_th0].
              cbn [mnext]. rewrite Er. destruct (next_w jw) as [w'|] eqn:Ew'; [|reflexivity]. cbn. now rewrite (next_w_neq _ _ Ew'), Bool.andb_false_r.
           ++ rewrite Lb, PApp, !labels_app, sm_lab0, El, labels_steps. cbn [labels flat_map]. rewrite app_nil_r. now rewrite Pl.
           ++ intro u. rewrite Lo, !labels_of_app, PApp, sm_of0, El, labels_of_steps. cbn. rewrite app_nil_r. destruct (Nat.eqb t u); [now rewrite Pl|reflexivity].
           ++ intros u. rewrite !in_app_iff. intros [[H|H]|[H|[]]]; try discriminate H.
              ** destruct (sm_call0 u H) as [o Ho]. exists o. rewrite !in_app_iff. auto.
              ** apply in_map_iff in H. destruct H as (? & ? & _); discriminate.
        -- exists (sc ++ [Run t]). rewrite cexec_snoc, Ec. cbn [cstep]. rewrite Hth, sm_st0, En. cbn [fst snd sh th].
           assert (Mn : mine (Some (mnext (PTick jd jw q rest) s)) = Some (wnext q (ewma_get jd jw s))).
           { cbn [mnext]. destruct (wnext q (ewma_get jd jw s)) eqn:E; try (cbn; now rewrite Nat.eqb_refl, which_eqb_refl). elim (Er r). reflexivity. }
           split; cbn [sh th].
           ++ now rewrite Eu, Sh0.
           ++ intro u. pcase u t; [rewrite !tset_same|rewrite !tset_other by exact N; apply sm_th0]. now rewrite Mn, Ek.
           ++ rewrite Lb, PApp, !labels_app, sm_lab0, El, labels_steps. now rewrite Pl.
           ++ intro u. rewrite Lo, !labels_of_app, PApp, sm_of0, El, labels_of_steps. destruct (Nat.eqb t u); [now rewrite Pl|reflexivity].
           ++ intros u. rewrite !in_app_iff. intros [H|H]; try discriminate H.
              ** destruct (sm_call0 u H) as [o Ho]. exists o. rewrite !in_app_iff. auto.
              ** apply in_map_iff in H. destruct H as (? & ? & _); discriminate.
    + destruct (mine (Some (mnext pc s))) as [q'|] eqn:Mn.
      * pose proof Mn as Mn'. apply mine_next in Mn'. destruct Mn' as [[-> Mpc]|(q & r & -> & -> & Er)].
        -- (* the tick of this average begins *)
           assert (Hth : th c t = Idle) by (rewrite sm_th0, Ht, Mpc; reflexivity).
           destruct (open_call t (tr ++ map (EStep t) l)) as [[op ols]|] eqn:Eo; [|contradiction].
           destruct (entered _ _ _ _ Lg _ Mn) as [o ->]. apply open_in in Eo.
           exists (sc ++ [Call t WTick]). rewrite cexec_snoc, Ec. cbn [cstep]. rewrite Hth. cbn [fst snd].
           split; cbn [sh th].
           ++ now rewrite Eg.
           ++ intro u. pcase u t; [rewrite tset_same, Mn; reflexivity|rewrite tset_other by exact N; apply sm_th0].
           ++ rewrite Lb, PApp, Ep, labels_app, sm_lab0. reflexivity.
           ++ intro u. rewrite Lo, labels_of_app, PApp, sm_of0. destruct (Nat.eqb t u); [now rewrite Ep|reflexivity].
           ++ intros u. rewrite in_app_iff. intros [H|[[= <-]|[]]]; [|now exists o]. destruct (sm_call0 u H) as [o' Ho]. exists o'. auto.
        -- (* a silent step of the tick *)
           destruct (tick_inv _ _ _ _ _ _ _ St) as (e' & els & Hs & -> & ->).
           destruct (wstep_conv _ _ _ _ Hs) as (en & up & lf & k & Ew & En & Eu & El & Ek).
           assert (Hth : th c t = Busy WTick (Atom en up lf k)) by (rewrite sm_th0, Ht; cbn [mine]; rewrite Nat.eqb_refl, which_eqb_refl; cbn [andb]; now rewrite Ew).
           assert (Sh0 : ewma_get jd jw (ewma_set jd jw s e') = e').
           { unfold ewma_get, ewma_set. rewrite upd_hit by exact Hj. now rewrite get_set_a, which_eqb_refl. }
           assert (Pl : proj (map (LEwma jd jw) els) = els) by (unfold proj; now rewrite ewma_labels_map, Nat.eqb_refl, which_eqb_refl).
           exists (sc ++ [Run t]). rewrite cexec_snoc, Ec. cbn [cstep]. rewrite Hth, sm_st0, En. cbn [fst snd sh th].
           split; cbn [sh th].
           ++ now rewrite Eu, Sh0.
           ++ intro u. pcase u t; [rewrite !tset_same|rewrite !tset_other by exact N; apply sm_th0]. now rewrite Mn, Ek.
           ++ rewrite Lb, PApp, !labels_app, sm_lab0, El, labels_steps. now rewrite Pl.
           ++ intro u. rewrite Lo, !labels_of_app, PApp, sm_of0, El, labels_of_steps. destruct (Nat.eqb t u); [now rewrite Pl|reflexivity].
           ++ intros u. rewrite !in_app_iff. intros [H|H]; try discriminate H.
              ** destruct (sm_call0 u H) as [o Ho]. exists o. rewrite !in_app_iff. auto.
              ** apply in_map_iff in H. destruct H as (? & ? & _); discriminate.
      * destruct (mine (Some pc)) as [q|] eqn:Mpc.
        -- (* impossible to leave without the last step; handled as a Tick step *)
           destruct pc as [r| |id|id|id|id n|id n|id n w|id rest st|id|id|id|id|op|id st|order|id rest|id w q1 rest|id rest| |d]; try discriminate Mpc.
           cbn in Mpc. destruct (Nat.eqb id jd && which_eqb w jw)%bool eqn:Eb; [|discriminate]. apply andb_prop in Eb. destruct Eb as [Eb1 Eb2].
           apply Nat.eqb_eq in Eb1. apply which_eqb_eq in Eb2. subst. injection Mpc as ->.
           destruct (tick_inv _ _ _ _ _ _ _ St) as (e' & els & Hs & -> & ->).
           destruct (wstep_conv _ _ _ _ Hs) as (en & up & lf & k & Ew & En & Eu & El & Ek).
           assert (Hth : th c t = Busy WTick (Atom en up lf k)) by (rewrite sm_th0, Ht; cbn [mine]; rewrite Nat.eqb_refl, which_eqb_refl; cbn [andb]; now rewrite Ew).
           assert (Sh0 : ewma_get jd jw (ewma_set jd jw s e') = e').
           { unfold ewma_get, ewma_set. rewrite upd_hit by exact Hj. now rewrite get_set_a, which_eqb_refl. }
           assert (Pl : proj (map (LEwma jd jw) els) = els) by (unfold proj; now rewrite ewma_labels_map, Nat.eqb_refl, which_eqb_refl).
           assert (Er : exists r', wnext q (ewma_get jd jw s) = QEnd r').
           { destruct (wnext q (ewma_get jd jw s)) eqn:E; cbn [mnext] in Mn; rewrite E in Mn; try (cbn in Mn; rewrite Nat.eqb_refl, which_eqb_refl in Mn; discriminate Mn). eauto. }
           destruct Er as [r' Er].
           exists (sc ++ [Run t; Run t]). rewrite cexec_two, Ec. cbn [cstep]. rewrite Hth, sm_st0, En. cbn [th sh]. rewrite tset_same, Ek, Er.
           cbn [wcode fst snd sh th].
           split; cbn [sh th].
           ++ now rewrite Eu, Sh0.
           ++ intro u. pcase u t; [rewrite !tset_same|rewrite !tset_other by exact N; apply sm_th0]. now rewrite Mn.
           ++ rewrite Lb, PApp, !labels_app, sm_lab0, El, labels_steps. cbn [labels flat_map]. rewrite app_nil_r. now rewrite Pl.
           ++ intro u. rewrite Lo, !labels_of_app, PApp, sm_of0, El, labels_of_steps. cbn. rewrite app_nil_r. destruct (Nat.eqb t u); [now rewrite Pl|reflexivity].
           ++ intros u. rewrite !in_app_iff. intros [[H|H]|[H|[]]]; try discriminate H.
              ** destruct (sm_call0 u H) as [o Ho]. exists o. rewrite !in_app_iff. auto.
              ** apply in_map_iff in H. destruct H as (? & ? & _); discriminate.
        -- exists sc. rewrite Ec. split; cbn [fst snd].
           ++ now rewrite Eg.
           ++ intro u. rewrite sm_th0. pcase u t; [|reflexivity]. now rewrite Ht, Mpc, Mn.
           ++ now rewrite Lb, PApp, Ep, app_nil_r.
           ++ intro u. rewrite Lo, PApp, sm_of0. destruct (Nat.eqb t u); [now rewrite Ep, app_nil_r|now rewrite app_nil_r].
           ++ intros u H. destruct (sm_call0 u H) as [o Ho]. exists o. auto.
Qed.
End M.
