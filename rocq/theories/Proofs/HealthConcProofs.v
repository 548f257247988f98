(** Proofs about health checks used by several goroutines. *)
From Coq Require Import ZArith List Arith Lia.
From Verif.Model Require Import Conc HealthConc.
From Verif.Spec Require Import Linearizability Traces HealthConcSpec.
From Verif.Proofs Require Import LinProofs PcProofs PcLin LogFacts.
Import ListNotations.
Open Scope Z_scope.

(** program points; those before the call takes effect know the call *)
Inductive hpc :=
| PRead1 | PRead2 (t : Z)
| PCheck (es : list iface)
| PWrite1 (op : health_op) (e : iface) (es : list iface)
| PWrite2 (op : health_op) (e : iface) (es : list iface)
| PEnd (r : health_ret).
Definition hcode_of (pc : hpc) : hcode :=
  match pc with
  | PRead1 => load_err
  | PRead2 t => load_data t
  | PCheck es => health_body (HCheck es)
  | PWrite1 _ e es => store_err e (verdicts_c es (Ret HDone))
  | PWrite2 _ e es => store_data e (verdicts_c es (Ret HDone))
  | PEnd r => Ret r
  end.
Definition hentry (op : health_op) : hpc :=
  match op with HError => PRead1 | HHealthy => PWrite1 op nil_error [] | HUnhealthy e => PWrite1 op e [] | HCheck es => PCheck es end.
Definition after_write (op : health_op) (es : list iface) : hpc := match es with [] => PEnd HDone | e :: r => PWrite1 op e r end.
Definition hnext (pc : hpc) (s : iface) : hpc :=
  match pc with
  | PRead1 => PRead2 (fst s)
  | PRead2 t => PEnd (HErr (t, snd s))
  | PCheck es => after_write (HCheck es) es
  | PWrite1 op e es => PWrite2 op e es
  | PWrite2 op e es => after_write op es
  | PEnd r => PEnd r
  end.
Lemma hentry_ok op : health_body op = hcode_of (hentry op).
Proof. destruct op; reflexivity. Qed.
Lemma after_code op es : hcode_of (after_write op es) = verdicts_c es (Ret HDone).
Proof. destruct es; reflexivity. Qed.
Lemma hnext_ok pc e u l k s : hcode_of pc = Atom e u l k -> e s = true -> k s = hcode_of (hnext pc s).
Proof.
  destruct pc; cbn; intros H _; try discriminate H; injection H as <- <- <- <-; try reflexivity; cbn; now rewrite ?after_code.
Qed.
(** the steps *)
Inductive hstep : hpc -> iface -> iface -> list access -> Prop :=
| S_read1 s : hstep PRead1 s s [Reads TypeWord]
| S_read2 t s : hstep (PRead2 t) s s [Reads DataWord]
| S_check es s : hstep (PCheck es) s s []
| S_write1 op e es s : hstep (PWrite1 op e es) s (fst e, snd s) [Writes TypeWord]
| S_write2 op e es s : hstep (PWrite2 op e es) s (fst s, snd e) [Writes DataWord].
Lemma hstep_of pc e u l k s : hcode_of pc = Atom e u l k -> hstep pc s (u s) (l s).
Proof. destruct pc; cbn; intros H; try discriminate H; injection H as <- <- <- <-; constructor. Qed.
Lemma ret_of pc r : hcode_of pc = Ret r -> pc = PEnd r.
Proof. destruct pc; cbn; intros H; try discriminate H. now injection H as ->. Qed.

(** the call a goroutine is in; a point that writes belongs to a call that sets errors *)
Definition op_at (pc : hpc) : option health_op :=
  match pc with PRead1 | PRead2 _ => Some HError | PCheck es => Some (HCheck es) | PWrite1 op _ _ | PWrite2 op _ _ => Some op | PEnd _ => None end.
Definition good_pc (pc : hpc) : Prop :=
  match pc with PWrite1 op e es | PWrite2 op e es => sets_of op <> [] /\ forall q, health_apply q op = (last es e, HDone) | _ => True end.
Definition hlinks (pcs : nat -> option hpc) (tr : list (event access health_op health_ret)) : Prop :=
  forall t, match pcs t with
            | None => open_call t tr = None
            | Some pc => good_pc pc /\ exists op ls, open_call t tr = Some (op, ls) /\ forall op', op_at pc = Some op' -> op' = op
            end.
Definition hstat (pc : hpc) : @tstat health_op health_ret := match pc with PEnd r => TDone r | _ => match op_at pc with Some op => TPending op | None => TIdle end end.
Definition writing (pc : hpc) : bool := match pc with PWrite1 _ _ _ | PWrite2 _ _ _ => true | _ => false end.
Record hfacts (s : iface) (pcs : nat -> option hpc) (q : iface) : Prop := {
  hf_same : s = q \/ exists t pc, pcs t = Some pc /\ writing pc = true;
  hf_mid : forall t op e es, pcs t = Some (PWrite2 op e es) -> fst s = fst e;
  hf_read : forall t x, pcs t = Some (PRead2 x) -> fst s = x
}.
Definition hinv (s : iface) (pcs : nat -> option hpc) (tr : list (event access health_op health_ret)) : Prop :=
  hlinks pcs tr /\
  (setters_alone tr -> exists l f q, erase l = history tr /\ valid health_apply nil_error (fun _ => TIdle) l q f /\
     (forall t, f t = tstat_of hstat (pcs t)) /\ hfacts s pcs q).
Lemma alone_prefix a b : setters_alone (a ++ b) -> setters_alone a.
Proof. intros H a' b' t u op ls op' ls' E. apply (H a' (b' ++ b)). now rewrite E, app_assoc. Qed.
Ltac pcase u t := destruct (Nat.eq_dec u t) as [->|?N]; [rewrite ?pupd_same in *|rewrite ?pupd_other in * by exact N].

Lemma good_entry op : good_pc (hentry op).
Proof. destruct op; cbn; auto; (split; [discriminate|reflexivity]). Qed.
Lemma last_cons (e : iface) es d : last (e :: es) d = last es e.
Proof. revert e d. induction es as [|x es IH]; intros e d; [reflexivity|]. change (last (e :: x :: es) d) with (last (x :: es) d). rewrite IH. now rewrite (IH x e). Qed.
Lemma good_next pc s : good_pc pc -> good_pc (hnext pc s).
Proof.
  destruct pc as [|t|es|op e es|op e es|r]; cbn [hnext]; intros G; try exact G; try exact Logic.I.
  - destruct es as [|e es]; [exact Logic.I|]. split; [discriminate|]. intros q. cbn [health_apply]. now rewrite last_cons.
  - destruct es as [|x es]; [exact Logic.I|]. destruct G as [A B]. split; [exact A|]. intros q. rewrite (B q). now rewrite last_cons.
Qed.
Lemma links_at pcs tr t pc op : hlinks pcs tr -> pcs t = Some pc -> op_at pc = Some op -> exists ls, open_call t tr = Some (op, ls).
Proof. intros L H O. specialize (L t). rewrite H in L. destruct L as (_ & op' & ls & E & F). rewrite (F op O). eauto. Qed.
Lemma links_good pcs tr t pc : hlinks pcs tr -> pcs t = Some pc -> good_pc pc.
Proof. intros L H. specialize (L t). rewrite H in L. apply L. Qed.
(** a writer has no company *)
Lemma writer_alone pcs tr t pc : hlinks pcs tr -> setters_alone tr -> pcs t = Some pc -> writing pc = true -> forall u, u <> t -> pcs u = None.
Proof.
  intros L Al H W u N. pose proof (L u) as Lu. destruct (pcs u) as [pcu|] eqn:Hu; [|reflexivity]. exfalso. destruct Lu as (_ & op' & ls' & Eu & _).
  assert (O : exists op, op_at pc = Some op /\ sets_of op <> []). { pose proof (links_good _ _ _ _ L H) as G. destruct pc; try discriminate W; cbn in *; destruct G; eauto. }
  destruct O as (op & Ho & Hs). destruct (links_at _ _ _ _ _ L H Ho) as (ls & Et). apply Hs. apply (Al tr [] t u op ls op' ls'); auto. now rewrite app_nil_r.
Qed.
Lemma step_links pcs tr t pc s s' l0 : hlinks pcs tr -> pcs t = Some pc -> hstep pc s s' l0 -> hlinks (pupd pcs t (Some (hnext pc s))) (tr ++ map (EStep t) l0).
Proof.
  intros Lk Ht St u. rewrite open_steps. pcase u t.
  - rewrite Nat.eqb_refl. specialize (Lk t). rewrite Ht in Lk. destruct Lk as (G & op & ls & -> & A). split; [now apply good_next|]. exists op, (ls ++ l0). split; [reflexivity|].
    intros op' H. apply A. destruct St; cbn [hnext op_at] in *; try exact H; try discriminate H; destruct es; cbn in H; try discriminate H; exact H.
  - destruct (Nat.eqb_spec t u); [congruence|]. apply Lk.
Qed.
Lemma health_all sched : pc_inv hcode_of hinv (fst (health_exec sched)) (snd (health_exec sched)).
Proof.
  apply (pc_induction health_body nil_error hcode_of hentry hnext hentry_ok hnext_ok hinv); unfold hinv.
  - split; [intros t; reflexivity|]. intros _. exists [], (fun _ => TIdle), nil_error. split; [reflexivity|]. split; [constructor|]. split; [reflexivity|]. split; [now left|discriminate|discriminate].
  - intros s pcs tr t op (Lk & IH) Ht.
    assert (Lk' : hlinks (pupd pcs t (Some (hentry op))) (tr ++ [EInv t op])).
    { intros u. rewrite open_inv. pcase u t; [rewrite Nat.eqb_refl; split; [apply good_entry|]; exists op, []; split; [reflexivity|]; intros op'; destruct op; cbn; intros [= <-]; reflexivity|]. destruct (Nat.eqb_spec t u); [congruence|]. apply Lk. }
    split; [exact Lk'|]. intros Al. destruct (IH (alone_prefix _ _ Al)) as (l & f & q & E & V & F & []).
    exists (l ++ [XInv t op]), (tupd f t (TPending op)), q. rewrite erase_app, history_app, E. split; [reflexivity|]. split; [apply valid_inv; [exact V|rewrite F, Ht; reflexivity]|].
    split; [apply tstat_upd; [exact F|destruct op; reflexivity]|]. split.
    + destruct hf_same0 as [->|(u & pc & Hu & W)]; [now left|]. right. exists u, pc. split; [|exact W]. rewrite pupd_other; [exact Hu|]. intros ->. congruence.
    + intros u op' e es. pcase u t; [destruct op; discriminate|]. apply hf_mid0.
    + intros u x. pcase u t; [destruct op; discriminate|]. apply hf_read0.
  - intros s pcs tr t pc r (Lk & IH) Ht C. apply ret_of in C. subst pc. split.
    + intros u. rewrite open_res. pcase u t; [now rewrite Nat.eqb_refl|]. destruct (Nat.eqb_spec t u); [congruence|]. apply Lk.
    + intros Al. destruct (IH (alone_prefix _ _ Al)) as (l & f & q & E & V & F & []).
      exists (l ++ [XRes t r]), (tupd f t TIdle), q. rewrite erase_app, history_app, E. split; [reflexivity|]. split; [apply valid_res; [exact V|rewrite F, Ht; reflexivity]|].
      split; [apply tstat_upd; [exact F|reflexivity]|]. split.
      * destruct hf_same0 as [->|(u & pc & Hu & W)]; [now left|]. right. exists u, pc. split; [|exact W]. rewrite pupd_other; [exact Hu|]. intros ->. rewrite Ht in Hu. injection Hu as <-. discriminate W.
      * intros u op' e es. pcase u t; [discriminate|]. apply hf_mid0.
      * intros u x. pcase u t; [discriminate|]. apply hf_read0.
  - intros s pcs tr t pc e u l k (Lk & IH) Ht C _. pose proof (hstep_of _ _ _ _ _ s C) as St. clear C e k. remember (u s) as s' eqn:Es. remember (l s) as l0 eqn:El. clear Es El u l.
    pose proof (step_links _ _ _ _ _ _ _ Lk Ht St) as Lk'. split; [exact Lk'|]. intros Al. pose proof (alone_prefix _ _ Al) as Al0. destruct (IH Al0) as (l & f & q & E & V & F & []).
    rewrite history_app, history_steps, app_nil_r. pose proof (links_good _ _ _ _ Lk Ht) as G.
    (* a reader sees the state of the object *)
    assert (Rd : op_at pc = Some HError -> s = q).
    { intros O. destruct hf_same0 as [X|(v & pcv & Hv & W)]; [exact X|]. exfalso. assert (N : t <> v) by (intros <-; rewrite Ht in Hv; injection Hv as <-; destruct pc; try discriminate W; cbn in *; injection O as ->; now apply (proj1 G)).
      pose proof (writer_alone _ _ _ _ Lk Al0 Hv W t N). congruence. }
    assert (Oth : forall v pcv, v <> t -> pcs v = Some pcv -> writing pc = true -> False) by (intros v pcv N Hv W; pose proof (writer_alone _ _ _ _ Lk Al0 Ht W v N); congruence).
    destruct St as [s|x s|es s|op e es s|op e es s]; cbn [hnext] in *.
    + exists l, f, q. split; [exact E|]. split; [exact V|]. split; [apply tstat_keep; [exact F|now rewrite Ht]|]. split.
      * left. now apply Rd.
      * intros v op' e es. pcase v t; [discriminate|]. apply hf_mid0.
      * intros v x. pcase v t; [now intros [= <-]|]. apply hf_read0.
    + exists (l ++ [XLin t]), (tupd f t (TDone (HErr (x, snd s)))), q. rewrite erase_app, E. split; [cbn; now rewrite app_nil_r|].
      assert (X : (x, snd s) = q). { rewrite <- (hf_read0 t x Ht), <- (Rd eq_refl). now destruct s. }
      split; [eapply valid_lin with (op := HError); [exact V|rewrite F, Ht; reflexivity|cbn; now rewrite X]|]. split; [apply tstat_upd; [exact F|reflexivity]|]. split.
      * left. now apply Rd.
      * intros v op' e es. pcase v t; [discriminate|]. apply hf_mid0.
      * intros v y. pcase v t; [discriminate|]. apply hf_read0.
    + destruct es as [|e es]; cbn [after_write].
      * exists (l ++ [XLin t]), (tupd f t (TDone HDone)), q. rewrite erase_app, E. split; [cbn; now rewrite app_nil_r|].
        split; [eapply valid_lin with (op := (HCheck [])); [exact V|rewrite F, Ht; reflexivity|reflexivity]|]. split; [apply tstat_upd; [exact F|reflexivity]|]. split.
        -- destruct hf_same0 as [->|(v & pc & Hv & W)]; [now left|]. right. exists v, pc. split; [|exact W]. rewrite pupd_other; [exact Hv|]. intros ->. rewrite Ht in Hv. injection Hv as <-. discriminate W.
        -- intros v op' e es. pcase v t; [discriminate|]. apply hf_mid0.
        -- intros v y. pcase v t; [discriminate|]. apply hf_read0.
      * exists l, f, q. split; [exact E|]. split; [exact V|]. split; [apply tstat_keep; [exact F|now rewrite Ht]|]. split.
        -- right. exists t, (PWrite1 (HCheck (e :: es)) e es). now rewrite pupd_same.
        -- intros v op' e' es'. pcase v t; [discriminate|]. apply hf_mid0.
        -- intros v y. pcase v t; [discriminate|]. apply hf_read0.
    + exists l, f, q. split; [exact E|]. split; [exact V|]. split; [apply tstat_keep; [exact F|now rewrite Ht]|]. split.
      * right. exists t, (PWrite2 op e es). now rewrite pupd_same.
      * intros v op' e' es'. pcase v t; [now intros [= <- <- <-]|]. intros Hv. destruct (Oth v _ N Hv eq_refl).
      * intros v y. pcase v t; [discriminate|]. intros Hv. destruct (Oth v _ N Hv eq_refl).
    + assert (X : (fst s, snd e) = e) by (rewrite (hf_mid0 t op e es Ht); now destruct e). rewrite X. destruct es as [|e' es]; cbn [after_write].
      * exists (l ++ [XLin t]), (tupd f t (TDone HDone)), e. rewrite erase_app, E. split; [cbn; now rewrite app_nil_r|].
        split; [eapply valid_lin with (op := op); [exact V|rewrite F, Ht; reflexivity|apply G]|]. split; [apply tstat_upd; [exact F|reflexivity]|]. split.
        -- now left.
        -- intros v op' e1 es'. pcase v t; [discriminate|]. intros Hv. destruct (Oth v _ N Hv eq_refl).
        -- intros v y. pcase v t; [discriminate|]. intros Hv. destruct (Oth v _ N Hv eq_refl).
      * exists l, f, q. split; [exact E|]. split; [exact V|]. split; [apply tstat_keep; [exact F|now rewrite Ht]|]. split.
        -- right. exists t, (PWrite1 op e' es). now rewrite pupd_same.
        -- intros v op' e1 es'. pcase v t; [discriminate|]. intros Hv. destruct (Oth v _ N Hv eq_refl).
        -- intros v y. pcase v t; [discriminate|]. intros Hv. destruct (Oth v _ N Hv eq_refl).
Qed.
Lemma health_linearizable sched : setters_alone (snd (health_exec sched)) -> linearizable health_apply nil_error (history (snd (health_exec sched))).
Proof. intros A. destruct (health_all sched) as (pcs & _ & _ & I). destruct (I A) as (l & f & q & E & V & _). exists l, q, f. auto. Qed.
Lemma health_no_race sched : setters_alone (snd (health_exec sched)) -> ~ health_race (fst (health_exec sched)).
Proof.
  intros A (t & u & w & N & (op & e & up & lab & k & Ht & _ & Hw) & Hu). destruct (health_all sched) as (pcs & At & Lk & _).
  assert (P : forall v x, about_to (fst (health_exec sched)) v x -> exists pc, pcs v = Some pc).
  { intros v x (op' & e' & u' & l' & k' & Hv & _). specialize (At v). rewrite Hv in At. destruct (pcs v); [eauto|contradiction]. }
  assert (Pu : exists pc, pcs u = Some pc) by (destruct Hu; eauto). destruct Pu as (pcu & Pu).
  pose proof (At t) as Pt. rewrite Ht in Pt. destruct (pcs t) as [pc|] eqn:Hp; [|contradiction].
  pose proof (hstep_of pc e up lab k (sh (fst (health_exec sched))) (eq_sym Pt)) as St.
  assert (W : writing pc = true) by (destruct St; cbn in Hw; try reflexivity; try contradiction; destruct Hw as [Hw|Hw]; try discriminate Hw; contradiction).
  pose proof (writer_alone _ _ _ _ Lk A Hp W u ltac:(congruence)). congruence.
Qed.

(** under every schedule: each word read is the word of an error that was set, or of nil *)
Definition known_type tr x := exists a, known tr a /\ x = fst a.
Definition known_data tr x := exists a, known tr a /\ x = snd a.
Definition pc_words tr (pc : hpc) : Prop :=
  match pc with
  | PRead2 x => known_type tr x
  | PCheck es => forall e, In e es -> known tr e
  | PWrite1 _ e es | PWrite2 _ e es => forall x, In x (e :: es) -> known tr x
  | PEnd (HErr e) => known_type tr (fst e) /\ known_data tr (snd e)
  | _ => True
  end.
Lemma known_app a b e : known a e -> known (a ++ b) e.
Proof. intros [->|(op & H & K)]; [now left|]. right. exists op. split; [|exact K]. rewrite calls_app. apply in_or_app. now left. Qed.
Lemma ktype_app a b e : known_type a e -> known_type (a ++ b) e.
Proof. intros (x & K & ->). exists x. split; [now apply known_app|reflexivity]. Qed.
Lemma kdata_app a b e : known_data a e -> known_data (a ++ b) e.
Proof. intros (x & K & ->). exists x. split; [now apply known_app|reflexivity]. Qed.
Lemma words_app a b pc : pc_words a pc -> pc_words (a ++ b) pc.
Proof. destruct pc as [| | | | |[|e]]; cbn; auto using ktype_app; try (intros H x Hx; apply known_app; auto). intros []. auto using ktype_app, kdata_app. Qed.
Definition winv (s : iface) (pcs : nat -> option hpc) (tr : list (event access health_op health_ret)) : Prop :=
  known_type tr (fst s) /\ known_data tr (snd s) /\ (forall t pc, pcs t = Some pc -> pc_words tr pc) /\
  (forall t c e, In c (done_calls t tr) -> c_ret c = HErr e -> known_type tr (fst e) /\ known_data tr (snd e)).
Lemma words_all sched : pc_inv hcode_of winv (fst (health_exec sched)) (snd (health_exec sched)).
Proof.
  apply (pc_induction health_body nil_error hcode_of hentry hnext hentry_ok hnext_ok winv); unfold winv.
  - assert (K : known [] nil_error) by now left. split; [exists nil_error; auto|]. split; [exists nil_error; auto|]. split; [discriminate|]. intros t c e [].
  - intros s pcs tr t op (T & D & P & Q) Ht. split; [now apply ktype_app|]. split; [now apply kdata_app|]. split.
    + intros u pc. pcase u t; [|intros Hu; apply words_app; eauto]. intros [= <-].
      assert (K : forall e, In e (sets_of op) -> known (tr ++ [EInv t op]) e) by (intros e He; right; exists op; split; [rewrite calls_app; apply in_or_app; right; now left|exact He]).
      destruct op; cbn in *; auto.
    + intros u c e. rewrite done_inv. intros Hc He. destruct (Q u c e Hc He). auto using ktype_app, kdata_app.
  - intros s pcs tr t pc r (T & D & P & Q) Ht C. apply ret_of in C. subst pc. split; [now apply ktype_app|]. split; [now apply kdata_app|]. split.
    + intros u pc. pcase u t; [discriminate|]. intros Hu. apply words_app. eauto.
    + intros u c e. rewrite done_res. destruct (Nat.eqb_spec t u) as [<-|N].
      * destruct (open_call t tr) as [[op ls]|]; [|intros Hc He; destruct (Q t c e Hc He); auto using ktype_app, kdata_app]. intros Hc He. apply in_app_or in Hc. destruct Hc as [Hc|[<-|[]]]; [destruct (Q t c e Hc He); auto using ktype_app, kdata_app|].
        cbn in He. subst r. specialize (P t _ Ht). cbn in P. destruct P. auto using ktype_app, kdata_app.
      * intros Hc He. destruct (Q u c e Hc He). auto using ktype_app, kdata_app.
  - intros s pcs tr t pc e u l k (T & D & P & Q) Ht C _. pose proof (hstep_of _ _ _ _ _ s C) as St. clear C e k. remember (u s) as s' eqn:Es. remember (l s) as l0 eqn:El. clear Es El u l.
    pose proof (P t pc Ht) as Pt. assert (Ts : known_type (tr ++ map (EStep t) l0) (fst s) /\ known_data (tr ++ map (EStep t) l0) (snd s)) by auto using ktype_app, kdata_app. destruct Ts as [Ts Ds].
    assert (Next : known_type (tr ++ map (EStep t) l0) (fst s') /\ known_data (tr ++ map (EStep t) l0) (snd s') /\ pc_words (tr ++ map (EStep t) l0) (hnext pc s)).
    { destruct St as [s|x s|es s|op e es s|op e es s]; cbn [hnext pc_words fst snd] in *; (split; [|split]); auto.
      - split; [now apply ktype_app|exact Ds].
      - destruct es as [|e es]; [exact Logic.I|]. cbn. intros y Hy. apply known_app. auto.
      - exists e. split; [apply known_app; apply Pt; now left|reflexivity].
      - intros y Hy. apply known_app. auto.
      - exists e. split; [apply known_app; apply Pt; now left|reflexivity].
      - destruct es as [|e' es]; [exact Logic.I|]. cbn. intros y Hy. apply known_app. apply Pt. now right. }
    destruct Next as (N1 & N2 & N3). split; [exact N1|]. split; [exact N2|]. split.
    + intros v pcv. pcase v t; [now intros [= <-]|]. intros Hv. apply words_app. eauto.
    + intros v c e. rewrite done_steps. intros Hc He. destruct (Q v c e Hc He). auto using ktype_app, kdata_app.
Qed.
