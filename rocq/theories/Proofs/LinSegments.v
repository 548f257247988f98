(** Segments of linearized histories. *)
From Coq Require Import List Arith Bool Lia.
From Verif.Model Require Import Conc.
From Verif.Spec Require Import Linearizability Traces.
From Verif.Proofs Require Import LinProofs LogFacts.
Import ListNotations.

Lemma erase_split {Op R} (l : list (xevent Op R)) : forall a b, erase l = a ++ b -> exists l1 l2, l = l1 ++ l2 /\ erase l1 = a /\ erase l2 = b.
Proof.
  induction l as [|e l IH]; intros a b H.
  - cbn in H. symmetry in H. apply app_eq_nil in H. destruct H; subst. exists [], []. auto.
  - assert (X : forall h, erase [e] = [h] -> exists l1 l2, e :: l = l1 ++ l2 /\ erase l1 = a /\ erase l2 = b).
    { intros h Eh. change (e :: l) with ([e] ++ l) in H. rewrite erase_app, Eh in H. destruct a as [|x a].
      - cbn in H. subst b. exists [], (e :: l). split; auto. split; auto. change (e :: l) with ([e] ++ l). now rewrite erase_app, Eh.
      - cbn in H. injection H as <- H. destruct (IH a b H) as (l1 & l2 & -> & E1 & E2). exists (e :: l1), l2. split; auto. split; auto. change (e :: l1) with ([e] ++ l1). now rewrite erase_app, Eh, E1. }
    destruct e as [t op|t|t r]; [now eapply X| |now eapply X].
    destruct (IH a b H) as (l1 & l2 & -> & E1 & E2). exists (XLin t :: l1), l2. auto.
Qed.
Lemma valid_split {Q Op R} (ap : Q -> Op -> Q * R) l2 : forall q f l1 q' f', valid ap q f (l1 ++ l2) q' f' ->
  exists q1 f1, valid ap q f l1 q1 f1 /\ valid ap q1 f1 l2 q' f'.
Proof.
  induction l2 as [|e l2 IH] using rev_ind; intros q f l1 q' f' H.
  - rewrite app_nil_r in H. exists q', f'. split; auto. constructor.
  - rewrite app_assoc in H. remember ((l1 ++ l2) ++ [e]) as lx eqn:El. destruct H as [q f|q f l q' f' t op V F|q f l q' f' t op q'' r V F A|q f l q' f' t r V F].
    + destruct (l1 ++ l2); easy.
    + apply app_inj_tail in El. destruct El; subst. destruct (IH _ _ _ _ _ V) as (q1 & f1 & V1 & V2). exists q1, f1. split; auto. now constructor.
    + apply app_inj_tail in El. destruct El; subst. destruct (IH _ _ _ _ _ V) as (q1 & f1 & V1 & V2). exists q1, f1. split; auto. econstructor; eauto.
    + apply app_inj_tail in El. destruct El; subst. destruct (IH _ _ _ _ _ V) as (q1 & f1 & V1 & V2). exists q1, f1. split; auto. now constructor.
Qed.

(** the calls of one goroutine in a history *)
Definition hlog_step {Op R} (t : nat) (acc : list (Op * R) * option Op) (e : hevent Op R) :=
  match e with
  | HInv u op => if Nat.eqb u t then (fst acc, Some op) else acc
  | HRes u r => if Nat.eqb u t then match snd acc with Some op => (fst acc ++ [(op, r)], None) | None => acc end else acc
  end.
Definition hlog {Op R} (t : nat) (h : list (hevent Op R)) := fold_left (hlog_step t) h ([], None).
Lemma hlog_snoc {Op R} t (h : list (hevent Op R)) e : hlog t (h ++ [e]) = hlog_step t (hlog t h) e.
Proof. unfold hlog. now rewrite fold_left_app. Qed.
Lemma hlog_trace {L Op R} t (tr : list (event L Op R)) :
  hlog t (history tr) = (map (fun c => (c_op c, c_ret c)) (done_calls t tr), option_map fst (open_call t tr)).
Proof.
  unfold done_calls, open_call. induction tr as [|e tr IH] using rev_ind; [reflexivity|].
  rewrite history_app, call_log_snoc. destruct e as [u op|u l|u r].
  - change (history [EInv u op]) with [@HInv Op R u op]. rewrite hlog_snoc, IH. cbn [hlog_step log_step fst snd]. destruct (Nat.eqb u t); reflexivity.
  - cbn [history flat_map app]. rewrite app_nil_r, IH. cbn [log_step]. destruct (Nat.eqb u t); [|reflexivity]. cbn [fst snd]. destruct (snd (call_log t tr)) as [[? ?]|]; reflexivity.
  - change (history [ERes u r]) with [@HRes Op R u r]. rewrite hlog_snoc, IH. cbn [hlog_step log_step fst snd]. destruct (call_log t tr) as [d [[o ls]|]]; destruct (Nat.eqb u t); cbn; auto. now rewrite map_app.
Qed.

Section Seg.
Context {Q Op R : Type}.
Variable ap : Q -> Op -> Q * R.
Variable bad : Op -> Prop.                    (* calls that do not occur in the segment *)
Variable good : Q -> Op -> R -> Prop.         (* what every answer satisfies ... *)
Hypothesis good_now : forall q op q' r, ~ bad op -> ap q op = (q', r) -> good q' op r.
Hypothesis good_stays : forall q op q' r op' r', ~ bad op -> ap q op = (q', r) -> good q op' r' -> good q' op' r'.

Lemma pending_open q0 l q f : valid ap q0 (fun _ => TIdle) l q f ->
  forall t, match f t with TIdle => snd (hlog t (erase l)) = None | TPending op => snd (hlog t (erase l)) = Some op | TDone _ => True end.
Proof.
  remember (fun _ : nat => @TIdle Op R) as f0 eqn:Ef. induction 1 as [|? ? l ? f t op V IH F|? ? l ? f t op ? r V IH F A|? ? l ? f t r V IH F]; intros u; subst.
  - reflexivity.
  - rewrite erase_app. change (erase [XInv t op]) with [@HInv Op R t op]. rewrite hlog_snoc. cbn [hlog_step]. unfold tupd. rewrite Nat.eqb_sym. destruct (Nat.eqb_spec t u) as [<-|N]; [reflexivity|]. apply (IH eq_refl u).
  - rewrite erase_app. cbn [erase flat_map app]. rewrite app_nil_r. unfold tupd. destruct (Nat.eqb u t); auto. apply (IH eq_refl u).
  - rewrite erase_app. change (erase [XRes t r]) with [@HRes Op R t r]. rewrite hlog_snoc. cbn [hlog_step]. unfold tupd. rewrite Nat.eqb_sym. destruct (Nat.eqb_spec t u) as [<-|N]; [|apply (IH eq_refl u)].
    destruct (snd (hlog t (erase l))) eqn:E; [reflexivity|exact E].
Qed.

Lemma segment q1 f1 l q f : valid ap q1 f1 l q f -> (forall t op, f1 t = TPending op -> ~ bad op) -> (forall t op, In (HInv t op) (erase l) -> ~ bad op) ->
  (forall t op, f t = TPending op -> ~ bad op) /\
  (forall t op, snd (hlog t (erase l)) = Some op -> f t = TPending op \/ exists r, f t = TDone r /\ good q op r) /\
  (forall t op r, In (op, r) (fst (hlog t (erase l))) -> good q op r).
Proof.
  intros V H1. induction V as [q f|q f l q' f' t op V IH F|q f l q' f' t op q'' r V IH F A|q f l q' f' t r V IH F]; intros H2.
  - split; auto. split; intros; easy.
  - rewrite erase_app in *. change (erase [XInv t op]) with [@HInv Op R t op] in *.
    destruct (IH H1 (fun u o Hin => H2 u o ltac:(apply in_app_iff; now left))) as (A1 & A2 & A3). split; [|split].
    + intros u o. unfold tupd. destruct (Nat.eqb u t); [|apply A1]. intros E. injection E as <-. apply (H2 t). apply in_app_iff. right. now left.
    + intros u o. rewrite hlog_snoc. cbn [hlog_step]. unfold tupd. rewrite Nat.eqb_sym. destruct (Nat.eqb_spec u t) as [->|N]; [|apply A2]. cbn. intros E. injection E as <-. now left.
    + intros u o r. rewrite hlog_snoc. cbn [hlog_step]. destruct (Nat.eqb t u); cbn; apply A3.
  - rewrite erase_app in *. cbn [erase flat_map app] in *. rewrite app_nil_r in *. destruct (IH H1 H2) as (A1 & A2 & A3). pose proof (A1 t op F) as Nb. split; [|split].
    + intros u o. unfold tupd. destruct (Nat.eqb u t); [discriminate|apply A1].
    + intros u o Ho. unfold tupd. destruct (Nat.eqb_spec u t) as [->|N].
      * right. exists r. split; auto. destruct (A2 t o Ho) as [E|(r0 & E & _)]; rewrite F in E; [injection E as <-|discriminate]. eapply good_now; eauto.
      * destruct (A2 u o Ho) as [E|(r0 & E & G)]; [now left|]. right. exists r0. split; auto. eapply good_stays; eauto.
    + intros u o r0 Hin. eapply good_stays; eauto.
  - rewrite erase_app in *. change (erase [XRes t r]) with [@HRes Op R t r] in *.
    destruct (IH H1 (fun u o Hin => H2 u o ltac:(apply in_app_iff; now left))) as (A1 & A2 & A3). split; [|split].
    + intros u o. unfold tupd. destruct (Nat.eqb u t); [discriminate|apply A1].
    + intros u o. rewrite hlog_snoc. cbn [hlog_step]. unfold tupd. rewrite Nat.eqb_sym. destruct (Nat.eqb_spec u t) as [->|N]; [|apply A2].
      destruct (snd (hlog t (erase l))) eqn:E; cbn; [discriminate|]. rewrite E. discriminate.
    + intros u o r0. rewrite hlog_snoc. cbn [hlog_step]. destruct (Nat.eqb_spec t u) as [<-|N]; [|apply A3].
      destruct (snd (hlog t (erase l))) as [o1|] eqn:E; cbn; [|apply A3]. intros Hin. apply in_app_iff in Hin. destruct Hin as [Hin|[Hin|[]]]; [now apply A3 in Hin|].
      injection Hin as <- <-. destruct (A2 t o1 E) as [X|(r1 & X & G)]; rewrite F in X; [discriminate|]. now injection X as <-.
Qed.

(** every call that begins and ends within the middle of a linearizable history *)
Lemma middle_calls {L} q0 (tr1 tr2 tr3 : list (event L Op R)) : linearizable ap q0 (history (tr1 ++ tr2 ++ tr3)) ->
  (forall t op ls, open_call t tr1 = Some (op, ls) -> ~ bad op) -> (forall t op, In (EInv t op) tr2 -> ~ bad op) ->
  exists q, forall t c, In c (done_calls t tr2) -> good q (c_op c) (c_ret c).
Proof.
  intros (l & q & f & El & V) Ho Hi. rewrite !history_app in El.
  destruct (erase_split l _ _ El) as (l1 & l23 & -> & E1 & E23). destruct (erase_split l23 _ _ E23) as (l2 & l3 & -> & E2 & E3).
  destruct (valid_split ap _ _ _ _ _ _ V) as (q1 & f1 & V1 & V23). destruct (valid_split ap _ _ _ _ _ _ V23) as (q2 & f2 & V2 & _).
  exists q2. pose proof (pending_open q0 l1 q1 f1 V1) as P.
  destruct (segment q1 f1 l2 q2 f2 V2) as (_ & _ & A3).
  - intros t op F. specialize (P t). rewrite F in P. rewrite E1, hlog_trace in P. cbn in P. destruct (open_call t tr1) as [[o ls]|] eqn:Eo; [|discriminate]. cbn in P. injection P as ->. eauto.
  - intros t op. rewrite E2. unfold history. intros Hin. apply in_flat_map in Hin. destruct Hin as (e & Hin & He). destruct e as [u o|u x|u r]; cbn in He; [|easy|]; destruct He as [X|[]]; [|discriminate]. injection X as -> ->. eauto.
  - intros t c Hc. apply (A3 t). rewrite E2, hlog_trace. cbn. apply in_map_iff. exists c. auto.
Qed.
End Seg.
