(** Linearizability of methods given as program points, each of which says whether the
    call has taken effect yet. *)
From Coq Require Import List Arith Lia.
From Verif.Model Require Import Conc.
From Verif.Spec Require Import Linearizability Traces.
From Verif.Proofs Require Import LinProofs PcProofs.
Import ListNotations.

Section PcLin.
Context {S L Op R PC Q : Type}.
Variable body : Op -> code S L R.
Variable s0 : S.
Variable code_of : PC -> code S L R.
Variable entry : Op -> PC.
Variable next : PC -> S -> PC.
Hypothesis entry_ok : forall op, body op = code_of (entry op).
Hypothesis next_ok : forall pc e u l k s, code_of pc = Atom e u l k -> e s = true -> k s = code_of (next pc s).
Variable sapply : Q -> Op -> Q * R.
Variable okop : Op -> Prop.
Variable stat : PC -> @tstat Op R.
Variable Inv : S -> (nat -> option PC) -> Q -> Prop.
Variable q0 : Q.
Hypothesis Inv0 : Inv s0 (fun _ => None) q0.
Hypothesis stat_entry : forall op, okop op -> stat (entry op) = TPending op.
Hypothesis stat_ret : forall pc r, code_of pc = Ret r -> stat pc = TDone r.
Hypothesis Inv_call : forall s pcs q t op, okop op -> Inv s pcs q -> pcs t = None -> Inv s (pupd pcs t (Some (entry op))) q.
Hypothesis Inv_ret : forall s pcs q t pc r, Inv s pcs q -> pcs t = Some pc -> code_of pc = Ret r -> Inv s (pupd pcs t None) q.
Hypothesis Inv_step : forall s pcs q t pc e u l k, Inv s pcs q -> pcs t = Some pc -> code_of pc = Atom e u l k -> e s = true ->
  (Inv (u s) (pupd pcs t (Some (next pc s))) q /\ stat (next pc s) = stat pc) \/
  (exists op r q', stat pc = TPending op /\ stat (next pc s) = TDone r /\ sapply q op = (q', r) /\ Inv (u s) (pupd pcs t (Some (next pc s))) q').

Definition tstat_of (o : option PC) : @tstat Op R := match o with None => TIdle | Some pc => stat pc end.
Definition lininv (s : S) (pcs : nat -> option PC) (tr : list (event L Op R)) : Prop :=
  Forall okop (calls tr) -> exists l f q, erase l = history tr /\ valid sapply q0 (fun _ => TIdle) l q f /\ Inv s pcs q /\ forall t, f t = tstat_of (pcs t).

Lemma tstat_upd (f : nat -> @tstat Op R) pcs t x y : (forall t, f t = tstat_of (pcs t)) -> y = tstat_of x -> forall u, tupd f t y u = tstat_of (pupd pcs t x u).
Proof. intros H -> u. unfold tupd, pupd. destruct (Nat.eqb u t); auto. Qed.
Lemma tstat_keep (f : nat -> @tstat Op R) pcs t x : (forall t, f t = tstat_of (pcs t)) -> tstat_of x = tstat_of (pcs t) -> forall u, f u = tstat_of (pupd pcs t x u).
Proof. intros H E u. unfold pupd. destruct (Nat.eqb_spec u t) as [->|]; auto. rewrite E. auto. Qed.

Lemma lin_induction sched : pc_inv code_of lininv (fst (cexec body s0 sched)) (snd (cexec body s0 sched)).
Proof.
  apply (pc_induction body s0 code_of entry next entry_ok next_ok lininv).
  - intros _. exists [], (fun _ => TIdle), q0. split; [reflexivity|]. split; [constructor|]. split; auto.
  - intros s pcs tr t op H N Hc. rewrite calls_app in Hc. apply Forall_app in Hc. destruct Hc as [Hc Ho]. cbn in Ho. inversion Ho; subst. destruct (H Hc) as (l & f & q & E & V & I & F).
    exists (l ++ [XInv t op]), (tupd f t (TPending op)), q. rewrite erase_app, history_app, E. split; [reflexivity|]. split; [apply valid_inv; auto; rewrite F, N; reflexivity|]. split; auto.
    apply tstat_upd; auto. cbn. now rewrite stat_entry.
  - intros s pcs tr t pc r H N C Hc. rewrite calls_app in Hc. cbn in Hc. rewrite app_nil_r in Hc. destruct (H Hc) as (l & f & q & E & V & I & F).
    exists (l ++ [XRes t r]), (tupd f t TIdle), q. rewrite erase_app, history_app, E. split; [reflexivity|]. split; [apply valid_res; auto; rewrite F, N; cbn; auto|]. split; [eapply Inv_ret; eauto|].
    apply tstat_upd; auto.
  - intros s pcs tr t pc e u l k H N C En Hc. rewrite calls_app, calls_steps, app_nil_r in Hc. destruct (H Hc) as (lx & f & q & E & V & I & F).
    destruct (Inv_step s pcs q t pc e u l k I N C En) as [[I' S']|(op & r & q' & S1 & S2 & A & I')].
    + exists lx, f, q. rewrite history_app, history_steps, app_nil_r. split; auto. split; auto. split; auto. apply tstat_keep; auto. rewrite N. exact S'.
    + exists (lx ++ [XLin t]), (tupd f t (TDone r)), q'. rewrite erase_app, history_app, history_steps, E. split; [reflexivity|]. split; [eapply valid_lin; eauto; rewrite F, N; exact S1|]. split; auto.
      apply tstat_upd; auto.
Qed.
Lemma pc_linearizable sched : Forall okop (calls (snd (cexec body s0 sched))) -> linearizable sapply q0 (history (snd (cexec body s0 sched))).
Proof. intros H. destruct (lin_induction sched) as (pcs & _ & I). destruct (I H) as (l & f & q & E & V & _). exists l, q, f. auto. Qed.
End PcLin.
