(** Proofs about Loops.v. *)
From Coq Require Import ZArith List String Bool Lia.
From Verif.Model Require Import GoInt GoFloat GoBase World Fmt Report Json Send Runtime Loops.
From Verif.Spec Require Import ApiSpec RegistrySpec WriteSpec ReadOnlySpec SendSpec HistorySpec.
From Verif.Proofs Require Import WorldBase WorldStep SendProofs ReportProgProofs HistoryProofs.
Import ListNotations.
Local Open Scope nat_scope.

Section Loop.
Variable mexp : f64 -> f64.
Notation history := (history mexp).
Definition holds (v : val) (s : proc) : Prop := In v (snd (p_state s)).
Lemma pstep_holds v s co : holds v s -> holds v (fst (pstep mexp s co)).
Proof.
  intros H. destruct (pstep_run mexp s co) as (q & Q). unfold holds in *. rewrite Q. apply In_nth_error in H. destruct H as (x & H). eapply nth_error_In. eapply run_env; eauto.
Qed.
Lemma prun_history h : forall s, history s -> history (prun mexp s h).
Proof. induction h as [|co h IH]; intros s H; [exact H|]. unfold prun. cbn [fold_left]. apply IH. eapply h_next; [exact H|apply e_call]. Qed.
Lemma prun_holds v h : forall s, holds v s -> holds v (prun mexp s h).
Proof. induction h as [|co h IH]; intros s H; [exact H|]. unfold prun. cbn [fold_left]. apply IH. now apply pstep_holds. Qed.

Section Turn.
Context {A B : Type}.
Variable turn : A -> orc -> proc -> proc * res B.
Variable v : val.
Definition steady : Prop := forall a o s, history s -> holds v s -> history (fst (turn a o s)) /\ holds v (fst (turn a o s)).
Hypothesis St : steady.
Notation loop := (loop mexp turn).
Notation outs x := (snd (fst x)).
(** the process before a cue *)
Fixpoint until (s : proc) (cues : list (cue A)) : proc := match cues with [] => s | c :: r => until (fst (turn (q_in c) (q_orc c) (prun mexp s (q_before c)))) r end.
Lemma until_history cues : forall s, history s -> holds v s -> history (until s cues) /\ holds v (until s cues).
Proof. induction cues as [|c cues IH]; intros s H V; [auto|]. cbn [until]. destruct (St (q_in c) (q_orc c) (prun mexp s (q_before c))) as (H1 & V1); [now apply prun_history|now apply prun_holds|]. now apply IH. Qed.
Lemma loop_at before : forall s c rest, List.length before <= List.length (outs (loop s (before ++ c :: rest))) ->
  match turn (q_in c) (q_orc c) (prun mexp (until s before) (q_before c)) with
  | (_, Ok b) => nth_error (outs (loop s (before ++ c :: rest))) (List.length before) = Some b
  | (_, Panic m) => List.length (outs (loop s (before ++ c :: rest))) = List.length before /\ snd (loop s (before ++ c :: rest)) = Some m
  end.
Proof.
  induction before as [|a before IH]; intros s c rest L; cbn [app until Loops.loop List.length] in *.
  - destruct (turn (q_in c) (q_orc c) (prun mexp s (q_before c))) as [s' [b|m]]; [destruct (loop s' rest) as [[? ?] ?]; reflexivity|auto].
  - destruct (turn (q_in a) (q_orc a) (prun mexp s (q_before a))) as [s' [b|m]]; cbn [fst]; [|cbn in L; lia]. specialize (IH s' c rest). destruct (loop s' (before ++ c :: rest)) as [[s2 l] e]. cbn [fst snd List.length nth_error] in *. specialize (IH ltac:(lia)).
    destruct (turn (q_in c) (q_orc c) (prun mexp (until s' before) (q_before c))) as [s3 [y|m]]; [exact IH|]. destruct IH; split; [lia|auto].
Qed.
Lemma loop_length cues : forall s, List.length (outs (loop s cues)) <= List.length cues /\ (List.length (outs (loop s cues)) = List.length cues <-> snd (loop s cues) = None).
Proof.
  induction cues as [|c cues IH]; intros s; cbn [Loops.loop List.length]; [cbn; split; [lia|tauto]|]. destruct (turn (q_in c) (q_orc c) (prun mexp s (q_before c))) as [s' [b|m]]; [|cbn; split; [lia|split; [lia|discriminate]]].
  destruct (IH s') as (I1 & I2). destruct (loop s' cues) as [[s2 l] e]. cbn [fst snd List.length] in *. split; [lia|]. rewrite <- I2. lia.
Qed.
Lemma loop_until before : forall s c rest, List.length before <= List.length (outs (loop s (before ++ c :: rest))) -> fst (fst (loop s before)) = until s before /\ snd (loop s before) = None.
Proof.
  induction before as [|a before IH]; intros s c rest L; cbn [app until Loops.loop List.length] in *; [auto|].
  destruct (turn (q_in a) (q_orc a) (prun mexp s (q_before a))) as [s' [b|m]]; cbn [fst]; [|cbn in L; lia]. specialize (IH s' c rest). destruct (loop s' (before ++ c :: rest)) as [[s2 l] e]. cbn [fst snd List.length] in *. specialize (IH ltac:(lia)).
  destruct (loop s' before) as [[s3 l3] e3]. exact IH.
Qed.
Lemma loop_next before : forall s c rest, List.length before <= List.length (outs (loop s (before ++ c :: rest))) ->
  fst (fst (loop s (before ++ [c]))) = fst (turn (q_in c) (q_orc c) (prun mexp (until s before) (q_before c))).
Proof.
  induction before as [|a before IH]; intros s c rest L; cbn [app until Loops.loop List.length] in *.
  - destruct (turn (q_in c) (q_orc c) (prun mexp s (q_before c))) as [s' [b|m]]; reflexivity.
  - destruct (turn (q_in a) (q_orc a) (prun mexp s (q_before a))) as [s' [b|m]]; cbn [fst]; [|cbn in L; lia]. specialize (IH s' c rest). destruct (loop s' (before ++ c :: rest)) as [[s2 l] e]. cbn [fst snd List.length] in *. specialize (IH ltac:(lia)).
    destruct (loop s' (before ++ [c])) as [[s3 l3] e3]. exact IH.
Qed.
(** at a cue that the loop reaches, a program of API calls that does not report is in the same
    state *)
Lemma loop_program s before c rest : history s -> holds v s -> List.length before <= List.length (outs (loop s (before ++ c :: rest))) ->
  let s1 := prun mexp (fst (fst (loop s before))) (q_before c) in
  (exists p f, same_up_to f (p_state s1) (run mexp state_init p)) /\ fst (fst (loop s (before ++ [c]))) = fst (turn (q_in c) (q_orc c) s1) /\
  match turn (q_in c) (q_orc c) s1 with
  | (_, Ok b) => nth_error (outs (loop s (before ++ c :: rest))) (List.length before) = Some b
  | (_, Panic m) => List.length (outs (loop s (before ++ c :: rest))) = List.length before /\ snd (loop s (before ++ c :: rest)) = Some m
  end.
Proof.
  intros H V L. destruct (until_history before s H V) as (H1 & V1). rewrite (proj1 (loop_until before s c rest L)). cbv zeta. split; [|split; [now apply (loop_next before s c rest)|now apply loop_at]]. apply history_program. now apply prun_history.
Qed.
End Turn.

(** ** the turns *)
Lemma steady_reported {A B} (turn : A -> orc -> proc -> proc * res B) v b : base v = Some b ->
  (forall a o s, exists runs w', fst (turn a o s) = set_world s w' /\ reported runs v o (fst (p_state s)) w') -> steady turn v.
Proof.
  intros Bv H a o s Hs V. destruct (H a o s) as (runs & w' & E & R). rewrite E. split; [|exact V]. eapply h_next; [exact Hs|]. exact (e_report mexp s runs v b o w' V Bv R).
Qed.
Lemma steady_or {A B} (turn : A -> orc -> proc -> proc * res B) v b : base v = Some b ->
  (forall a o s, fst (turn a o s) = set_world s (fst (p_state s)) \/ exists runs w', fst (turn a o s) = set_world s w' /\ reported runs v o (fst (p_state s)) w') -> steady turn v.
Proof.
  intros Bv H a o s Hs V. destruct (H a o s) as [E|(runs & w' & E & R)]; rewrite E.
  - split; [|exact V]. unfold set_world. rewrite <- surjective_pairing. destruct s; exact Hs.
  - split; [|exact V]. eapply h_next; [exact Hs|]. exact (e_report mexp s runs v b o w' V Bv R).
Qed.
End Loop.
