(** The places at which a program holds its values do not matter; every history is, up to these
    places, a program of API calls. *)
From Coq Require Import ZArith List String Bool Lia.
From Verif.Model Require Import GoInt GoFloat GoBase World Report Runtime.
From Verif.Spec Require Import ApiSpec RegistrySpec ReadOnlySpec HistorySpec.
From Verif.Proofs Require Import WorldBase WorldStep ReportProgProofs.
Import ListNotations.
Local Open Scope nat_scope.

Section Move.
Variable mexp : f64 -> f64.
Lemma ctor_move f e e' k : (forall x, nth_error e' (f x) = nth_error e x) -> ctor_of e' (move_new f k) = ctor_of e k.
Proof. intros H. destruct k; cbn [move_new ctor_of]; unfold arg; rewrite ?H; reflexivity. Qed.
Lemma has_move f k : has_new_registered (move_new f k) = has_new_registered k. Proof. destruct k; reflexivity. Qed.
Lemma regk_move f k : regk_new (move_reg f k) = move_new f (regk_new k). Proof. destruct k; reflexivity. Qed.
Lemma regx_move f k c nm v : get_or_register_x mexp (move_reg f k) c nm v = get_or_register_x mexp k c nm v. Proof. destruct k; reflexivity. Qed.
Lemma reg_arg_move f e e' r : (forall x, nth_error e' (f x) = nth_error e x) -> reg_arg e' (option_map f r) = reg_arg e r.
Proof. intros H. destruct r as [x|]; cbn [option_map reg_arg]; [|reflexivity]. unfold arg. now rewrite H. Qed.
Lemma call_move f e e' c : (forall x, nth_error e' (f x) = nth_error e x) -> call mexp e' (move f c) = call mexp e c.
Proof.
  intros H. destruct c; cbn [move call]; unfold arg; rewrite ?has_move, ?regk_move, ?H; rewrite ?(ctor_move f e e') by exact H; rewrite ?(reg_arg_move f e e') by exact H; try reflexivity.
  destruct (ctor_of e (regk_new k)); [|reflexivity]. cbn [obind]. destruct (reg_arg e r); [|reflexivity]. cbn [obind]. now rewrite regx_move.
Qed.
(** a call in two states that differ in the places: the answer is the same, and so is the state *)
Lemma step_move f st st' c o : same_up_to f st st' -> snd (step mexp st' (move f c, o)) = snd (step mexp st (c, o)).
Proof. intros (W & E). unfold step. cbn [fst snd]. rewrite (call_move f (snd st) (snd st') c E), W. destruct (call mexp (snd st) c) as [m|]; [|reflexivity]. destruct (m o (fst st)) as [w [a|msg]]; reflexivity. Qed.
(** a map for a longer list of values; places where there is none stay places where there is none *)
Definition longer (f : nat -> nat) (n n' : nat) (x : nat) : nat := if x <? n then f x else n' + (x - n).
Lemma longer_ok f (e e' l : list val) : (forall x, nth_error e' (f x) = nth_error e x) ->
  forall x, nth_error (e' ++ l) (longer f (List.length e) (List.length e') x) = nth_error (e ++ l) x.
Proof.
  intros H x. unfold longer. destruct (Nat.ltb_spec x (List.length e)) as [L|L].
  - rewrite (nth_error_app1 e l) by exact L. rewrite <- H. apply nth_error_app1. apply nth_error_Some. rewrite H. apply nth_error_Some. exact L.
  - rewrite (nth_error_app2 e l) by exact L. rewrite nth_error_app2 by lia. f_equal. lia.
Qed.
Lemma step_same f st st' c o : same_up_to f st st' -> exists g, same_up_to g (fst (step mexp st (c, o))) (fst (step mexp st' (move f c, o))).
Proof.
  intros (W & E). unfold step. cbn [fst snd]. rewrite (call_move f (snd st) (snd st') c E), W. destruct (call mexp (snd st) c) as [m|]; [|exists f; split; auto].
  destruct (m o (fst st)) as [w [a|msg]]; cbn [fst]; [|exists f; split; auto]. exists (longer f (List.length (snd st)) (List.length (snd st'))). split; [reflexivity|]. cbn [snd]. now apply longer_ok.
Qed.
(** values that only one of them holds *)
Lemma more_same f st st' more : same_up_to f st st' -> exists g, same_up_to g st (fst st', snd st' ++ more)%list.
Proof.
  intros (W & E). exists (fun x => if x <? List.length (snd st) then f x else List.length (snd st' ++ more)%list). split; [exact W|]. cbn [snd]. intros x. destruct (Nat.ltb_spec x (List.length (snd st))) as [L|L].
  - rewrite <- E. apply nth_error_app1. apply nth_error_Some. rewrite E. now apply nth_error_Some.
  - rewrite (proj2 (nth_error_None (snd st) x) L). apply nth_error_None. lia.
Qed.
Lemma run_same cs : forall f st st', same_up_to f st st' -> exists q g, same_up_to g (run mexp st cs) (run mexp st' q).
Proof.
  induction cs as [|[c o] cs IH]; intros f st st' H; [exists [], f; exact H|]. destruct (step_same f st st' c o H) as (g & G). destruct (IH g _ _ G) as (q & g' & G'). exists ((move f c, o) :: q), g'. exact G'.
Qed.
Lemma exec_run cs : forall st os, exists q, fst (exec mexp st cs os) = run mexp st q.
Proof.
  induction cs as [|c cs IH]; intros st os; [exists []; reflexivity|]. cbn [exec]. destruct (step mexp st (c, os 0)) as [st1 r] eqn:E. destruct r as [[a|m]|].
  - destruct (IH st1 (fun n => os (S n))) as (q & Q). exists ((c, os 0) :: q). cbn [run fold_left]. unfold run. cbn [fold_left]. rewrite E. exact Q.
  - exists [(c, os 0)]. unfold run. cbn [fold_left]. now rewrite E.
  - destruct (IH st1 (fun n => os (S n))) as (q & Q). exists ((c, os 0) :: q). unfold run. cbn [fold_left]. rewrite E. exact Q.
Qed.
Lemma register_run st cr names r os : exists q, fst (fst (register_all mexp st cr names r os)) = run mexp st q.
Proof.
  unfold register_all. destruct (creation (List.length (snd st)) cr) as [cs tab]. destruct (exec_run cs st os) as (q & Q). destruct (exec mexp st cs os) as [st1 [m|]]; cbn [fst] in Q; [exists q; exact Q|]. destruct r as [x|]; [|exists q; exact Q].
  destruct (exec_run (registration x tab names) st1 (fun n => os (n + List.length cs))) as (q2 & Q2). destruct (exec mexp st1 (registration x tab names) (fun n => os (n + List.length cs))) as [st2 m]. cbn [fst] in *. exists (q ++ q2)%list. rewrite run_app, <- Q. exact Q2.
Qed.
Lemma pstep_run s co : exists q, p_state (fst (pstep mexp s co)) = run mexp (p_state s) q.
Proof.
  destruct co as [c os]. unfold pstep. cbn [fst snd]. destruct c.
  - exists [(c, os 0)]. unfold run. cbn [fold_left]. destruct (step mexp (p_state s) (c, os 0)). reflexivity.
  - destruct (negb _); [exists []; reflexivity|]. destruct (rt_done s); [exists []; reflexivity|]. destruct (register_run (p_state s) rt_create rt_register r os) as (q & Q). destruct (register_all _ _ _ _ _ _) as [[st tab] m]. exists q. exact Q.
  - destruct (negb _); [exists []; reflexivity|]. destruct (rt_tab s); [exists []; reflexivity|]. match goal with |- context [exec mexp ?st ?cs ?os] => destruct (exec_run cs st os) as (q & Q); destruct (exec mexp st cs os) as [st1 m] end. exists q. destruct m; exact Q.
  - destruct (negb _); [exists []; reflexivity|]. destruct (dbg_done s); [exists []; reflexivity|]. destruct (register_run (p_state s) dbg_create dbg_register r os) as (q & Q). destruct (register_all _ _ _ _ _ _) as [[st tab] m]. exists q. exact Q.
  - destruct (negb _); [exists []; reflexivity|]. destruct (dbg_tab s); [exists []; reflexivity|]. match goal with |- context [exec mexp ?st ?cs ?os] => destruct (exec_run cs st os) as (q & Q); destruct (exec mexp st cs os) as [st1 m] end. exists q. destruct m; exact Q.
Qed.

(** ** histories *)
Lemma history_program s : history mexp s -> exists p f, same_up_to f (p_state s) (run mexp state_init p).
Proof.
  induction 1 as [|s s' H (p & f & (W & E)) Hs]; [exists [], (fun x => x); split; auto|]. set (st := run mexp state_init p) in *.
  destruct Hs as [s co|s runs v b o w' Hv B R].
  - destruct (pstep_run s co) as (q & ->). destruct (run_same q f (p_state s) st (conj W E)) as (q' & g & G). exists (p ++ q')%list, g. now rewrite run_app.
  - assert (Iv : inv st) by (apply inv_run, inv_init). assert (Hv' : In v (snd st)). { apply In_nth_error in Hv. destruct Hv as (x & Hx). rewrite <- E in Hx. eapply nth_error_In; eauto. }
    rewrite <- W in R. destruct (reported_moves mexp runs v b o st w' Iv Hv' B R) as (q & _ & Q & more & G). cbn [p_state with_state].
    destruct (more_same f (w', snd (p_state s)) (w', snd st) more) as (g & G'); [split; [reflexivity|exact E]|]. exists (p ++ q)%list, g. rewrite run_app. fold st. rewrite (surjective_pairing (run mexp st q)), Q, G. exact G'.
Qed.
End Move.
