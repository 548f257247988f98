(** Facts about call logs. *)
From Coq Require Import List Arith Lia.
From Verif.Model Require Import Conc.
From Verif.Spec Require Import Traces.
From Verif.Proofs Require Import LinProofs PcProofs.
Import ListNotations.

Section Log.
Context {L Op R : Type}.
Implicit Types tr a b : list (event L Op R).

Lemma call_log_snoc t tr e : call_log t (tr ++ [e]) = log_step t (call_log t tr) e.
Proof. unfold call_log. now rewrite fold_left_app. Qed.
Lemma done_inv t tr u op : done_calls u (tr ++ [EInv t op]) = done_calls u tr.
Proof. unfold done_calls. rewrite call_log_snoc. cbn. now destruct (Nat.eqb t u). Qed.
Lemma open_inv t tr u op : open_call u (tr ++ [EInv t op]) = if Nat.eqb t u then Some (op, []) else open_call u tr.
Proof. unfold open_call. rewrite call_log_snoc. cbn. now destruct (Nat.eqb t u). Qed.
Lemma done_steps t tr u (ls : list L) : done_calls u (tr ++ map (EStep t) ls) = done_calls u tr.
Proof.
  induction ls as [|l ls IH] using rev_ind; [now rewrite app_nil_r|]. rewrite map_app, app_assoc. cbn [map].
  unfold done_calls in *. rewrite call_log_snoc. cbn. destruct (Nat.eqb t u); exact IH.
Qed.
Lemma open_steps t tr u (ls : list L) : open_call u (tr ++ map (EStep t) ls) =
  if Nat.eqb t u then match open_call u tr with Some (op, l0) => Some (op, l0 ++ ls) | None => None end else open_call u tr.
Proof.
  induction ls as [|l ls IH] using rev_ind.
  - rewrite app_nil_r. destruct (Nat.eqb t u); [|reflexivity]. destruct (open_call u tr) as [[op l0]|]; [|reflexivity]. now rewrite app_nil_r.
  - rewrite map_app, app_assoc. cbn [map]. unfold open_call in *. rewrite call_log_snoc. cbn. destruct (Nat.eqb t u); [|exact IH].
    cbn [snd]. rewrite IH. destruct (snd (call_log u tr)) as [[op l0]|]; [|reflexivity]. now rewrite app_assoc.
Qed.
Lemma done_res t tr u r : done_calls u (tr ++ [ERes t r]) =
  if Nat.eqb t u then match open_call u tr with Some (op, ls) => done_calls u tr ++ [MkCall op ls r] | None => done_calls u tr end
  else done_calls u tr.
Proof.
  unfold done_calls, open_call. rewrite call_log_snoc. cbn. destruct (Nat.eqb t u); [|reflexivity].
  destruct (snd (call_log u tr)) as [[op ls]|]; reflexivity.
Qed.
Lemma open_res t tr u r : open_call u (tr ++ [ERes t r]) = if Nat.eqb t u then None else open_call u tr.
Proof.
  unfold open_call. rewrite call_log_snoc. cbn. destruct (Nat.eqb t u); [|reflexivity].
  destruct (snd (call_log u tr)) as [[op ls]|] eqn:E; [reflexivity|exact E].
Qed.

Lemma done_mono t a b c : In c (done_calls t a) -> In c (done_calls t (a ++ b)).
Proof.
  intro H. induction b as [|e b IH] using rev_ind; [now rewrite app_nil_r|]. rewrite app_assoc.
  destruct e as [u op|u l|u r].
  - now rewrite done_inv.
  - change [EStep u l] with (map (@EStep L Op R u) [l]). now rewrite done_steps.
  - rewrite done_res. destruct (Nat.eqb u t); [|exact IH]. destruct (open_call t (a ++ b)) as [[op ls]|]; [|exact IH].
    apply in_or_app. now left.
Qed.
Lemma returned_mono op a b : returned op a -> returned op (a ++ b).
Proof. intros (t & c & H & E). exists t, c. split; [now apply done_mono|exact E]. Qed.
Lemma returned_nil (op : Op) : ~ returned op ([] : list (event L Op R)).
Proof. intros (t & c & [] & _). Qed.

(** splits of a trace that grew *)
Lemma split_snoc {A} (tr pre post : list A) e : tr ++ [e] = pre ++ post ->
  (post = [] /\ pre = tr ++ [e]) \/ exists post', post = post' ++ [e] /\ tr = pre ++ post'.
Proof.
  destruct post as [|x post _] using rev_ind; intro H.
  - left. rewrite app_nil_r in H. auto.
  - right. exists post. rewrite app_assoc in H. apply app_inj_tail in H. destruct H as [-> ->]. auto.
Qed.
Lemma split_app {A} (tr es pre post : list A) : tr ++ es = pre ++ post ->
  (exists es1 es2, es = es1 ++ es2 /\ pre = tr ++ es1 /\ post = es2) \/
  (exists post', post = post' ++ es /\ tr = pre ++ post').
Proof.
  revert pre. induction tr as [|x tr IH]; intros pre H; cbn in H.
  - left. exists pre, post. auto.
  - destruct pre as [|y pre]; cbn in H.
    + right. exists (x :: tr). split; [now rewrite <- H|reflexivity].
    + injection H as <- H. destruct (IH pre H) as [(e1 & e2 & -> & -> & ->)|(p & -> & ->)].
      * left. exists e1, e2. auto.
      * right. exists p. auto.
Qed.

Lemma open_steps_nil t u (ls : list L) : open_call u (map (@EStep L Op R t) ls) = None.
Proof. rewrite <- (app_nil_l (map _ _)), open_steps. now destruct (Nat.eqb t u). Qed.
Lemma done_steps_nil t u (ls : list L) : done_calls u (map (@EStep L Op R t) ls) = [].
Proof. now rewrite <- (app_nil_l (map _ _)), done_steps. Qed.
Lemma map_split (t : nat) (ls : list L) e1 e2 : map (@EStep L Op R t) ls = e1 ++ e2 -> exists l1 l2, ls = l1 ++ l2 /\ e1 = map (EStep t) l1 /\ e2 = map (EStep t) l2.
Proof. intro H. apply map_eq_app in H. destruct H as (l1 & l2 & -> & <- & <-). eauto. Qed.
End Log.

(** a property of every action given those before it *)
Section Along.
Context {A : Type}.
Variable Q : list A -> A -> Prop.
Definition along (ls : list A) : Prop := forall pre l post, ls = pre ++ l :: post -> Q pre l.
Lemma along_nil : along [].
Proof. intros pre l post H. destruct pre; discriminate H. Qed.
Lemma along_snoc ls l : along ls -> Q ls l -> along (ls ++ [l]).
Proof.
  intros H Hq pre x post E. change (x :: post) with ([x] ++ post) in E. rewrite app_assoc in E.
  apply split_snoc in E. destruct E as [[-> E]|(p & -> & ->)].
  - apply app_inj_tail in E. now destruct E as [<- <-].
  - rewrite <- app_assoc in H. now apply (H pre x p).
Qed.
Lemma along_two ls l m : along ls -> Q ls l -> Q (ls ++ [l]) m -> along (ls ++ [l; m]).
Proof.
  intros H H1 H2. change [l; m] with ([l] ++ [m]). rewrite app_assoc. now apply along_snoc; [apply along_snoc|].
Qed.
End Along.
