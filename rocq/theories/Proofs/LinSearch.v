(** Refuting linearizability by computing every configuration that a linearization of a history
    can be in after each of its events. *)
From Coq Require Import List Arith Bool Lia.
From Verif.Spec Require Import Linearizability.
From Verif.Proofs Require Import LinProofs.
Import ListNotations.

Section Search.
Context {Q Op R : Type}.
Variable apply : Q -> Op -> Q * R.
Variable eqQ : Q -> Q -> bool.
Variable eqOp : Op -> Op -> bool.
Variable eqR : R -> R -> bool.
Hypothesis eqQ_ok : forall a b, eqQ a b = true -> a = b.
Hypothesis eqOp_ok : forall a b, eqOp a b = true -> a = b.
Hypothesis eqR_ok : forall a b, eqR a b = true -> a = b.
Hypothesis eqR_refl : forall a, eqR a a = true.
(** the goroutines are 0..n-1 *)
Variable n : nat.

Notation stats := (list (@tstat Op R)).
Definition conf : Type := Q * stats.
Definition stat_at (l : stats) (t : nat) : @tstat Op R := nth t l TIdle.
Fixpoint set_at (l : stats) (t : nat) (x : @tstat Op R) : stats :=
  match l, t with
  | [], _ => []
  | _ :: r, O => x :: r
  | y :: r, S k => y :: set_at r k x
  end.
Lemma set_length l t x : length (set_at l t x) = length l.
Proof. revert t. induction l as [|y l IH]; intros [|t]; cbn; auto. Qed.
Lemma set_stat l t x u : t < length l -> stat_at (set_at l t x) u = if Nat.eqb u t then x else stat_at l u.
Proof.
  unfold stat_at. revert t u. induction l as [|y l IH]; intros [|t] [|u] H; cbn in *; try lia; auto. now apply IH; lia.
Qed.

Definition lins (c : conf) : list conf :=
  flat_map (fun t => match stat_at (snd c) t with
                     | TPending op => let (q, r) := apply (fst c) op in [(q, set_at (snd c) t (TDone r))]
                     | _ => [] end) (seq 0 n).
Definition after_event (e : hevent Op R) (c : conf) : list conf :=
  match e with
  | HInv t op => match stat_at (snd c) t with TIdle => [(fst c, set_at (snd c) t (TPending op))] | _ => [] end
  | HRes t r => match stat_at (snd c) t with TDone r' => if eqR r r' then [(fst c, set_at (snd c) t TIdle)] else [] | _ => [] end
  end.

Definition eq_stat (a b : @tstat Op R) : bool :=
  match a, b with TIdle, TIdle => true | TPending x, TPending y => eqOp x y | TDone x, TDone y => eqR x y | _, _ => false end.
Fixpoint eq_stats (a b : stats) : bool :=
  match a, b with [], [] => true | x :: a', y :: b' => eq_stat x y && eq_stats a' b' | _, _ => false end.
Definition eq_conf (a b : conf) : bool := eqQ (fst a) (fst b) && eq_stats (snd a) (snd b).
Definition member (c : conf) (l : list conf) : bool := existsb (eq_conf c) l.
Lemma eq_stats_ok a : forall b, eq_stats a b = true -> a = b.
Proof.
  induction a as [|x a IH]; intros [|y b] H; try discriminate H; [reflexivity|]. cbn in H. apply andb_prop in H. destruct H as [H1 H2]. f_equal; [|auto].
  destruct x, y; try discriminate H1; [reflexivity|f_equal; auto|f_equal; auto].
Qed.
Lemma member_ok c l : member c l = true -> In c l.
Proof.
  unfold member. rewrite existsb_exists. intros (x & Hx & E). apply andb_prop in E. destruct E as [E1 E2]. destruct c as [q s], x as [q' s']. cbn in *. apply eqQ_ok in E1. apply eq_stats_ok in E2. now subst.
Qed.

Definition add_new (l : list conf) (c : conf) : list conf := if member c l then l else l ++ [c].
Fixpoint close (fuel : nat) (l : list conf) : list conf :=
  match fuel with O => l | S k => close k (fold_left add_new (flat_map lins l) l) end.
Definition closed (l : list conf) : bool := forallb (fun c => forallb (fun c' => member c' l) (lins c)) l.
Definition sized (l : list conf) : bool := forallb (fun c => Nat.eqb (length (snd c)) n) l.

Definition next_confs (fuel : nat) (l : list conf) (e : hevent Op R) : list conf := close fuel (flat_map (after_event e) l).
Definition includes (l m : list conf) : bool := forallb (fun c => member c m) l.
Definition thread (e : hevent Op R) : nat := match e with HInv t _ => t | HRes t _ => t end.
(** no configuration is left after the history *)
Fixpoint refute (fuel : nat) (l : list conf) (h : list (hevent Op R)) : bool :=
  closed l && sized l &&
  match h with
  | [] => match l with [] => true | _ => false end
  | e :: r => Nat.ltb (thread e) n && includes (flat_map (after_event e) l) (next_confs fuel l e) && refute fuel (next_confs fuel l e) r
  end.

Definition shown_by (q : Q) (f : nat -> @tstat Op R) (l : list conf) : Prop := exists c, In c l /\ fst c = q /\ forall t, f t = stat_at (snd c) t.
Lemma upd_shown (f : nat -> @tstat Op R) s t x : (forall u, f u = stat_at s u) -> t < length s -> forall u, tupd f t x u = stat_at (set_at s t x) u.
Proof. intros H L u. rewrite set_stat by exact L. unfold tupd. destruct (Nat.eqb u t); auto. Qed.

Definition reach_confs fuel l h := fold_left (next_confs fuel) h l.
Lemma refute_prefix fuel h : forall l k, refute fuel l (h ++ k) = true -> refute fuel (reach_confs fuel l h) k = true.
Proof.
  induction h as [|e h IH]; intros l k H; [exact H|]. cbn [app refute] in H. apply andb_prop in H. destruct H as [_ H]. apply andb_prop in H. destruct H as [_ H]. apply (IH _ _ H).
Qed.
Lemma refute_good fuel l k : refute fuel l k = true -> closed l = true /\ sized l = true.
Proof. destruct k; cbn [refute]; intros H; apply andb_prop in H; destruct H as [H _]; apply andb_prop in H; exact H. Qed.
Lemma sized_length l c : sized l = true -> In c l -> length (snd c) = n.
Proof. unfold sized. rewrite forallb_forall. intros H Hc. now apply Nat.eqb_eq, H. Qed.

Lemma search_valid fuel l0 q0 l q f : valid apply q0 (fun _ => TIdle) l q f -> shown_by q0 (fun _ => TIdle) l0 ->
  forall k, refute fuel l0 (erase l ++ k) = true -> shown_by q f (reach_confs fuel l0 (erase l)).
Proof.
  intros V. remember (fun _ : nat => @TIdle Op R) as f0 eqn:F0. revert F0. induction V as [q f|q f l q' f' t op V IH E|q f l q' f' t op q'' r V IH E A|q f l q' f' t r V IH E]; intros -> S0 k H.
  - exact S0.
  - rewrite erase_app in *. cbn [erase flat_map app] in *. rewrite <- app_assoc in H. cbn [app] in H. specialize (IH eq_refl S0 _ H). apply refute_prefix in H. unfold reach_confs in *. rewrite fold_left_app. cbn [fold_left].
    set (m := fold_left (next_confs fuel) (erase l) l0) in *. destruct IH as ((qc & sc) & Hc & Eq & Ef). cbn [fst snd] in *. subst qc.
    cbn [refute] in H. apply andb_prop in H. destruct H as [Hg H]. apply andb_prop in Hg. destruct Hg as [_ Hz]. apply andb_prop in H. destruct H as [H _]. apply andb_prop in H. destruct H as [Ht Hi]. cbn [thread] in Ht. apply Nat.ltb_lt in Ht.
    pose proof (sized_length _ _ Hz Hc) as Ln. cbn [snd] in Ln. exists (q', set_at sc t (TPending op)). split; [|split; [reflexivity|apply upd_shown; [exact Ef|lia]]].
    apply member_ok. unfold includes in Hi. rewrite forallb_forall in Hi. apply Hi. apply in_flat_map. exists (q', sc). split; [exact Hc|]. cbn [after_event fst snd]. rewrite <- Ef, E. now left.
  - rewrite erase_app in *. cbn [erase flat_map app] in *. rewrite app_nil_r in *. specialize (IH eq_refl S0 _ H). apply refute_prefix in H. destruct (refute_good _ _ _ H) as [Hc1 Hz]. destruct IH as ((qc & sc) & Hc & Eq & Ef). cbn [fst snd] in *. subst qc.
    pose proof (sized_length _ _ Hz Hc) as Ln. cbn [snd] in Ln.
    assert (Lt : t < n). { destruct (Nat.lt_ge_cases t n) as [L|L]; [exact L|]. rewrite Ef in E. unfold stat_at in E. rewrite nth_overflow in E by lia. discriminate E. }
    exists (q'', set_at sc t (TDone r)). split; [|split; [reflexivity|apply upd_shown; [exact Ef|lia]]].
    apply member_ok. unfold closed in Hc1. rewrite forallb_forall in Hc1. specialize (Hc1 _ Hc). rewrite forallb_forall in Hc1. apply Hc1. unfold lins. apply in_flat_map. exists t. split; [apply in_seq; lia|]. cbn [fst snd]. rewrite <- Ef, E, A. now left.
  - rewrite erase_app in *. cbn [erase flat_map app] in *. rewrite <- app_assoc in H. cbn [app] in H. specialize (IH eq_refl S0 _ H). apply refute_prefix in H. unfold reach_confs in *. rewrite fold_left_app. cbn [fold_left].
    set (m := fold_left (next_confs fuel) (erase l) l0) in *. destruct IH as ((qc & sc) & Hc & Eq & Ef). cbn [fst snd] in *. subst qc.
    cbn [refute] in H. apply andb_prop in H. destruct H as [Hg H]. apply andb_prop in Hg. destruct Hg as [_ Hz]. apply andb_prop in H. destruct H as [H _]. apply andb_prop in H. destruct H as [Ht Hi]. cbn [thread] in Ht. apply Nat.ltb_lt in Ht.
    pose proof (sized_length _ _ Hz Hc) as Ln. cbn [snd] in Ln. exists (q', set_at sc t TIdle). split; [|split; [reflexivity|apply upd_shown; [exact Ef|lia]]].
    apply member_ok. unfold includes in Hi. rewrite forallb_forall in Hi. apply Hi. apply in_flat_map. exists (q', sc). split; [exact Hc|]. cbn [after_event fst snd]. rewrite <- Ef, E, eqR_refl. now left.
Qed.
Lemma not_linearizable fuel q0 h : refute fuel [(q0, repeat TIdle n)] h = true -> ~ linearizable apply q0 h.
Proof.
  intros H (l & q & f & <- & V).
  assert (S0 : shown_by q0 (fun _ => TIdle) [(q0, repeat TIdle n)]).
  { exists (q0, repeat TIdle n). split; [now left|]. split; [reflexivity|]. intros t. symmetry. apply nth_repeat. }
  destruct (search_valid fuel _ _ _ _ _ V S0 [] ltac:(now rewrite app_nil_r)) as (c & Hc & _).
  rewrite <- (app_nil_r (erase l)) in H. apply refute_prefix in H. cbn [refute] in H. destruct (reach_confs fuel _ (erase l)); [contradiction|]. rewrite !andb_false_r in H. discriminate H.
Qed.
End Search.
