(** A struct guarded by one mutex is linearizable, race-free, and all calls can finish. *)
From Coq Require Import List Arith Lia Permutation Bool.
From Verif.Model Require Import Conc Ewma Mutex.
From Verif.Spec Require Import Linearizability Traces MutexSpec.
From Verif.Proofs Require Import LinProofs.
Import ListNotations.

(** ** running alone *)
Lemma cseq_inside {D L A R} (c : code D L A) (k : A -> code (guarded D) unit R) b : forall d,
  cseq (inside c k) (MkGuarded b d) = match cseq c d with Some (d', a) => cseq (k a) (MkGuarded b d') | None => None end.
Proof. induction c as [a|e u l k' IH]; intros d; [reflexivity|]. cbn [inside cseq g_data g_locked]. destruct (e d); [apply IH|reflexivity]. Qed.
Lemma cseq_critical {D L A R} (c : code D L A) (after : A -> R) d :
  cseq (critical c after) (MkGuarded false d) = match cseq c d with Some (d', a) => Some (MkGuarded false d', after a) | None => None end.
Proof. unfold critical, lock. cbn [cseq g_locked negb g_data]. rewrite cseq_inside. now destruct (cseq c d) as [[d' a]|]. Qed.


(** ** linearizations as orders of calls *)
Definition hcalls {Op R} (h : list (hevent Op R)) : list Op := flat_map (fun e => match e with HInv _ op => [op] | HRes _ _ => [] end) h.
Lemma hcalls_app {Op R} (a b : list (hevent Op R)) : hcalls (a ++ b) = hcalls a ++ hcalls b.
Proof. apply flat_map_app. Qed.
Lemma hcalls_history {L Op R} (tr : list (event L Op R)) : hcalls (history tr) = calls tr.
Proof. induction tr as [|[t op|t l|t r] tr IH]; cbn in *; [reflexivity|f_equal; exact IH|exact IH|exact IH]. Qed.
Lemma valid_order {Q Op R} (apply : Q -> Op -> Q * R) q0 l q f : valid apply q0 (fun _ => TIdle) l q f ->
  exists ops pend, q = after_calls apply q0 ops /\ NoDup (map fst pend) /\
    (forall t, match f t with TPending op => In (t, op) pend | _ => ~ In t (map fst pend) end) /\
    Permutation (hcalls (erase l)) (ops ++ map snd pend).
Proof.
  intros V. remember (fun _ : nat => TIdle) as f0 eqn:E0. induction V as [q f|q f l q' f' t op V IH Hf|q f l q' f' t op q'' r V IH Hf Ha|q f l q' f' t r V IH Hf].
  - exists [], []. subst. cbn. repeat split; auto using NoDup_nil, Permutation_refl.
  - destruct (IH E0) as (ops & pend & Eq & ND & Hp & P). exists ops, ((t, op) :: pend). pose proof (Hp t) as Ht. rewrite Hf in Ht. split; [exact Eq|]. split; [now constructor|]. split.
    + intros u. destruct (Nat.eq_dec u t) as [->|N]; [rewrite tupd_same; now left|]. rewrite tupd_other by exact N. specialize (Hp u). destruct (f' u); cbn [map fst In]; [intros [X|X]; [now apply N|contradiction]|now right|intros [X|X]; [now apply N|contradiction]].
    + rewrite erase_app, hcalls_app. cbn [erase hcalls flat_map app map snd]. eapply Permutation_trans; [symmetry; apply Permutation_cons_append|]. eapply Permutation_trans; [apply perm_skip, P|]. apply Permutation_middle.
  - destruct (IH E0) as (ops & pend & Eq & ND & Hp & P). pose proof (Hp t) as Ht. rewrite Hf in Ht. destruct (remove_pend pend t op ND Ht) as (pend' & PP & ND' & Nin). exists (ops ++ [op]), pend'. split; [|split; [exact ND'|split]].
    + unfold after_calls in *. rewrite fold_left_app, <- Eq. cbn [fold_left]. now rewrite Ha.
    + intros u. destruct (Nat.eq_dec u t) as [->|N]; [rewrite tupd_same; exact Nin|]. rewrite tupd_other by exact N. specialize (Hp u).
      assert (Hm : In u (map fst pend') -> In u (map fst pend)) by (intros H; apply (Permutation_in _ (Permutation_map fst (Permutation_sym PP))); now right).
      destruct (f' u); [tauto| |tauto]. apply (Permutation_in _ PP) in Hp. destruct Hp as [Hp|Hp]; [congruence|exact Hp].
    + rewrite erase_app, hcalls_app. cbn [erase hcalls flat_map app]. rewrite app_nil_r, P, <- app_assoc. apply Permutation_app_head. cbn [app]. change (op :: map snd pend') with (map snd ((t, op) :: pend')). now apply Permutation_map.
  - destruct (IH E0) as (ops & pend & Eq & ND & Hp & P). exists ops, pend. split; [exact Eq|]. split; [exact ND|]. split.
    + intros u. destruct (Nat.eq_dec u t) as [->|N]; [rewrite tupd_same; specialize (Hp t); now rewrite Hf in Hp|]. rewrite tupd_other by exact N. apply Hp.
    + rewrite erase_app, hcalls_app. cbn [erase hcalls flat_map app]. now rewrite app_nil_r.
Qed.

Lemma nodup_remove (h : nat) ts : NoDup ts -> NoDup (remove Nat.eq_dec h ts).
Proof.
  induction 1 as [|x l N ND IH]; [constructor|]. cbn [remove]. destruct (Nat.eq_dec h x); [exact IH|]. constructor; [|exact IH]. intros I. apply in_remove in I. tauto.
Qed.

(** ** one mutex *)
Section Guarded.
Context {D L A Op R : Type}.
Variable dcode : Op -> code D L A.
Variable after : Op -> A -> R.
Variable apply : D -> Op -> D * R.
Variable d0 : D.
Hypothesis seq : forall op d, exists d' a, cseq (dcode op) d = Some (d', a) /\ apply d op = (d', after op a).
Let body (op : Op) := critical (dcode op) (after op).
Notation conf := (config (guarded D) unit Op R).

Definition out (op : Op) (rest : code D L A) : code (guarded D) unit R := inside rest (fun a => unlock (Ret (after op a))).
Definition waits (x : status (guarded D) unit Op R) (y : @tstat Op R) : Prop :=
  match x with
  | Idle => y = TIdle
  | Busy op (Ret r) => y = TDone r
  | Busy op (Atom e u l k) => y = TPending op /\ Atom e u l k = body op
  end.
Definition holds (c : conf) (f : nat -> @tstat Op R) (q : D) (h : nat) : Prop :=
  exists op rest d' a, th c h = Busy op (out op rest) /\ f h = TPending op /\ cseq rest (g_data (sh c)) = Some (d', a) /\ apply q op = (d', after op a).
Definition minv (c : conf) (tr : list (event unit Op R)) : Prop :=
  exists l q f, erase l = history tr /\ valid apply d0 (fun _ => TIdle) l q f /\
    ((g_locked (sh c) = false /\ g_data (sh c) = q /\ forall t, waits (th c t) (f t)) \/
     (g_locked (sh c) = true /\ exists h, holds c f q h /\ forall t, t <> h -> waits (th c t) (f t))).

Lemma waits_set (c : conf) f t x y u : (u <> t -> waits (th c u) (f u)) -> waits x y -> waits (tset (th c) t x u) (tupd f t y u).
Proof. intros H Hx. destruct (Nat.eq_dec u t) as [->|N]; [now rewrite tset_same, tupd_same|]. rewrite tset_other, tupd_other by exact N. auto. Qed.
Lemma waits_body op : waits (Busy op (body op)) (TPending op).
Proof. unfold body, critical, lock. cbn [waits]. auto. Qed.
Lemma out_atom op rest : exists e u l k, out op rest = Atom e u l k.
Proof. destruct rest; unfold out; cbn [inside]; unfold unlock; eauto. Qed.

Lemma minv_exec sched : minv (fst (cexec body (MkGuarded false d0) sched)) (snd (cexec body (MkGuarded false d0) sched)).
Proof.
  revert sched. apply (cexec_ind' body (MkGuarded false d0) minv).
  - exists [], d0, (fun _ => TIdle). split; [reflexivity|]. split; [constructor|]. left. repeat split.
  - intros c tr t op (l & q & f & E & V & H) Ei. exists (l ++ [XInv t op]), q, (tupd f t (TPending op)). rewrite erase_app, history_app, E. split; [reflexivity|]. cbn [sh].
    destruct H as [(Lk & Dq & W)|(Lk & h & Hh & W)].
    + split; [apply valid_inv; [exact V|specialize (W t); now rewrite Ei in W]|]. left. split; [exact Lk|]. split; [exact Dq|]. intros u. apply waits_set; [auto|apply waits_body].
    + assert (N : t <> h). { intros ->. destruct Hh as (op' & rest & d' & a & Hc & _). congruence. }
      split; [apply valid_inv; [exact V|specialize (W t N); now rewrite Ei in W]|]. right. split; [exact Lk|]. exists h. split.
      * destruct Hh as (op' & rest & d' & a & Hc & Hf & Hs & Ha). exists op', rest, d', a. cbn [th sh]. rewrite tset_other, tupd_other by congruence. auto.
      * intros u Hu. apply waits_set; [auto|apply waits_body].
  - intros c tr t op r (l & q & f & E & V & H) Ei. exists (l ++ [XRes t r]), q, (tupd f t TIdle). rewrite erase_app, history_app, E. split; [reflexivity|]. cbn [sh].
    destruct H as [(Lk & Dq & W)|(Lk & h & Hh & W)].
    + split; [apply valid_res; [exact V|specialize (W t); now rewrite Ei in W]|]. left. split; [exact Lk|]. split; [exact Dq|]. intros u. apply waits_set; [auto|reflexivity].
    + assert (N : t <> h). { intros ->. destruct Hh as (op' & rest & d' & a & Hc & _). destruct (out_atom op' rest) as (e & u & l' & k & Eo). congruence. }
      split; [apply valid_res; [exact V|specialize (W t N); now rewrite Ei in W]|]. right. split; [exact Lk|]. exists h. split.
      * destruct Hh as (op' & rest & d' & a & Hc & Hf & Hs & Ha). exists op', rest, d', a. cbn [th sh]. rewrite tset_other, tupd_other by congruence. auto.
      * intros u Hu. apply waits_set; [auto|reflexivity].
  - intros c tr t op e u lb k (l & q & f & E & V & H) Ei En. destruct H as [(Lk & Dq & W)|(Lk & h & Hh & W)].
    + (* the mutex is taken *)
      pose proof (W t) as Wt. rewrite Ei in Wt. cbn [waits] in Wt. destruct Wt as (Ft & Bd). unfold body, critical, lock in Bd. injection Bd as -> -> -> ->.
      exists l, q, f. rewrite history_app, history_steps, app_nil_r. split; [exact E|]. split; [exact V|]. right. cbn [sh g_locked]. split; [reflexivity|]. exists t. split.
      * destruct (seq op q) as (d' & a & Hs & Ha). exists op, (dcode op), d', a. cbn [th sh g_data]. rewrite tset_same, Dq. auto.
      * intros v N. cbn [th]. rewrite tset_other by exact N. apply W.
    + destruct (Nat.eq_dec t h) as [->|N].
      * destruct Hh as (op' & rest & d' & a & Hc & Hf & Hs & Ha). rewrite Hc in Ei. injection Ei as <- Eo. destruct rest as [a'|e' u' l' k'].
        -- (* it is released: the call takes effect *)
           cbn in Hs. injection Hs as <- <-. unfold out, unlock in Eo. cbn [inside] in Eo. injection Eo as <- <- <- <-.
           exists (l ++ [XLin h]), (g_data (sh c)), (tupd f h (TDone (after op' a'))). rewrite erase_app, history_app, history_steps. split; [cbn; now rewrite !app_nil_r|]. split; [now apply (valid_lin apply _ _ _ q f h op')|]. left. cbn [sh g_locked g_data]. repeat split. intros v. apply waits_set; [auto|reflexivity].
        -- unfold out in Eo. cbn [inside] in Eo. injection Eo as <- <- <- <-. cbn [cseq] in Hs. rewrite En in Hs. exists l, q, f. rewrite history_app, history_steps, app_nil_r. split; [exact E|]. split; [exact V|]. right. cbn [sh g_locked]. split; [exact Lk|]. exists h. split.
           ++ exists op', (k' (g_data (sh c))), d', a. cbn [th sh g_data]. rewrite tset_same. auto.
           ++ intros v N. cbn [th]. rewrite tset_other by exact N. now apply W.
      * pose proof (W t N) as Wt. rewrite Ei in Wt. cbn [waits] in Wt. destruct Wt as (_ & Bd). unfold body, critical, lock in Bd. injection Bd as -> -> -> ->. rewrite Lk in En. discriminate.
Qed.

Lemma guarded_linearizable sched : linearizable apply d0 (history (snd (cexec body (MkGuarded false d0) sched))).
Proof. destruct (minv_exec sched) as (l & q & f & E & V & _). exists l, q, f. auto. Qed.

(** when no call is in progress, the calls have happened in some order *)
Lemma guarded_quiet sched : quiet (fst (cexec body (MkGuarded false d0) sched)) ->
  exists ops, Permutation ops (calls (snd (cexec body (MkGuarded false d0) sched))) /\ sh (fst (cexec body (MkGuarded false d0) sched)) = MkGuarded false (after_calls apply d0 ops).
Proof.
  intros Hq. destruct (minv_exec sched) as (l & q & f & E & V & H). destruct (cexec body (MkGuarded false d0) sched) as [c tr]. cbn [fst snd] in *.
  destruct H as [(Lk & Dq & W)|(Lk & h & Hh & W)]; [|destruct Hh as (op' & rest & d' & a & Hc & _); rewrite Hq in Hc; discriminate].
  destruct (valid_order apply d0 l q f V) as (ops & pend & Eq & ND & Hp & P). exists ops.
  assert (pend = []) as ->. { destruct pend as [|[t op] pend]; [reflexivity|]. specialize (Hp t). specialize (W t). rewrite (Hq t) in W. cbn in W. rewrite W in Hp. exfalso. apply Hp. now left. }
  rewrite E, hcalls_history in P. rewrite app_nil_r in P. split; [now symmetry|]. destruct (sh c) as [b d]. cbn in *. congruence.
Qed.

Lemma guarded_race_free sched t u : let c := fst (cexec body (MkGuarded false d0) sched) in accessing c t -> accessing c u -> t = u.
Proof.
  intros c. destruct (minv_exec sched) as (l & q & f & E & V & H). fold c in H. clearbody c.
  assert (X : forall v, waits (th c v) (f v) -> ~ accessing c v). { intros v Wv Av. unfold accessing in Av. destruct (th c v) as [|op [r|e x lb k]]; [exact Av|exact Av|]. destruct Wv as (_ & Bd). unfold body, critical, lock in Bd. injection Bd as -> -> -> ->. now apply Av. }
  intros Ht Hu. destruct H as [(Lk & Dq & W)|(Lk & h & Hh & W)].
  - exfalso. exact (X t (W t) Ht).
  - destruct (Nat.eq_dec t h) as [->|Nt]; [|exfalso; exact (X t (W t Nt) Ht)]. destruct (Nat.eq_dec u h) as [->|Nu]; [reflexivity|exfalso; exact (X u (W u Nu) Hu)].
Qed.

(** ** all calls return *)
Definition apart (x : status (guarded D) unit Op R) : Prop :=
  match x with Idle => True | Busy op (Ret _) => True | Busy op b => b = body op end.
Definition waiting (x : status (guarded D) unit Op R) : bool := match x with Busy _ (Atom _ _ _ _) => true | _ => false end.
Definition returning (x : status (guarded D) unit Op R) : bool := match x with Busy _ (Ret _) => true | _ => false end.
Definition tally (g : status (guarded D) unit Op R -> bool) (c : conf) (ts : list nat) : nat := length (filter (fun t => g (th c t)) ts).

Lemma tally_other g s (c : conf) t x ts : ~ In t ts -> tally g (MkConfig s (tset (th c) t x)) ts = tally g c ts.
Proof.
  unfold tally. induction ts as [|u ts IH]; intros N; [reflexivity|]. cbn [filter th]. rewrite tset_other by (intros ->; apply N; now left). specialize (IH (fun H => N (or_intror H))). cbn [th] in IH. destruct (g (th c u)); cbn [length]; congruence.
Qed.
Lemma tally_set g s (c : conf) t x ts : NoDup ts -> In t ts ->
  tally g (MkConfig s (tset (th c) t x)) ts + Nat.b2n (g (th c t)) = tally g c ts + Nat.b2n (g x).
Proof.
  induction ts as [|u ts IH]; intros ND Hin; [destruct Hin|]. inversion ND as [|? ? Nu ND']; subst. unfold tally in *. cbn [filter th]. destruct (Nat.eq_dec u t) as [->|N].
  - rewrite tset_same. pose proof (tally_other g s c t x ts Nu) as E. unfold tally in E. cbn [th] in E. destruct (g x), (g (th c t)); cbn [length Nat.b2n]; lia.
  - destruct Hin as [->|Hin]; [now elim N|]. rewrite tset_other by exact N. specialize (IH ND' Hin). cbn [th] in IH. destruct (g (th c u)); cbn [length]; lia.
Qed.

(** the others while [h] is inside; [rest] is what [h] still has to do *)
Definition free_conf (c : conf) (ts : list nat) : Prop :=
  g_locked (sh c) = false /\ (forall t, ~ In t ts -> th c t = Idle) /\ forall t, apart (th c t).
Definition held_conf (c : conf) (ts : list nat) (h : nat) (op : Op) (rest : code D L A) : Prop :=
  g_locked (sh c) = true /\ (forall t, ~ In t ts -> th c t = Idle) /\ th c h = Busy op (out op rest) /\ cseq rest (g_data (sh c)) <> None /\ forall t, t <> h -> apart (th c t).

Section Schedules.
Variable ts : list nat.
Hypothesis ND : NoDup ts.
Lemma in_ts (c : conf) t : (forall t, ~ In t ts -> th c t = Idle) -> th c t <> Idle -> In t ts.
Proof. intros H N. destruct (in_dec Nat.eq_dec t ts) as [I|I]; [exact I|]. now elim N; apply H. Qed.
Lemma idle_set s (c : conf) t x : (forall t, ~ In t ts -> th c t = Idle) -> In t ts -> forall u, ~ In u ts -> th (MkConfig s (tset (th c) t x)) u = Idle.
Proof. intros H I u N. cbn [th]. rewrite tset_other by congruence. auto. Qed.
Lemma apart_set s (c : conf) t x u : (u <> t -> apart (th c u)) -> apart x -> apart (th (MkConfig s (tset (th c) t x)) u).
Proof. intros H Hx. cbn [th]. destruct (Nat.eq_dec u t) as [->|N]; [now rewrite tset_same|]. rewrite tset_other by exact N. auto. Qed.

(** [Free n]: every schedule ends from a state with at most [n] waiting, when the mutex is free *)
Lemma free_returns n : (forall c h op rest, held_conf c ts h op rest -> tally waiting c (remove Nat.eq_dec h ts) < n -> all_return body c) ->
  forall m c, free_conf c ts -> tally waiting c ts <= n -> tally returning c ts = m -> all_return body c.
Proof.
  intros Held m. induction m as [m IH] using lt_wf_ind. intros c (Lk & Hi & Ha) Hw Hm.
  destruct (existsb (fun t => waiting (th c t) || returning (th c t)) ts) eqn:X.
  - apply ret_step.
    + apply existsb_exists in X. destruct X as (t & _ & X). exists t. unfold can_run. pose proof (Ha t) as At. destruct (th c t) as [|op [r|e u l k]]; [discriminate X|exact Logic.I|]. cbn [apart] in At. unfold body, critical, lock in At. injection At as -> -> -> ->. now rewrite Lk.
    + intros t Ct. unfold can_run in Ct. assert (It : In t ts) by (apply (in_ts c t Hi); intros Et; rewrite Et in Ct; exact Ct). pose proof (Ha t) as At. cbn [cstep]. destruct (th c t) as [|op [r|e u l k]] eqn:Et; [destruct Ct| |].
      * cbn [fst]. pose proof (tally_set returning (sh c) c t Idle ts ND It) as T1. pose proof (tally_set waiting (sh c) c t Idle ts ND It) as T2. rewrite Et in T1, T2. cbn in T1, T2. eapply IH; [| |lia|reflexivity]; [lia|]. split; [exact Lk|]. split; [now apply idle_set|]. intros u. apply apart_set; [auto|exact Logic.I].
      * rewrite Ct. cbn [fst]. cbn [apart] in At. unfold body, critical, lock in At. injection At as -> -> -> ->.
        apply (Held _ t op (dcode op)).
        -- split; [reflexivity|]. split; [now apply idle_set|]. split; [cbn [th]; apply tset_same|]. split; [cbn [sh g_data]; destruct (seq op (g_data (sh c))) as (d' & a & Hs & _); rewrite Hs; discriminate|]. intros u Nu. cbn [th]. rewrite tset_other by exact Nu. apply Ha.
        -- pose proof (tally_set waiting (sh c) c t Idle ts ND It) as T2. rewrite Et in T2. cbn [waiting Nat.b2n] in T2. clear - T2 Hw ND. 
           assert (Y : forall s x, tally waiting (MkConfig s (tset (th c) t x)) (remove Nat.eq_dec t ts) = tally waiting (MkConfig (sh c) (tset (th c) t Idle)) ts).
           { intros s x. unfold tally. cbn [th]. clear T2 Hw ND. induction ts as [|v vs IHv]; [reflexivity|]. cbn [remove]. destruct (Nat.eq_dec t v) as [->|N]; cbn [filter]; [rewrite tset_same; exact IHv|]. rewrite !tset_other by congruence. destruct (waiting (th c v)); cbn [length]; congruence. }
           rewrite Y. lia.
  - apply ret_quiet. intros t. destruct (in_dec Nat.eq_dec t ts) as [I|I]; [|now apply Hi]. destruct (th c t) as [|op [r|e u l k]] eqn:Et; [reflexivity| |]; exfalso.
    + assert (Y : existsb (fun t => waiting (th c t) || returning (th c t)) ts = true) by (apply existsb_exists; exists t; rewrite Et; auto). congruence.
    + assert (Y : existsb (fun t => waiting (th c t) || returning (th c t)) ts = true) by (apply existsb_exists; exists t; rewrite Et; auto). congruence.
Qed.
Lemma tally_remove s (c : conf) h x : waiting x = false -> tally waiting (MkConfig s (tset (th c) h x)) ts = tally waiting c (remove Nat.eq_dec h ts).
Proof.
  intros W. unfold tally. cbn [th]. clear ND. induction ts as [|v vs IHv]; [reflexivity|]. cbn [remove filter]. destruct (Nat.eq_dec h v) as [->|N]; cbn [filter]; [rewrite tset_same, W; exact IHv|]. rewrite !tset_other by congruence. destruct (waiting (th c v)); cbn [length]; congruence.
Qed.
Lemma held_returns n : (forall c, free_conf c ts -> tally waiting c ts <= n -> all_return body c) ->
  forall rest m c h op, held_conf c ts h op rest -> tally waiting c (remove Nat.eq_dec h ts) <= n -> tally returning c ts = m -> all_return body c.
Proof.
  intros Free rest. induction rest as [a|e u l k IHr]; intros m; induction m as [m IHm] using lt_wf_ind; intros c h op (Lk & Hi & Hh & Hs & Ha) Hw Hm.
  all: assert (Ih : In h ts) by (apply (in_ts c h Hi); rewrite Hh; discriminate).
  all: assert (Others : forall t r opt, t <> h -> th c t = Busy opt (Ret r) -> all_return body (MkConfig (sh c) (tset (th c) t Idle))).
  1,3: intros t r opt Nt Et; assert (It : In t ts) by (apply (in_ts c t Hi); rewrite Et; discriminate);
    pose proof (tally_set returning (sh c) c t Idle ts ND It) as T1; rewrite Et in T1; cbn in T1;
    assert (T2 : tally waiting (MkConfig (sh c) (tset (th c) t Idle)) (remove Nat.eq_dec h ts) <= n);
    [ destruct (in_dec Nat.eq_dec t (remove Nat.eq_dec h ts)) as [I|I]; [|rewrite tally_other by exact I; exact Hw];
      assert (T2 := tally_set waiting (sh c) c t Idle (remove Nat.eq_dec h ts)); rewrite Et in T2; cbn [waiting Nat.b2n] in T2; specialize (T2 (nodup_remove h ts ND) I); lia
    | eapply IHm; [| |exact T2|reflexivity]; [lia|]; split; [exact Lk|]; split; [now apply idle_set|]; split; [cbn [th]; rewrite tset_other by congruence; exact Hh|]; split; [exact Hs|]; intros v Nv; apply apart_set; [auto|exact Logic.I] ].
  - apply ret_step.
    + exists h. unfold can_run. now rewrite Hh.
    + intros t Ct. cbn [cstep]. unfold can_run in Ct. destruct (Nat.eq_dec t h) as [->|N].
      * rewrite Hh. unfold out. cbn [inside]. unfold unlock. cbn [always fst]. apply Free.
        -- split; [reflexivity|]. split; [now apply idle_set|]. intros v. apply apart_set; [auto|exact Logic.I].
        -- now rewrite tally_remove.
      * pose proof (Ha t N) as At. destruct (th c t) as [|opt [r|e u l k]] eqn:Et; [destruct Ct|now apply (Others t r opt)|]. cbn [apart] in At. unfold body, critical, lock in At. injection At as -> -> -> ->. rewrite Lk in Ct. discriminate.
  - cbn [cseq] in Hs. destruct (e (g_data (sh c))) eqn:Ee; [|now elim Hs]. apply ret_step.
    + exists h. unfold can_run. now rewrite Hh.
    + intros t Ct. cbn [cstep]. unfold can_run in Ct. destruct (Nat.eq_dec t h) as [->|N].
      * rewrite Hh. unfold out. cbn [inside]. rewrite Ee. cbn [fst]. eapply (IHr (g_data (sh c)) _ _ h op); [| |reflexivity].
        -- split; [exact Lk|]. split; [now apply idle_set|]. split; [cbn [th]; apply tset_same|]. split; [exact Hs|]. intros v Nv. cbn [th]. rewrite tset_other by exact Nv. auto.
        -- unfold tally in *. cbn [th]. assert (Y : forall vs, ~ In h vs -> filter (fun t => waiting (tset (th c) h (Busy op (inside (k (g_data (sh c))) (fun a => Atom always (fun g => MkGuarded false (g_data g)) silent (fun _ => Ret (after op a))))) t)) vs = filter (fun t => waiting (th c t)) vs).
           { intros vs Nv. apply filter_ext_in. intros v Iv. now rewrite tset_other by congruence. }
           unfold unlock. rewrite Y by apply remove_In. exact Hw.
      * pose proof (Ha t N) as At. destruct (th c t) as [|opt [r|e' u' l' k']] eqn:Et; [destruct Ct|now apply (Others t r opt)|]. cbn [apart] in At. unfold body, critical, lock in At. injection At as -> -> -> ->. rewrite Lk in Ct. discriminate.
Qed.
Lemma schedules_end n : (forall c, free_conf c ts -> tally waiting c ts <= n -> all_return body c) /\
  (forall c h op rest, held_conf c ts h op rest -> tally waiting c (remove Nat.eq_dec h ts) <= n -> all_return body c).
Proof.
  induction n as [|n [_ IH]].
  - assert (F : forall c, free_conf c ts -> tally waiting c ts <= 0 -> all_return body c) by (intros c Hc Hw; apply (free_returns 0 ltac:(intros; lia) _ c Hc Hw eq_refl)).
    split; [exact F|]. intros c h op rest Hc Hw. exact (held_returns 0 F rest _ c h op Hc Hw eq_refl).
  - assert (F : forall c, free_conf c ts -> tally waiting c ts <= S n -> all_return body c).
    { intros c Hc Hw. apply (free_returns (S n)) with (m := tally returning c ts); auto. intros c' h op rest Hc' Hw'. apply (IH c' h op rest Hc'). lia. }
    split; [exact F|]. intros c h op rest Hc Hw. exact (held_returns (S n) F rest _ c h op Hc Hw eq_refl).
Qed.
End Schedules.
Lemma guarded_returns sched : all_return body (fst (cexec body (MkGuarded false d0) sched)).
Proof.
  destruct (minv_exec sched) as (l & q & f & E & V & H). pose proof (never_called_idle body (MkGuarded false d0) sched) as NC.
  destruct (cexec body (MkGuarded false d0) sched) as [c tr]. cbn [fst snd] in *. set (ts := nodup Nat.eq_dec (callers sched)).
  assert (Hi : forall t, ~ In t ts -> th c t = Idle) by (intros t Ht; apply NC; intros I; apply Ht; now apply nodup_In).
  assert (Y : forall v, waits (th c v) (f v) -> apart (th c v)). { intros v Wv. destruct (th c v) as [|op [r|e x lb k]]; cbn [apart]; auto. apply Wv. }
  pose proof (NoDup_nodup Nat.eq_dec (callers sched)) as ND. fold ts in ND. destruct H as [(Lk & Dq & W)|(Lk & h & Hh & W)].
  - apply (proj1 (schedules_end ts ND (tally waiting c ts)) c); [|lia]. repeat split; auto.
  - destruct Hh as (op & rest & d' & a & Hc & Hf & Hs & Ha). apply (proj2 (schedules_end ts ND (tally waiting c (remove Nat.eq_dec h ts))) c h op rest); [|lia]. repeat split; auto. congruence.
Qed.
End Guarded.
