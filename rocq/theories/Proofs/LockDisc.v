(** A logic for code running on the shared registry: [cert c g] certifies the code c of a
    goroutine that has the knowledge g (which locks it holds, what the map contains while
    it holds one, what its call has done so far).  Soundness: in every execution of
    certified calls the locks are respected, calls take effect atomically, the
    postconditions hold. *)
From Coq Require Import List String Arith Bool Lia Permutation.
From Verif.Model Require Import Conc Meter RegistryConc.
From Verif.Spec Require Import Linearizability Traces RegistryConcSpec.
From Verif.Proofs Require Import LinProofs PcProofs LogFacts.
Import ListNotations.
Local Open Scope list_scope.
Local Open Scope nat_scope.

Record hold := MkH { rc : nat; an : bool; wr : bool }.
Definition hfree : hold := MkH 0 false false.
Definition conc (s : rstate) : rq := (metrics s, made s).

Record ghost := MkG {
  gR : hold; gA : hold;
  gc : rq;                    (* what the map was when the write lock was taken *)
  gq : rq;                    (* what it is, while a lock is held *)
  gst : @tstat rop rret;
  gop : rop; gls : list rlabel;
  gms : list entries          (* the map each time the read lock was taken *)
}.
Definition hof (l : lockid) (g : ghost) : hold := match l with RegL => gR g | ArbL => gA g end.
Definition with_hold (l : lockid) (h : hold) (g : ghost) : ghost :=
  match l with
  | RegL => MkG h (gA g) (gc g) (gq g) (gst g) (gop g) (gls g) (gms g)
  | ArbL => MkG (gR g) h (gc g) (gq g) (gst g) (gop g) (gls g) (gms g)
  end.
Definition with_q (c q : rq) (g : ghost) : ghost := MkG (gR g) (gA g) c q (gst g) (gop g) (gls g) (gms g).
Definition with_st (x : @tstat rop rret) (g : ghost) : ghost := MkG (gR g) (gA g) (gc g) (gq g) x (gop g) (gls g) (gms g).
Definition with_ls (ls : list rlabel) (g : ghost) : ghost := MkG (gR g) (gA g) (gc g) (gq g) (gst g) (gop g) (gls g ++ ls) (gms g).
Definition with_ms (m : entries) (g : ghost) : ghost := MkG (gR g) (gA g) (gc g) (gq g) (gst g) (gop g) (gls g) (gms g ++ [m]).
Definition ghost0 (o : rop) : ghost := MkG hfree hfree ([], []) ([], []) (TPending o) o [] [].
Definition idle_ghost : ghost := MkG hfree hfree ([], []) ([], []) TIdle RTickMeters [] [].

(** the names in a map are distinct *)
Definition wfm (m : entries) : Prop := NoDup (map fst m).
Definition holds_map (g : ghost) : Prop := 0 < rc (gR g) \/ wr (gR g) = true.
Definition gfree (g : ghost) : Prop := gR g = hfree /\ gA g = hfree.

Section Disc.
Variable strict : bool.       (* locks are taken in order, never twice *)
Variable lin : bool.          (* calls are certified atomic *)
Variable Post : ghost -> rret -> Prop.

Definition legal (a : act) (g : ghost) : Prop :=
  match a with
  | ARLock l | AAnnounce l => strict = true -> hof l g = hfree /\ (l = RegL -> gA g = hfree)
  | ARUnlock l => 0 < rc (hof l g)
  | AAcquire l => an (hof l g) = true /\ wr (hof l g) = false
  | AUnlock l => wr (hof l g) = true
  | AMapRead => holds_map g
  | AMapWrite f => wr (gR g) = true /\ wfm (f (fst (gq g)))
  | AMake _ => wr (gR g) = true
  | AArbRead => 0 < rc (gA g) \/ wr (gA g) = true
  | AArbWrite _ => wr (gA g) = true
  | ANote (LCall _ _) => strict = true -> gfree g
  | ANote (LCheck _ _) | ACas _ => True
  | ANote _ => False
  end.
(** after an announcement, strict code waits for the lock at once *)
Definition waiting (a : act) (g : ghost) : Prop :=
  strict = true -> (forall l, an (hof l g) = true -> wr (hof l g) = false -> a = AAcquire l) /\
    (forall l, an (hof l g) = true -> rc (hof l g) = 0) /\ (an (gR g) = true -> wr (gR g) = false -> gA g = hfree).
Definition feasible (a : act) (g : ghost) : Prop :=
  match a with
  | ARLock l | AAnnounce l => an (hof l g) = false
  | AAcquire l => rc (hof l g) = 0
  | _ => True
  end.
Definition after (a : act) (s : rstate) (g : ghost) : ghost :=
  with_ls (lab a s) match a with
  | ARLock l => let h := hof l g in
      let g1 := with_hold l (MkH (S (rc h)) (an h) (wr h)) g in
      match l with RegL => with_ms (metrics s) (with_q (gc g1) (conc s) g1) | ArbL => g1 end
  | ARUnlock l => let h := hof l g in with_hold l (MkH (pred (rc h)) (an h) (wr h)) g
  | AAnnounce l => let h := hof l g in with_hold l (MkH (rc h) true (wr h)) g
  | AAcquire l => let h := hof l g in
      let g1 := with_hold l (MkH (rc h) (an h) true) g in
      match l with RegL => with_q (conc s) (conc s) g1 | ArbL => g1 end
  | AUnlock l => let h := hof l g in with_hold l (MkH (rc h) false false) g
  | AMapWrite f => with_q (gc g) (f (fst (gq g)), snd (gq g)) g
  | AMake v => with_q (gc g) (fst (gq g), snd (gq g) ++ [v]) g
  | _ => g
  end.
Definition trans (a : act) (s : rstate) (g g' : ghost) : Prop :=
  (g' = after a s g /\ (a = AUnlock RegL -> lin = true -> gc g = gq g)) \/
  (exists op r, gst g = TPending op /\ g' = with_st (TDone r) (after a s g) /\
     ((a = AUnlock RegL /\ rapply (gc g) op = (gq g, r)) \/ (a = ARUnlock RegL /\ rapply (gq g) op = (gq g, r)))).

Notation rcode := (code rstate rlabel rret).
Fixpoint cert (c : rcode) (g : ghost) : Prop :=
  match c with
  | Ret r => gfree g /\ Post g r /\
      (lin = true -> gst g = TDone r \/ (exists op, gst g = TPending op /\ forall q, rapply q op = (q, r)))
  | Atom e u l k => exists a, e = en a /\ u = upd a /\ l = lab a /\ legal a g /\ waiting a g /\
      forall s, en a s = true -> feasible a g -> (holds_map g -> conc s = gq g) -> wfm (metrics s) -> exists g', trans a s g g' /\ cert (k s) g'
  end.

(** ** locks *)
Definition b2n (b : bool) : nat := if b then 1 else 0.
Definition sumf (f : ghost -> nat) (G : nat -> ghost) (ts : list nat) : nat := fold_right (fun t n => f (G t) + n) 0 ts.
Lemma sumf_upd f G ts t g : NoDup ts -> In t ts -> sumf f (pupd G t g) ts + f (G t) = sumf f G ts + f g.
Proof.
  induction ts as [|x ts IH]; intros ND Hin; [easy|]. inversion ND; subst. cbn [sumf fold_right]. fold (sumf f (pupd G t g) ts). fold (sumf f G ts).
  destruct (Nat.eq_dec x t) as [->|N].
  - rewrite pupd_same. assert (E : sumf f (pupd G t g) ts = sumf f G ts).
    { clear - H1. induction ts as [|y ts IH]; [reflexivity|]. cbn. rewrite pupd_other by (intros ->; apply H1; now left). f_equal. apply IH. intro; apply H1; now right. }
    lia.
  - rewrite pupd_other by exact N. destruct Hin as [->|Hin]; [congruence|]. specialize (IH H2 Hin). lia.
Qed.
Lemma sumf_upd_out f G ts t g : ~ In t ts -> sumf f (pupd G t g) ts = sumf f G ts.
Proof.
  intros N. induction ts as [|y ts IH]; [reflexivity|]. cbn. rewrite pupd_other by (intros ->; apply N; now left). f_equal. apply IH. intro; apply N; now right.
Qed.
Lemma sumf_ge f G ts t : In t ts -> f (G t) <= sumf f G ts.
Proof. induction ts as [|x ts IH]; intros []; cbn; [subst; lia|]. specialize (IH H). unfold sumf in IH. lia. Qed.
Lemma sumf_ge2 f G ts t u : NoDup ts -> In t ts -> In u ts -> t <> u -> f (G t) + f (G u) <= sumf f G ts.
Proof.
  induction ts as [|x ts IH]; intros ND; [easy|]. inversion ND; subst. intros [->|Ht] [->|Hu] N; cbn; fold (sumf f G ts); try congruence.
  - pose proof (sumf_ge f G ts u Hu). lia.
  - pose proof (sumf_ge f G ts t Ht). lia.
  - specialize (IH H2 Ht Hu N). lia.
Qed.
Lemma sumf_pos f G ts : 0 < sumf f G ts -> exists t, In t ts /\ 0 < f (G t).
Proof.
  induction ts as [|x ts IH]; cbn; [lia|]. fold (sumf f G ts). intro H. destruct (Nat.eq_dec (f (G x)) 0) as [E|E].
  - destruct IH as (t & Ht & P); [lia|]. exists t. split; [now right|exact P].
  - exists x. split; [now left|lia].
Qed.

Definition hok (h : hold) : Prop := wr h = true -> an h = true /\ rc h = 0.
Definition lock_ok (l : lockid) (s : rstate) (G : nat -> ghost) (ts : list nat) : Prop :=
  sumf (fun g => rc (hof l g)) G ts = readers (lock_of l s) /\
  sumf (fun g => b2n (an (hof l g))) G ts = b2n (announced (lock_of l s)) /\
  sumf (fun g => b2n (wr (hof l g))) G ts = b2n (held (lock_of l s)) /\
  (held (lock_of l s) = true -> readers (lock_of l s) = 0) /\
  (forall t, hok (hof l (G t))).
Definition locks_ok (s : rstate) (G : nat -> ghost) (ts : list nat) : Prop := forall l, lock_ok l s G ts.

Lemma locks_feasible s G ts t a : locks_ok s G ts -> In t ts -> en a s = true -> feasible a (G t).
Proof.
  intros H Ht E. destruct a as [l|l|l|l|l| | | | | | |]; cbn in *; auto; destruct (H l) as (H1 & H2 & _).
  - pose proof (sumf_ge (fun g => b2n (an (hof l g))) G ts t Ht) as P. cbn in P. rewrite H2 in P. destruct (announced (lock_of l s)); [easy|]. destruct (an (hof l (G t))); cbn in P; [lia|reflexivity].
  - pose proof (sumf_ge (fun g => b2n (an (hof l g))) G ts t Ht) as P. cbn in P. rewrite H2 in P. destruct (announced (lock_of l s)); [easy|]. destruct (an (hof l (G t))); cbn in P; [lia|reflexivity].
  - pose proof (sumf_ge (fun g => rc (hof l g)) G ts t Ht) as P. cbn in P. rewrite H1 in P. apply Nat.eqb_eq in E. lia.
Qed.

Lemma hof_with_ls l ls g : hof l (with_ls ls g) = hof l g. Proof. now destruct l. Qed.
Lemma hof_with_st l x g : hof l (with_st x g) = hof l g. Proof. now destruct l. Qed.
Lemma hof_with_q l c q g : hof l (with_q c q g) = hof l g. Proof. now destruct l. Qed.
Lemma hof_with_ms l m g : hof l (with_ms m g) = hof l g. Proof. now destruct l. Qed.
Definition lock_eqb (a b : lockid) : bool := match a, b with RegL, RegL | ArbL, ArbL => true | _, _ => false end.
Lemma hof_with_hold l l' h g : hof l (with_hold l' h g) = if lock_eqb l l' then h else hof l g.
Proof. now destruct l, l'. Qed.
Lemma lock_set l l' x s : lock_of l (set_lock l' x s) = if lock_eqb l l' then x else lock_of l s.
Proof. now destruct l, l'. Qed.

(** what an action does to a lock and to the hold *)
Definition acts_on (a : act) (l : lockid) (h : hold) (x : rwlock) : hold * rwlock :=
  match a with
  | ARLock l' => if lock_eqb l l' then (MkH (S (rc h)) (an h) (wr h), MkRW (announced x) (held x) (S (readers x))) else (h, x)
  | ARUnlock l' => if lock_eqb l l' then (MkH (pred (rc h)) (an h) (wr h), MkRW (announced x) (held x) (pred (readers x))) else (h, x)
  | AAnnounce l' => if lock_eqb l l' then (MkH (rc h) true (wr h), MkRW true (held x) (readers x)) else (h, x)
  | AAcquire l' => if lock_eqb l l' then (MkH (rc h) (an h) true, MkRW (announced x) true (readers x)) else (h, x)
  | AUnlock l' => if lock_eqb l l' then (MkH (rc h) false false, MkRW false false (readers x)) else (h, x)
  | _ => (h, x)
  end.
Lemma lock_upd a l s g : lock_of l (upd a s) = snd (acts_on a l (hof l g) (lock_of l s)).
Proof. destruct a as [l'|l'|l'|l'|l'| | | | | | |], l; cbn; try reflexivity; destruct l'; reflexivity. Qed.
Lemma hof_after a l s g : hof l (after a s g) = fst (acts_on a l (hof l g) (lock_of l s)).
Proof. unfold after. rewrite hof_with_ls. destruct a as [l'|l'|l'|l'|l'| | | | | | |], l; cbn; try reflexivity; destruct l'; reflexivity. Qed.

Lemma lock_ok_step l s G ts t a g' : NoDup ts -> In t ts -> lock_ok l s G ts -> legal a (G t) -> feasible a (G t) -> en a s = true ->
  hof l g' = hof l (after a s (G t)) -> lock_ok l (upd a s) (pupd G t g') ts.
Proof.
  intros ND Ht (H1 & H2 & H3 & H4 & H5) L F E Eg.
  rewrite hof_after in Eg. unfold lock_ok. rewrite (lock_upd a l s (G t)).
  pose proof (sumf_upd (fun g => rc (hof l g)) G ts t g' ND Ht) as U1. pose proof (sumf_upd (fun g => b2n (an (hof l g))) G ts t g' ND Ht) as U2.
  pose proof (sumf_upd (fun g => b2n (wr (hof l g))) G ts t g' ND Ht) as U3. cbn beta in U1, U2, U3. rewrite Eg in U1, U2, U3.
  pose proof (sumf_ge (fun g => rc (hof l g)) G ts t Ht) as P1. pose proof (sumf_ge (fun g => b2n (an (hof l g))) G ts t Ht) as P2. pose proof (sumf_ge (fun g => b2n (wr (hof l g))) G ts t Ht) as P3. cbn beta in P1, P2, P3.
  pose proof (H5 t) as K.
  assert (KU : hok (hof l g') -> forall u, hok (hof l (pupd G t g' u))).
  { intros Kg u. unfold pupd. destruct (Nat.eqb u t); auto. }
  rewrite Eg in KU.
  assert (D : forall l', l = l' \/ lock_eqb l l' = false) by (intros l'; destruct l, l'; auto).
  destruct a as [l'|l'|l'|l'|l'| | | | | | |]; cbn [acts_on fst snd] in *;
    try (destruct (D l') as [<-|N]; [replace (lock_eqb l l) with true in * by (now destruct l)|rewrite N in *]);
    try (cbn [fst snd rc an wr] in *; split; [lia|split; [lia|split; [lia|split; [exact H4|exact (KU K)]]]]); cbn [fst snd rc an wr announced held readers en] in *.
  - apply negb_true_iff in E. cbn in F. rewrite E in *. cbn [b2n] in *.
    assert (Hh : held (lock_of l s) = false).
    { destruct (held (lock_of l s)) eqn:Hh; [|reflexivity]. exfalso. cbn [b2n] in H3. destruct (sumf_pos (fun g => b2n (wr (hof l g))) G ts) as (u & Hu & Pu); [lia|].
      pose proof (sumf_ge (fun g => b2n (an (hof l g))) G ts u Hu) as Q. cbn beta in *. destruct (wr (hof l (G u))) eqn:W; [|cbn in Pu; lia]. destruct (H5 u W) as [W1 _]. rewrite W1 in Q. cbn [b2n] in Q. lia. }
    rewrite Hh in *. split; [lia|]. split; [lia|]. split; [lia|]. split; [easy|]. apply KU. intros W. cbn in W. destruct (K W) as [W1 _]. congruence.
  - cbn in L. split; [lia|]. split; [lia|]. split; [lia|]. split; [intro X; specialize (H4 X); lia|]. apply KU. intros W. cbn in *. destruct (K W). split; auto. lia.
  - apply negb_true_iff in E. cbn in F. rewrite E in *. rewrite F in *. cbn [b2n] in *. split; [lia|]. split; [lia|]. split; [lia|]. split; [exact H4|].
    apply KU. intros W. cbn in *. destruct (K W). split; auto.
  - apply Nat.eqb_eq in E. cbn in L, F. destruct L as [L1 L2]. rewrite L1, L2 in *. cbn [b2n] in *. destruct (announced (lock_of l s)) eqn:Ea; cbn [b2n] in *; [|lia].
    assert (Hh : held (lock_of l s) = false).
    { destruct (held (lock_of l s)) eqn:Hh; [|reflexivity]. exfalso. cbn [b2n] in H3. destruct (sumf_pos (fun g => b2n (wr (hof l g))) G ts) as (u & Hu & Pu); [lia|].
      cbn beta in Pu. destruct (wr (hof l (G u))) eqn:W; [|cbn in Pu; lia]. destruct (H5 u W) as [W1 _].
      destruct (Nat.eq_dec t u) as [->|N]; [congruence|]. pose proof (sumf_ge2 (fun g => b2n (an (hof l g))) G ts t u ND Ht Hu N) as Q. cbn beta in Q. rewrite L1, W1 in Q. cbn [b2n] in Q. lia. }
    rewrite Hh in *. cbn [b2n] in *. split; [lia|]. split; [lia|]. split; [lia|]. split; [auto|]. apply KU. intros W. cbn. auto.
  - cbn in L. destruct (K L) as [K1 K2]. rewrite L, K1, K2 in *. cbn [b2n] in *.
    destruct (announced (lock_of l s)), (held (lock_of l s)); cbn [b2n] in *; try lia. split; [lia|]. split; [lia|]. split; [lia|]. split; [easy|]. apply KU. intros W. easy.
Qed.

(** exclusion *)
Lemma writer_alone l s G ts t u : NoDup ts -> In t ts -> In u ts -> t <> u -> lock_ok l s G ts -> wr (hof l (G t)) = true -> hof l (G u) = MkH 0 false false.
Proof.
  intros ND Ht Hu N (H1 & H2 & H3 & H4 & H5) W. destruct (H5 t W) as [A Z].
  pose proof (sumf_ge (fun g => b2n (wr (hof l g))) G ts t Ht) as P. cbn beta in P. rewrite W in P. cbn [b2n] in P.
  destruct (held (lock_of l s)) eqn:Hh; cbn [b2n] in *; [|lia]. specialize (H4 eq_refl).
  pose proof (sumf_ge (fun g => rc (hof l g)) G ts u Hu) as P1. cbn beta in P1.
  pose proof (sumf_ge2 (fun g => b2n (an (hof l g))) G ts t u ND Ht Hu N) as P2. pose proof (sumf_ge2 (fun g => b2n (wr (hof l g))) G ts t u ND Ht Hu N) as P3. cbn beta in P2, P3.
  rewrite A in P2. rewrite W in P3. destruct (announced (lock_of l s)); cbn [b2n] in *; destruct (hof l (G u)) as [r0 [] []]; cbn [rc an wr b2n] in *; try lia; f_equal; lia.
Qed.
Lemma held_writer l s G ts : lock_ok l s G ts -> held (lock_of l s) = true -> exists t, In t ts /\ wr (hof l (G t)) = true.
Proof.
  intros (H1 & H2 & H3 & H4 & H5) Hh. rewrite Hh in H3. cbn [b2n] in H3. destruct (sumf_pos (fun g => b2n (wr (hof l g))) G ts) as (u & Hu & Pu); [lia|].
  exists u. split; auto. cbn beta in Pu. now destruct (wr (hof l (G u))).
Qed.
Lemma writer_held l s G ts t : In t ts -> lock_ok l s G ts -> wr (hof l (G t)) = true -> held (lock_of l s) = true.
Proof.
  intros Ht (H1 & H2 & H3 & H4 & H5) W. pose proof (sumf_ge (fun g => b2n (wr (hof l g))) G ts t Ht) as P. cbn beta in P. rewrite W in P.
  destruct (held (lock_of l s)); cbn [b2n] in *; [reflexivity|lia].
Qed.
Lemma reader_not_held l s G ts t : In t ts -> lock_ok l s G ts -> 0 < rc (hof l (G t)) -> held (lock_of l s) = false.
Proof.
  intros Ht (H1 & H2 & H3 & H4 & H5) W. pose proof (sumf_ge (fun g => rc (hof l g)) G ts t Ht) as P. cbn beta in P.
  destruct (held (lock_of l s)) eqn:E; auto. specialize (H4 eq_refl). lia.
Qed.

(** ** executions *)
Variable s0 : rstate.
Variable okop : rop -> Prop.
Hypothesis s0_free : reg_lock s0 = lock_init /\ arb_lock s0 = lock_init.
Hypothesis s0_wf : wfm (metrics s0).
Hypothesis certs : forall op, okop op -> cert (rbody op) (ghost0 op).

Notation exec := (cexec rbody s0).
(** goroutine t was inside its (j+1)-st call, one of op, when the map was m *)
Definition instant (sched : list (choice rop)) (t j : nat) (op : rop) (m : entries) : Prop :=
  exists p1 p2, sched = p1 ++ p2 /\ metrics (sh (fst (exec p1))) = m /\
    List.length (done_calls t (snd (exec p1))) = j /\ exists ls, open_call t (snd (exec p1)) = Some (op, ls).
Lemma instant_more sched ch t j op m : instant sched t j op m -> instant (sched ++ [ch]) t j op m.
Proof. intros (p1 & p2 & -> & H). exists p1, (p2 ++ [ch]). rewrite app_assoc. auto. Qed.
Lemma instants_more sched ch t j op ms : Forall (instant sched t j op) ms -> Forall (instant (sched ++ [ch]) t j op) ms.
Proof. apply Forall_impl. intro m. apply instant_more. Qed.

Definition lin_ok (s : rstate) (G : nat -> ghost) (tr : list (event rlabel rop rret)) : Prop :=
  exists l f qa, erase l = history tr /\ valid rapply (conc s0) (fun _ => TIdle) l qa f /\ (forall t, f t = gst (G t)) /\
    (held (reg_lock s) = false -> qa = conc s) /\ (forall t, wr (gR (G t)) = true -> qa = gc (G t)).
Record ginv (sched : list (choice rop)) (c : config rstate rlabel rop rret) (tr : list (event rlabel rop rret)) (G : nat -> ghost) (ts : list nat) : Prop := {
  gi_nd : NoDup ts;
  gi_out : forall t, ~ In t ts -> th c t = Idle;
  gi_cert : forall t, match th c t with Idle => G t = idle_ghost | Busy op cd => cert cd (G t) /\ gop (G t) = op end;
  gi_locks : locks_ok (sh c) G ts;
  gi_known : forall t, holds_map (G t) -> conc (sh c) = gq (G t);
  gi_wf : wfm (metrics (sh c));
  gi_lin : lin = true -> lin_ok (sh c) G tr;
  gi_open : forall t, open_call t tr = match th c t with Idle => None | Busy op _ => Some (op, gls (G t)) end;
  gi_done : forall t j cl, nth_error (done_calls t tr) j = Some cl ->
    exists g, gop g = c_op cl /\ gls g = c_labels cl /\ Post g (c_ret cl) /\ Forall (instant sched t j (c_op cl)) (gms g);
  gi_inst : forall t, Forall (instant sched t (List.length (done_calls t tr)) (gop (G t))) (gms (G t))
}.

Lemma sumf_ext f G G' ts : (forall t, f (G t) = f (G' t)) -> sumf f G ts = sumf f G' ts.
Proof. intros H. induction ts; cbn; auto. Qed.

Lemma lock_ok_new l s G ts t g : lock_ok l s G ts -> In t ts -> NoDup ts -> hof l (G t) = hfree -> hof l g = hfree -> lock_ok l s (pupd G t g) ts.
Proof.
  intros (H1 & H2 & H3 & H4 & H5) Ht ND E E'. unfold lock_ok.
  assert (X : forall f, sumf (fun g => f (hof l g)) (pupd G t g) ts = sumf (fun g => f (hof l g)) G ts).
  { intros f. apply sumf_ext. intros u. unfold pupd. destruct (Nat.eqb_spec u t) as [->|]; congruence. }
  rewrite (X rc), (X (fun h => b2n (an h))), (X (fun h => b2n (wr h))). split; [auto|]. split; [auto|]. split; [auto|]. split; auto.
  intros u. unfold pupd. destruct (Nat.eqb u t); auto. rewrite E'. intros W. easy.
Qed.
Lemma lock_ok_cons l s G ts t : lock_ok l s G ts -> hof l (G t) = hfree -> lock_ok l s G (t :: ts).
Proof. intros (H1 & H2 & H3 & H4 & H5) E. unfold lock_ok. cbn. rewrite E. cbn. auto. Qed.

Lemma ginv0 : ginv [] (cstart s0) [] (fun _ => idle_ghost) [].
Proof.
  destruct s0_free as [E1 E2]. constructor; try (intros; cbn; auto; fail).
  - constructor.
  - intros l. unfold lock_ok. destruct l; cbn; rewrite ?E1, ?E2; cbn; (split; [auto|split; [auto|split; [auto|split; [auto|intros t W; easy]]]]).
  - intros t [H|H]; cbn in H; [lia|easy].
  - intros _. exists [], (fun _ => TIdle), (conc s0). split; [reflexivity|]. split; [constructor|]. split; [auto|]. split; [auto|]. intros t W. easy.
  - intros t j cl H. destruct j; easy.
Qed.

Lemma ginv_call sched c tr G ts t op : okop op -> ginv sched c tr G ts -> th c t = Idle ->
  exists G' ts', ginv (sched ++ [Call t op]) (MkConfig (sh c) (tset (th c) t (Busy op (rbody op)))) (tr ++ [EInv t op]) G' ts'.
Proof.
  intros Hop [nd out cer lk kn wf li op_ dn ins] Ei.
  assert (Eg : G t = idle_ghost) by (specialize (cer t); now rewrite Ei in cer).
  assert (P : exists ts', NoDup ts' /\ In t ts' /\ (forall u, ~ In u ts' -> ~ In u ts) /\ locks_ok (sh c) G ts').
  { destruct (in_dec Nat.eq_dec t ts) as [Hin|Hn].
    - exists ts. auto.
    - exists (t :: ts). split; [now constructor|]. split; [now left|]. split; [intros u N X; apply N; now right|].
      intros l. apply lock_ok_cons; auto. rewrite Eg. now destruct l. }
  destruct P as (ts' & nd' & Ht & Hsub & lk').
  exists (pupd G t (ghost0 op)), ts'. constructor; cbn [sh th]; auto.
  - intros u N. rewrite tset_other by (intros ->; auto). apply out. auto.
  - intros u. destruct (Nat.eq_dec u t) as [->|N]; [rewrite tset_same, pupd_same|rewrite tset_other, pupd_other by auto; apply cer]. split; [now apply certs|reflexivity].
  - intros l. apply lock_ok_new; auto; [rewrite Eg|]; now destruct l.
  - intros u. unfold pupd. destruct (Nat.eqb u t); auto. intros [H|H]; cbn in H; [lia|easy].
  - intros Hl. destruct (li Hl) as (l & f & qa & E1 & E2 & E3 & E4 & E5). exists (l ++ [XInv t op]), (tupd f t (TPending op)), qa.
    rewrite erase_app, history_app, E1. split; [reflexivity|]. split; [apply valid_inv; auto; now rewrite E3, Eg|]. split.
    + intros u. unfold tupd, pupd. destruct (Nat.eqb u t); auto.
    + split; auto. intros u. unfold pupd. destruct (Nat.eqb u t); auto. intros W. easy.
  - intros u. rewrite open_inv. rewrite Nat.eqb_sym. destruct (Nat.eqb_spec u t) as [->|N]; [now rewrite tset_same, pupd_same|rewrite tset_other, pupd_other by auto; apply op_].
  - intros u j cl. rewrite done_inv. intros H. destruct (dn u j cl H) as (g & A1 & A2 & A3 & A4). exists g. split; auto. split; auto. split; auto. now apply instants_more.
  - intros u. rewrite done_inv. destruct (Nat.eq_dec u t) as [->|N]; [rewrite pupd_same; constructor|rewrite pupd_other by auto]. now apply instants_more.
Qed.

Lemma ginv_ret sched c tr G ts t op r : ginv sched c tr G ts -> th c t = Busy op (Ret r) ->
  ginv (sched ++ [Run t]) (MkConfig (sh c) (tset (th c) t Idle)) (tr ++ [ERes t r]) (pupd G t idle_ghost) ts.
Proof.
  intros [nd out cer lk kn wf li op_ dn ins] Ei.
  pose proof (cer t) as Ct. rewrite Ei in Ct. destruct Ct as ((Fr & Po & Li) & Eo).
  assert (Ht : In t ts). { destruct (in_dec Nat.eq_dec t ts) as [Hin|Hn]; auto. rewrite (out t Hn) in Ei. easy. }
  pose proof (op_ t) as Ot. rewrite Ei in Ot.
  constructor; cbn [sh th]; auto.
  - intros u N. rewrite tset_other by (intros ->; auto). auto.
  - intros u. destruct (Nat.eq_dec u t) as [->|N]; [now rewrite tset_same, pupd_same|rewrite tset_other, pupd_other by auto; apply cer].
  - intros l. destruct Fr. apply lock_ok_new; auto; now destruct l.
  - intros u. unfold pupd. destruct (Nat.eqb u t); auto. intros [H|H]; cbn in H; [lia|easy].
  - intros Hl. destruct (li Hl) as (l & f & qa & E1 & E2 & E3 & E4 & E5). destruct (Li Hl) as [D|(o & D & D2)].
    + exists (l ++ [XRes t r]), (tupd f t TIdle), qa. rewrite erase_app, history_app, E1. split; [reflexivity|]. split; [apply valid_res; auto; now rewrite E3|]. split.
      * intros u. unfold tupd, pupd. destruct (Nat.eqb u t); auto.
      * split; auto. intros u. unfold pupd. destruct (Nat.eqb u t); auto. intros W. easy.
    + exists ((l ++ [XLin t]) ++ [XRes t r]), (tupd (tupd f t (TDone r)) t TIdle), qa. rewrite !erase_app, history_app, E1. split; [cbn; now rewrite app_nil_r|]. split.
      * apply valid_res; [|now rewrite tupd_same]. eapply valid_lin; eauto. now rewrite E3.
      * split; [intros u; unfold tupd, pupd; destruct (Nat.eqb u t); auto|]. split; auto. intros u. unfold pupd. destruct (Nat.eqb u t); auto. intros W. easy.
  - intros u. rewrite open_res. rewrite Nat.eqb_sym. destruct (Nat.eqb_spec u t) as [->|N]; [now rewrite tset_same|rewrite tset_other, pupd_other by auto; apply op_].
  - intros u j cl. rewrite done_res. destruct (Nat.eqb_spec t u) as [<-|N].
    + rewrite Ot. intros H. destruct (Nat.lt_ge_cases j (List.length (done_calls t tr))) as [L|L].
      * rewrite nth_error_app1 in H by exact L. destruct (dn t j cl H) as (g & A1 & A2 & A3 & A4). exists g. split; auto. split; auto. split; auto. now apply instants_more.
      * rewrite nth_error_app2 in H by exact L. destruct (j - List.length (done_calls t tr)) as [|d] eqn:Ed; [|destruct d; easy]. cbn in H. injection H as <-. cbn [c_op c_labels c_ret].
        exists (G t). split; auto. split; auto. split; auto. replace j with (List.length (done_calls t tr)) by lia. rewrite <- Eo. apply instants_more, ins.
    + intros H. destruct (dn u j cl H) as (g & A1 & A2 & A3 & A4). exists g. split; auto. split; auto. split; auto. now apply instants_more.
  - intros u. destruct (Nat.eq_dec u t) as [->|N]; [rewrite pupd_same; constructor|rewrite pupd_other by auto].
    rewrite done_res. destruct (Nat.eqb_spec t u) as [<-|_]; [congruence|]. now apply instants_more.
Qed.

Lemma trans_frame a s g g' : trans a s g g' ->
  (forall l, hof l g' = hof l (after a s g)) /\ gop g' = gop g /\ gls g' = gls g ++ lab a s /\ gq g' = gq (after a s g) /\ gc g' = gc (after a s g) /\ gms g' = gms (after a s g).
Proof.
  assert (X : gop (after a s g) = gop g /\ gls (after a s g) = gls g ++ lab a s) by (destruct a as [l|l|l|l|l| | | | | | |]; try destruct l; cbn; auto).
  intros [[-> _]|(op & r & _ & -> & _)]; (split; [intros l; now destruct l|]); repeat match goal with |- _ /\ _ => split end; try apply X; reflexivity.
Qed.
Lemma upd_conc a s : conc (upd a s) = match a with AMapWrite f => (f (metrics s), made s) | AMake v => (metrics s, made s ++ [v]) | _ => conc s end.
Proof. destruct a as [l|l|l|l|l| | | | | | |]; try destruct l; reflexivity. Qed.
Lemma after_ms a s g : gms (after a s g) = match a with ARLock RegL => gms g ++ [metrics s] | _ => gms g end.
Proof. destruct a as [l|l|l|l|l| | | | | | |]; try destruct l; reflexivity. Qed.
Lemma after_gq a s g : gq (after a s g) = match a with ARLock RegL | AAcquire RegL => conc s | AMapWrite f => (f (fst (gq g)), snd (gq g)) | AMake v => (fst (gq g), snd (gq g) ++ [v]) | _ => gq g end.
Proof. destruct a as [l|l|l|l|l| | | | | | |]; try destruct l; reflexivity. Qed.
Lemma after_gc a s g : gc (after a s g) = match a with AAcquire RegL => conc s | _ => gc g end.
Proof. destruct a as [l|l|l|l|l| | | | | | |]; try destruct l; reflexivity. Qed.

Lemma ginv_step sched c tr G ts t op e u l k : c = fst (exec sched) -> tr = snd (exec sched) ->
  ginv sched c tr G ts -> th c t = Busy op (Atom e u l k) -> e (sh c) = true ->
  exists G', ginv (sched ++ [Run t]) (MkConfig (u (sh c)) (tset (th c) t (Busy op (k (sh c))))) (tr ++ map (EStep t) (l (sh c))) G' ts.
Proof.
  intros Ec Etr [nd out cer lk kn wf li op_ dn ins] Ei En.
  pose proof (cer t) as Ct. rewrite Ei in Ct. destruct Ct as ((a & -> & -> & -> & Le & Wa & Ck) & Eo).
  assert (Ht : In t ts). { destruct (in_dec Nat.eq_dec t ts) as [Hin|Hn]; auto. rewrite (out t Hn) in Ei. easy. }
  pose proof (locks_feasible (sh c) G ts t a lk Ht En) as Fe.
  destruct (Ck (sh c) En Fe (kn t) wf) as (g' & Tr & Ck'). clear Ck.
  destruct (trans_frame a (sh c) (G t) g' Tr) as (F1 & F2 & F3 & F4 & F5 & F6).
  pose proof (op_ t) as Ot. rewrite Ei in Ot.
  assert (lk' : locks_ok (upd a (sh c)) (pupd G t g') ts) by (intros l0; apply lock_ok_step; auto).
  exists (pupd G t g'). constructor; cbn [sh th]; auto.
  - intros w N. rewrite tset_other by (intros ->; auto). auto.
  - intros w. destruct (Nat.eq_dec w t) as [->|N]; [rewrite tset_same, pupd_same|rewrite tset_other, pupd_other by auto; apply cer]. split; auto. now rewrite F2.
  - intros w Hw. rewrite upd_conc. destruct (Nat.eq_dec w t) as [->|N].
    + rewrite pupd_same in *. rewrite F4, after_gq.
      assert (Hm : a <> ARLock RegL -> a <> AAcquire RegL -> holds_map (G t)).
      { intros N1 N2. unfold holds_map in *. pose proof (F1 RegL) as FR. rewrite hof_after in FR. cbn [hof] in FR. rewrite FR in Hw.
        destruct a as [l0|l0|l0|l0|l0| | | | | | |]; try destruct l0; cbn in Hw; auto; try easy; try lia.
      }
      destruct a as [l0|l0|l0|l0|l0| | | | | | |]; try destruct l0; try reflexivity; try (apply kn, Hm; congruence).
      * rewrite <- (kn t) by (apply Hm; congruence). reflexivity.
      * rewrite <- (kn t) by (apply Hm; congruence). reflexivity.
    + rewrite pupd_other in Hw |- * by auto. assert (Hnw : wr (gR (G t)) = true -> False).
      { intros W. destruct (in_dec Nat.eq_dec w ts) as [Hin|Hn].
        - pose proof (writer_alone RegL (sh c) G ts t w nd Ht Hin (not_eq_sym N) (lk RegL) W) as X. cbn in X. destruct Hw as [Hw|Hw]; rewrite X in Hw; cbn in Hw; [lia|easy].
        - pose proof (cer w) as X. rewrite (out w Hn) in X. destruct Hw as [Hw|Hw]; rewrite X in Hw; cbn in Hw; [lia|easy]. }
      destruct a as [l0|l0|l0|l0|l0| | | | | | |]; try apply kn; auto; cbn in Le; exfalso; auto. now apply Hnw.
  - destruct a as [l0|l0|l0|l0|l0| | | | | | |]; try destruct l0; try exact wf. cbn in *. rewrite <- (kn t) in Le by (right; apply Le). apply Le.
  - intros Hl. destruct (li Hl) as (lx & f & qa & E1 & E2 & E3 & E4 & E5).
    assert (Qa : forall q', (gst g' = gst (G t) /\ q' = qa) \/ (exists r op', gst (G t) = TPending op' /\ gst g' = TDone r /\ rapply qa op' = (q', r)) ->
      (held (reg_lock (upd a (sh c))) = false -> q' = conc (upd a (sh c))) -> (forall w, wr (gR (pupd G t g' w)) = true -> q' = gc (pupd G t g' w)) ->
      lin_ok (upd a (sh c)) (pupd G t g') (tr ++ map (EStep t) (lab a (sh c)))).
    { intros q' [[S1 ->]|(r & op' & S1 & S2 & Ap)] H1 H2.
      - exists lx, f, qa. rewrite history_app, history_steps, app_nil_r. repeat match goal with |- _ /\ _ => split end; auto.
        intros w. unfold pupd. destruct (Nat.eqb_spec w t) as [->|]; auto. now rewrite S1.
      - exists (lx ++ [XLin t]), (tupd f t (TDone r)), q'. rewrite history_app, history_steps, app_nil_r, erase_app, E1. repeat match goal with |- _ /\ _ => split end; auto.
        + cbn. now rewrite app_nil_r.
        + eapply valid_lin; eauto. now rewrite E3.
        + intros w. unfold tupd, pupd. destruct (Nat.eqb_spec w t) as [->|]; auto. }
    assert (Oth : forall w, w <> t -> In w ts \/ wr (gR (G w)) = false).
    { intros w N. destruct (in_dec Nat.eq_dec w ts) as [|Hn]; auto. right. pose proof (cer w) as X. rewrite (out w Hn) in X. now rewrite X. }
    pose proof (F1 RegL) as FR. rewrite hof_after in FR. cbn [hof] in FR.
    assert (Hr : reg_lock (upd a (sh c)) = snd (acts_on a RegL (gR (G t)) (reg_lock (sh c)))) by exact (lock_upd a RegL (sh c) (G t)).
    destruct Tr as [[-> Hun]|(op' & r & P1 & -> & P2)].
    + assert (Sg : gst (after a (sh c) (G t)) = gst (G t)) by (destruct a as [l0|l0|l0|l0|l0| | | | | | |]; try destruct l0; reflexivity).
      apply (Qa qa); [left; auto| |].
      * rewrite upd_conc, Hr. intros Hh.
        destruct a as [l0|l0|l0|l0|l0| | | | | | |]; try destruct l0; cbn [acts_on snd lock_eqb held] in Hh; auto; try easy.
        -- cbn in Le. rewrite (E5 t Le), (kn t) by (now right). apply Hun; auto.
        -- cbn in Le. pose proof (writer_held RegL (sh c) G ts t Ht (lk RegL) (proj1 Le)) as X. cbn in X. congruence.
        -- cbn in Le. pose proof (writer_held RegL (sh c) G ts t Ht (lk RegL) Le) as X. cbn in X. congruence.
      * intros w. destruct (Nat.eq_dec w t) as [->|N]; [rewrite pupd_same|rewrite pupd_other by auto; apply E5].
        rewrite after_gc. change (gR (after a (sh c) (G t))) with (hof RegL (after a (sh c) (G t))). rewrite hof_after. cbn [hof lock_of].
        destruct a as [l0|l0|l0|l0|l0| | | | | | |]; try destruct l0; cbn [acts_on fst lock_eqb wr]; try apply E5; try easy.
        intros _. apply E4. cbn in Le. destruct Le as [L1 L2]. destruct (held (reg_lock (sh c))) eqn:Hh; auto. exfalso.
        destruct (held_writer RegL (sh c) G ts (lk RegL) Hh) as (w & Hw & Ww). destruct (Nat.eq_dec w t) as [->|N]; [cbn in *; congruence|].
        pose proof (writer_alone RegL (sh c) G ts w t nd Hw Ht N (lk RegL) Ww) as X. cbn in X. rewrite X in L1. easy.
    + apply (Qa (gq (G t))).
      * right. exists r, op'. split; auto. split; auto. destruct P2 as [[-> P2]|[-> P2]]; cbn in Le.
        -- now rewrite (E5 t Le).
        -- pose proof (reader_not_held RegL (sh c) G ts t Ht (lk RegL) Le) as NH. rewrite (E4 NH), (kn t (or_introl Le)). exact P2.
      * intros _. rewrite upd_conc. destruct P2 as [[-> P2]|[-> P2]]; cbn in Le; symmetry; apply kn; [right|left]; auto.
      * intros w. destruct (Nat.eq_dec w t) as [->|N]; [rewrite pupd_same|rewrite pupd_other by auto].
        -- cbn [with_st gR gc]. destruct P2 as [[-> P2]|[-> P2]]; cbn; [easy|]. intros W. cbn in Le. destruct (lk RegL) as (_ & _ & _ & _ & K). destruct (K t W) as [_ K2]. cbn in K2. lia.
        -- intros W. destruct (Oth w N) as [Hw|Hw]; [|congruence]. pose proof (writer_alone RegL (sh c) G ts w t nd Hw Ht N (lk RegL) W) as X. cbn in X.
           destruct P2 as [[-> P2]|[-> P2]]; cbn in Le; rewrite X in Le; cbn in Le; [easy|lia].
  - intros w. rewrite open_steps. destruct (Nat.eq_dec w t) as [->|N].
    + rewrite Nat.eqb_refl, tset_same, pupd_same, Ot. now rewrite F3.
    + rewrite tset_other, pupd_other by auto. rewrite (proj2 (Nat.eqb_neq t w)) by auto. apply op_.
  - intros w j cl. rewrite done_steps. intros H. destruct (dn w j cl H) as (g & A1 & A2 & A3 & A4). exists g. split; auto. split; auto. split; auto. now apply instants_more.
  - intros w. rewrite done_steps. destruct (Nat.eq_dec w t) as [->|N]; [rewrite pupd_same|rewrite pupd_other by auto; now apply instants_more].
    rewrite F2, F6, after_ms. pose proof (instants_more _ (Run t) _ _ _ _ (ins t)) as I0.
    destruct a as [l0|l0|l0|l0|l0| | | | | | |]; try destruct l0; auto. apply Forall_app. split; auto. constructor; auto.
    exists sched, [Run t]. split; auto. subst c tr. split; auto. split; auto. exists (gls (G t)). now rewrite Ot, Eo.
Qed.

Lemma ginv_exec sched : Forall okop (calls (snd (exec sched))) -> exists G ts, ginv sched (fst (exec sched)) (snd (exec sched)) G ts.
Proof.
  induction sched as [|ch sched IH] using rev_ind; intros Hc.
  - exists (fun _ => idle_ghost), []. apply ginv0.
  - rewrite cexec_snoc in *. destruct (exec sched) as [c tr] eqn:E. cbn [fst snd] in *.
    destruct (cstep rbody c ch) as [c' ev] eqn:Es. cbn [fst snd] in *. rewrite calls_app in Hc. apply Forall_app in Hc. destruct Hc as [Hc Hev].
    destruct (IH Hc) as (G & ts & I). unfold cstep in Es. destruct ch as [t op|t].
    + destruct (th c t) as [|o cd] eqn:Et; injection Es as <- <-.
      * cbn in Hev. inversion Hev; subst. now apply (ginv_call sched c tr G ts).
      * exists G, ts. rewrite app_nil_r. destruct I. constructor; auto; intros; [|apply instants_more; auto]. edestruct gi_done0 as (g & A1 & A2 & A3 & A4); eauto. exists g. split; auto. split; auto. split; auto. now apply instants_more.
    + assert (Keep : ginv (sched ++ [Run t]) c tr G ts).
      { destruct I. constructor; auto; intros; [|apply instants_more; auto]. edestruct gi_done0 as (g & A1 & A2 & A3 & A4); eauto. exists g. split; auto. split; auto. split; auto. now apply instants_more. }
      destruct (th c t) as [|o [r|e u l k]] eqn:Et; [injection Es as <- <-| injection Es as <- <-|].
      * exists G, ts. now rewrite app_nil_r.
      * exists (pupd G t idle_ghost), ts. now apply (ginv_ret sched c tr G ts t o).
      * destruct (e (sh c)) eqn:En; injection Es as <- <-; [|exists G, ts; now rewrite app_nil_r].
        destruct (ginv_step sched c tr G ts t o e u l k) as (G' & I'); rewrite ?E; auto. exists G', ts. exact I'.
Qed.
End Disc.
