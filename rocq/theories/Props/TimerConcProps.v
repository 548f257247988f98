(** Property C43 (several goroutines): timers. *)
From Coq Require Import ZArith List Bool Lia Arith.
From Verif.Model Require Import GoInt Conc TimerConc.
From Verif.Spec Require Import Linearizability Traces.
From Verif.Proofs Require Import IntFacts LinProofs PcProofs PcLin.
Import ListNotations.
Open Scope Z_scope.

Definition len {A} (l : list A) : Z := Z.of_nat (length l).
(** a timer is the sequence of durations recorded on it; a snapshot has all of them, and a
    meter that has counted each of them once *)
Definition timer_apply (q : list Z) (op : timer_op) : list Z * timer_ret :=
  match op with
  | TUpdate d => (q ++ [d], TUnit)
  | TSnapshot => (q, TSnap q (wrap64 (len q)))
  | TCount => (q, TInt (wrap64 (len q)))
  | TValues => (q, TList q)
  | TStop => (q, TUnit)
  end.

(** ** program points *)
Inductive pc :=
| U0 (d : Z) | U1 (d : Z) | U2 (d : Z) | U3 | U4 | U5 | U6
| S0 | S1 | S2 | S3 (ds : list Z) | S4 (ds : list Z) | S5 (ds : list Z) (n : Z)
| C0 (v : bool) | C1 (v : bool) | C2 (r : timer_ret)
| P0 | PR (r : timer_ret).
Definition creading (v : bool) (ds : list Z) : timer_ret := if v then TList ds else TInt (wrap64 (len ds)).
Definition append d := fun s => MkT (t_mutex s) (s_mutex s) (t_log s ++ [d]) (m_cnt s) (m_stop s).
Definition addone := fun s => MkT (t_mutex s) (s_mutex s) (t_log s) (wrap64 (m_cnt s + 1)) (m_stop s).
Definition setstop := fun s => MkT (t_mutex s) (s_mutex s) (t_log s) (m_cnt s) true.
Definition code_of (p : pc) : tcode :=
  match p with
  | U0 d => lockT (lockS (tact (append d) (fun _ => unlockS (mark_c (unlockT (Ret TUnit))))))
  | U1 d => lockS (tact (append d) (fun _ => unlockS (mark_c (unlockT (Ret TUnit)))))
  | U2 d => tact (append d) (fun _ => unlockS (mark_c (unlockT (Ret TUnit))))
  | U3 => unlockS (mark_c (unlockT (Ret TUnit)))
  | U4 => mark_c (unlockT (Ret TUnit))
  | U5 => tact addone (fun _ => unlockT (Ret TUnit))
  | U6 => unlockT (Ret TUnit)
  | S0 => lockT (lockS (tact (fun s => s) (fun s => unlockS (tact (fun s => s) (fun s' => unlockT (Ret (TSnap (t_log s) (m_cnt s'))))))))
  | S1 => lockS (tact (fun s => s) (fun s => unlockS (tact (fun s => s) (fun s' => unlockT (Ret (TSnap (t_log s) (m_cnt s')))))))
  | S2 => tact (fun s => s) (fun s => unlockS (tact (fun s => s) (fun s' => unlockT (Ret (TSnap (t_log s) (m_cnt s'))))))
  | S3 ds => unlockS (tact (fun s => s) (fun s' => unlockT (Ret (TSnap ds (m_cnt s')))))
  | S4 ds => tact (fun s => s) (fun s' => unlockT (Ret (TSnap ds (m_cnt s'))))
  | S5 ds n => unlockT (Ret (TSnap ds n))
  | C0 v => lockS (tact (fun s => s) (fun s => unlockS (Ret (creading v (t_log s)))))
  | C1 v => tact (fun s => s) (fun s => unlockS (Ret (creading v (t_log s))))
  | C2 r => unlockS (Ret r)
  | P0 => tact setstop (fun _ => Ret TUnit)
  | PR r => Ret r
  end.
Definition entry (op : timer_op) : pc := match op with TUpdate d => U0 d | TSnapshot => S0 | TCount => C0 false | TValues => C0 true | TStop => P0 end.
Definition next (p : pc) (s : tstate) : pc :=
  match p with
  | U0 d => U1 d | U1 d => U2 d | U2 _ => U3 | U3 => U4 | U4 => if m_stop s then U6 else U5 | U5 => U6 | U6 => PR TUnit
  | S0 => S1 | S1 => S2 | S2 => S3 (t_log s) | S3 ds => S4 ds | S4 ds => S5 ds (m_cnt s) | S5 ds n => PR (TSnap ds n)
  | C0 v => C1 v | C1 v => C2 (creading v (t_log s)) | C2 r => PR r | P0 => PR TUnit | PR r => PR r
  end.
Lemma entry_ok op : timer_body op = code_of (entry op).
Proof. destruct op; reflexivity. Qed.
Lemma next_ok p e u l k s : code_of p = Atom e u l k -> e s = true -> k s = code_of (next p s).
Proof. destruct p; cbn; intros H; inversion H; subst; intros _; cbn; try reflexivity. destruct (m_stop s); reflexivity. Qed.

Definition holdsT (p : pc) : bool := match p with U1 _ | U2 _ | U3 | U4 | U5 | U6 | S1 | S2 | S3 _ | S4 _ | S5 _ _ => true | _ => false end.
(** inside Update, recorded in the histogram but not yet in the meter *)
Definition mid (p : pc) : bool := match p with U3 | U4 | U5 => true | _ => false end.
Definition fact (s : tstate) (missed : Z) (p : pc) : Prop :=
  match p with S3 ds | S4 ds => t_log s = ds | S5 ds n => t_log s = ds /\ n = wrap64 (len ds - missed) | _ => True end.
(** [missed] durations were recorded after Stop *)
Record tinv (s : tstate) (pcs : nat -> option pc) (missed : Z) : Prop := {
  i_lock : forall t p, pcs t = Some p -> holdsT p = true -> t_mutex s = true;
  i_one : forall t u p p', pcs t = Some p -> pcs u = Some p' -> holdsT p = true -> holdsT p' = true -> t = u;
  i_mid : forall t p, pcs t = Some p -> mid p = true -> m_cnt s = wrap64 (len (t_log s) - missed - 1) /\ 0 <= missed <= len (t_log s) - 1;
  i_none : (forall t p, pcs t = Some p -> mid p = false) -> m_cnt s = wrap64 (len (t_log s) - missed) /\ 0 <= missed <= len (t_log s);
  i_u5 : m_stop s = false -> missed = 0;
  i_fact : forall t p, pcs t = Some p -> fact s missed p
}.
Lemma mid_holds p : mid p = true -> holdsT p = true.
Proof. destruct p; auto. Qed.

Ltac cases t u := let E := fresh "E" in destruct (Nat.eq_dec u t) as [E|E]; [subst u; rewrite pupd_same in *|rewrite pupd_other in * by exact E].
Lemma upd_get {A} (f : nat -> option A) t x u p : pupd f t (Some x) u = Some p -> (u = t /\ p = x) \/ (u <> t /\ f u = Some p).
Proof. unfold pupd. destruct (Nat.eqb_spec u t); intros H; [left; split; congruence|auto]. Qed.
Lemma upd_none {A} (f : nat -> option A) t u p : pupd f t None u = Some p -> u <> t /\ f u = Some p.
Proof. unfold pupd. destruct (Nat.eqb_spec u t); intros H; [discriminate|auto]. Qed.

Lemma len_snoc {A} (l : list A) x : len (l ++ [x]) = len l + 1.
Proof. unfold len. rewrite app_length. cbn. lia. Qed.
Lemma len_pos {A} (l : list A) : 0 <= len l.
Proof. unfold len. lia. Qed.

(** a move that is not holding the timer's mutex before and after and changes nothing that matters *)
Lemma inv_idle s s' pcs t x missed : tinv s pcs missed ->
  t_mutex s' = t_mutex s -> t_log s' = t_log s -> m_cnt s' = m_cnt s -> (m_stop s' = false -> m_stop s = false) ->
  match pcs t with Some p => holdsT p = false | None => True end ->
  match x with Some p => holdsT p = false | None => True end -> tinv s' (pupd pcs t x) missed.
Proof.
  intros [A B C D E F] H1 H2 H3 H4 Hp Hx.
  assert (G : forall u p, pupd pcs t x u = Some p -> holdsT p = true -> u <> t /\ pcs u = Some p).
  { intros u p Hu Hh. unfold pupd in Hu. destruct (Nat.eqb_spec u t); [rewrite Hu in Hx; congruence|auto]. }
  constructor; rewrite ?H1, ?H2, ?H3.
  - intros u p Hu Hh. destruct (G u p Hu Hh). eauto.
  - intros u v p p' Hu Hv Hh Hh'. destruct (G u p Hu Hh), (G v p' Hv Hh'). eauto.
  - intros u p Hu Hm. destruct (G u p Hu (mid_holds _ Hm)). eauto.
  - intros N. apply D. intros u p Hu. destruct (Nat.eq_dec u t) as [->|Ne].
    + rewrite Hu in Hp. destruct (mid p) eqn:M; auto. apply mid_holds in M. congruence.
    + apply (N u). now rewrite pupd_other.
  - auto.
  - intros u p Hu. destruct (holdsT p) eqn:Hh.
    + destruct (G u p Hu Hh) as [_ K]. specialize (F u p K). unfold fact in *. rewrite H2. exact F.
    + destruct p; try discriminate Hh; exact Logic.I.
Qed.
(** a move by the goroutine that holds the mutex *)
Lemma inv_hold s s' pcs t p x missed missed' : tinv s pcs missed -> pcs t = Some p -> holdsT p = true ->
  holdsT x = true -> t_mutex s' = t_mutex s ->
  (if mid x then m_cnt s' = wrap64 (len (t_log s') - missed' - 1) /\ 0 <= missed' <= len (t_log s') - 1 else m_cnt s' = wrap64 (len (t_log s') - missed') /\ 0 <= missed' <= len (t_log s')) ->
  (m_stop s' = false -> missed' = 0) -> fact s' missed' x -> tinv s' (pupd pcs t (Some x)) missed'.
Proof.
  intros [A B C D E F] Ht Hp Hx H1 Hm Hs Hf.
  assert (G : forall u p', pupd pcs t (Some x) u = Some p' -> holdsT p' = true -> u = t /\ p' = x).
  { intros u p' Hu Hh. apply upd_get in Hu. destruct Hu as [Hu|[Ne Hu]]; auto. exfalso. apply Ne. eapply B; eauto. }
  constructor.
  - intros u p' Hu Hh. destruct (G u p' Hu Hh) as [-> ->]. rewrite H1. eauto.
  - intros u v p' p'' Hu Hv Hh Hh'. destruct (G u p' Hu Hh), (G v p'' Hv Hh'). congruence.
  - intros u p' Hu Hmm. destruct (G u p' Hu (mid_holds _ Hmm)) as [-> ->]. rewrite Hmm in Hm. exact Hm.
  - intros N. specialize (N t x). rewrite pupd_same in N. rewrite (N eq_refl) in Hm. exact Hm.
  - exact Hs.
  - intros u p' Hu. destruct (holdsT p') eqn:Hh.
    + destruct (G u p' Hu Hh) as [-> ->]. exact Hf.
    + destruct p'; try discriminate Hh; exact Logic.I.
Qed.
Lemma inv_take s pcs t p x missed : tinv s pcs missed -> pcs t = Some p -> holdsT p = false -> t_mutex s = false -> holdsT x = true -> mid x = false ->
  (forall s', fact s' missed x) -> tinv (MkT true (s_mutex s) (t_log s) (m_cnt s) (m_stop s)) (pupd pcs t (Some x)) missed.
Proof.
  intros [A B C D E F] Ht Hp Hl Hx Hmx Hf.
  assert (N : forall u p', pcs u = Some p' -> holdsT p' = false). { intros u p' Hu. destruct (holdsT p') eqn:Hh; auto. rewrite (A u p' Hu Hh) in Hl. discriminate. }
  assert (G : forall u p', pupd pcs t (Some x) u = Some p' -> holdsT p' = true -> u = t /\ p' = x).
  { intros u p' Hu Hh. apply upd_get in Hu. destruct Hu as [Hu|[Ne Hu]]; auto. rewrite (N _ _ Hu) in Hh. discriminate. }
  assert (D' : m_cnt s = wrap64 (len (t_log s) - missed) /\ 0 <= missed <= len (t_log s)).
  { apply D. intros u p' Hu. destruct (mid p') eqn:M; auto. apply mid_holds in M. rewrite (N _ _ Hu) in M. discriminate. }
  constructor; cbn [t_mutex t_log m_cnt m_stop]; auto.
  - intros u v p' p'' Hu Hv Hh Hh'. destruct (G u p' Hu Hh), (G v p'' Hv Hh'). congruence.
  - intros u p' Hu Hm. destruct (G u p' Hu (mid_holds _ Hm)) as [-> ->]. congruence.
  - intros u p' Hu. destruct (holdsT p') eqn:Hh.
    + destruct (G u p' Hu Hh) as [-> ->]. apply Hf.
    + destruct p'; try discriminate Hh; exact Logic.I.
Qed.
Lemma inv_drop s pcs t p x missed : tinv s pcs missed -> pcs t = Some p -> holdsT p = true -> mid p = false -> holdsT x = false ->
  tinv (MkT false (s_mutex s) (t_log s) (m_cnt s) (m_stop s)) (pupd pcs t (Some x)) missed.
Proof.
  intros [A B C D E F] Ht Hp Hmp Hx.
  assert (N : forall u p', pupd pcs t (Some x) u = Some p' -> holdsT p' = false).
  { intros u p' Hu. apply upd_get in Hu. destruct Hu as [[-> ->]|[Ne Hu]]; auto. destruct (holdsT p') eqn:Hh; auto. exfalso. apply Ne. eapply B; eauto. }
  assert (D' : m_cnt s = wrap64 (len (t_log s) - missed) /\ 0 <= missed <= len (t_log s)).
  { apply D. intros u p' Hu. destruct (mid p') eqn:M; auto. rewrite (B u t p' p Hu Ht (mid_holds _ M) Hp) in Hu. congruence. }
  constructor; cbn [t_mutex t_log m_cnt m_stop]; auto.
  - intros u p' Hu Hh. rewrite (N _ _ Hu) in Hh. discriminate.
  - intros u v p' p'' Hu Hv Hh. rewrite (N _ _ Hu) in Hh. discriminate.
  - intros u p' Hu Hm. apply mid_holds in Hm. rewrite (N _ _ Hu) in Hm. discriminate.
  - intros u p' Hu. pose proof (N _ _ Hu) as Hh. destruct p'; try discriminate Hh; exact Logic.I.
Qed.
Lemma i_hold s pcs missed t p : tinv s pcs missed -> pcs t = Some p -> holdsT p = true -> mid p = false -> m_cnt s = wrap64 (len (t_log s) - missed) /\ 0 <= missed <= len (t_log s).
Proof.
  intros [A B C D E F] Ht Hp Hm. apply D. intros u p' Hu. destruct (mid p') eqn:M; auto. rewrite (B u t p' p Hu Ht (mid_holds _ M) Hp) in Hu. congruence.
Qed.

Lemma tinv0 : tinv tstate_init (fun _ => None) 0.
Proof. constructor; try discriminate; auto. cbn. intros _. split; [reflexivity|]. unfold len. cbn. lia. Qed.
Lemma tinv_step s pcs missed t p e u l k : tinv s pcs missed -> pcs t = Some p -> code_of p = Atom e u l k -> e s = true ->
  exists missed', tinv (u s) (pupd pcs t (Some (next p s))) missed' /\ (m_stop s = false -> missed' = missed).
Proof.
  intros I Ht C En. pose proof (i_fact _ _ _ I t p Ht) as Fp.
  destruct p; cbn in C; inversion C; subst e u l k; clear C; cbn [next].
  - exists missed. split; auto. eapply inv_take; eauto. cbn in En. now destruct (t_mutex s).
  - exists missed. split; auto. destruct (i_hold _ _ _ _ _ I Ht eq_refl eq_refl). eapply inv_hold; eauto; cbn; auto. apply I.
  - exists missed. split; auto. destruct (i_hold _ _ _ _ _ I Ht eq_refl eq_refl) as [Hc Hm]. eapply inv_hold; eauto; cbn; auto; [|apply I]. rewrite len_snoc. split; [rewrite Hc; f_equal; lia|lia].
  - exists missed. split; auto. destruct (i_mid _ _ _ I _ _ Ht eq_refl). eapply inv_hold; eauto; cbn; auto. apply I.
  - destruct (i_mid _ _ _ I _ _ Ht eq_refl) as [Hc Hm]. destruct (m_stop s) eqn:St.
    + exists (missed + 1). split; [|discriminate]. eapply inv_hold; eauto; cbn; auto; [|congruence]. split; [rewrite Hc; f_equal; lia|lia].
    + exists missed. split; auto. eapply inv_hold; eauto; cbn; auto. intros _. apply I. auto.
  - destruct (i_mid _ _ _ I _ _ Ht eq_refl) as [Hc Hm]. exists missed. split; auto. eapply inv_hold; eauto; cbn; auto; [|apply I]. split; [|lia]. rewrite Hc. rewrite wrap64_add_l. f_equal. lia.
  - exists missed. split; auto. eapply inv_drop; eauto.
  - exists missed. split; auto. eapply inv_take; eauto. cbn in En. now destruct (t_mutex s).
  - exists missed. split; auto. destruct (i_hold _ _ _ _ _ I Ht eq_refl eq_refl). eapply inv_hold; eauto; cbn; auto. apply I.
  - exists missed. split; auto. destruct (i_hold _ _ _ _ _ I Ht eq_refl eq_refl). eapply inv_hold; eauto; cbn; auto. apply I.
  - exists missed. split; auto. destruct (i_hold _ _ _ _ _ I Ht eq_refl eq_refl). eapply inv_hold; eauto; cbn; auto. apply I.
  - exists missed. split; auto. destruct (i_hold _ _ _ _ _ I Ht eq_refl eq_refl) as [Hc Hm]. eapply inv_hold; eauto; cbn; auto; [apply I|]. cbn in Fp. subst ds. auto.
  - exists missed. split; auto. eapply inv_drop; eauto.
  - exists missed. split; auto. eapply inv_idle; eauto. now rewrite Ht.
  - exists missed. split; auto. eapply inv_idle; eauto. now rewrite Ht.
  - exists missed. split; auto. eapply inv_idle; eauto. now rewrite Ht.
  - exists missed. split; auto. eapply inv_idle; eauto; [discriminate|now rewrite Ht].
Qed.
Lemma tinv_call s pcs missed t op : tinv s pcs missed -> pcs t = None -> tinv s (pupd pcs t (Some (entry op))) missed.
Proof. intros I N. eapply inv_idle; eauto; [now rewrite N|destruct op; reflexivity]. Qed.
Lemma tinv_ret s pcs missed t p r : tinv s pcs missed -> pcs t = Some p -> code_of p = Ret r -> tinv s (pupd pcs t None) missed.
Proof. intros I Ht C. eapply inv_idle; eauto. rewrite Ht. destruct p; try discriminate C. reflexivity. Qed.

(** ** linearizability, while nobody calls Stop *)
Definition stat (p : pc) : @tstat timer_op timer_ret :=
  match p with
  | U0 d | U1 d | U2 d => TPending (TUpdate d)
  | U3 | U4 | U5 | U6 => TDone TUnit
  | S0 | S1 | S2 => TPending TSnapshot
  | S3 ds | S4 ds => TDone (TSnap ds (wrap64 (len ds)))
  | S5 ds n => TDone (TSnap ds n)
  | C0 v | C1 v => TPending (if v then TValues else TCount)
  | C2 r => TDone r
  | P0 => TPending TStop
  | PR r => TDone r
  end.
Definition linv (s : tstate) (pcs : nat -> option pc) (q : list Z) : Prop :=
  tinv s pcs 0 /\ q = t_log s /\ m_stop s = false /\ forall t p, pcs t = Some p -> p <> P0.
Lemma linv_step s pcs q t p e u l k : linv s pcs q -> pcs t = Some p -> code_of p = Atom e u l k -> e s = true ->
  (linv (u s) (pupd pcs t (Some (next p s))) q /\ stat (next p s) = stat p) \/
  (exists op r q', stat p = TPending op /\ stat (next p s) = TDone r /\ timer_apply q op = (q', r) /\ linv (u s) (pupd pcs t (Some (next p s))) q').
Proof.
  intros (I & -> & St & NP) Ht C En. destruct (tinv_step _ _ _ _ _ _ _ _ _ I Ht C En) as (m' & I' & Em). rewrite (Em St) in I'. clear Em m'.
  assert (NP' : next p s <> P0 -> forall u p', pupd pcs t (Some (next p s)) u = Some p' -> p' <> P0) by (intros Nn v p' Hv; apply upd_get in Hv; destruct Hv as [[-> ->]|[_ Hv]]; eauto).
  pose proof (NP t p Ht) as Np. pose proof (i_fact _ _ _ I t p Ht) as Fp.
  assert (GO : u s = u s -> t_log (u s) = t_log s -> m_stop (u s) = m_stop s -> next p s <> P0 -> stat (next p s) = stat p ->
     (linv (u s) (pupd pcs t (Some (next p s))) (t_log s) /\ stat (next p s) = stat p)) by (intros _ H1 H2 H3 H4; split; [split; [exact I'|split; [congruence|split; [congruence|exact (NP' H3)]]]|exact H4]).
  destruct p; cbn in C; inversion C; subst e u l k; clear C; cbn [next] in *; try congruence;
    try (left; apply GO; cbn; auto; try discriminate; destruct (m_stop s); reflexivity || discriminate; fail);
    try (right; eexists _, _, _; split; [reflexivity|]; split; [reflexivity|]; split; [reflexivity|]; split; auto; split; auto; split; auto; apply NP'; discriminate).
  - left. apply GO; auto; try discriminate. cbn. destruct (i_hold _ _ _ _ _ I Ht eq_refl eq_refl) as [Hc _]. cbn in Fp. subst ds. rewrite Hc. now rewrite Z.sub_0_r.
  - right. exists (if v then TValues else TCount), (creading v (t_log s)), (t_log s). split; [reflexivity|]. split; [reflexivity|]. split; [destruct v; reflexivity|]. split; auto. split; auto. split; auto. apply NP'. discriminate.
Qed.

(** Under every schedule of any number of goroutines calling Update (UpdateSince, Time),
    Snapshot, Count and the statistics, all behave as if each had happened in one instant:
    in particular a snapshot never has an event in its histogram that its meter has not
    counted, or the other way round. *)
Theorem C43_concurrent : forall sched, let tr := snd (cexec timer_body tstate_init sched) in
  ~ In TStop (calls tr) -> linearizable timer_apply [] (history tr).
Proof.
  intros sched tr NS.
  refine (pc_linearizable timer_body tstate_init code_of entry next entry_ok next_ok timer_apply (fun op => op <> TStop) stat linv [] _ _ _ _ _ linv_step sched _).
  - split; [exact tinv0|]. split; [reflexivity|]. split; [reflexivity|]. discriminate.
  - intros []; first [reflexivity|congruence].
  - intros []; try discriminate. intros r0 H. inversion H. reflexivity.
  - intros s pcs q t op Ho (I & E & St & NP) N. split; [now apply tinv_call|]. split; auto. split; auto. intros u p' Hu. apply upd_get in Hu. destruct Hu as [[-> ->]|[_ Hu]]; eauto. destruct op; try discriminate. congruence.
  - intros s pcs q t p r (I & E & St & NP) N C. split; [eapply tinv_ret; eauto|]. split; auto. split; auto. intros u p' Hu. apply upd_none in Hu. destruct Hu. eauto.
  - apply Forall_forall. intros op Ho ->. apply NS. exact Ho.
Qed.

(** With Stop: the meter of a snapshot has counted at most the events of its histogram; those
    it has not were recorded after a Stop. *)
Definition snaps_ok (tr : list (event unit timer_op timer_ret)) : Prop :=
  forall t ds n, In (ERes t (TSnap ds n)) tr -> exists missed, n = wrap64 (len ds - missed) /\ 0 <= missed <= len ds /\ (~ In TStop (calls tr) -> missed = 0).
Definition snap_pc (nostop : Prop) (p : pc) : Prop :=
  match p with
  | S5 ds n | PR (TSnap ds n) => exists missed, n = wrap64 (len ds - missed) /\ 0 <= missed <= len ds /\ (nostop -> missed = 0)
  | C2 (TSnap _ _) => False
  | _ => True
  end.
Definition sinv (s : tstate) (pcs : nat -> option pc) (tr : list (event unit timer_op timer_ret)) : Prop :=
  (exists missed, tinv s pcs missed) /\ (~ In TStop (calls tr) -> m_stop s = false /\ forall t, pcs t <> Some P0) /\
  (forall t p, pcs t = Some p -> snap_pc (~ In TStop (calls tr)) p) /\ snaps_ok tr.
Lemma snap_weak (a b : Prop) p : (b -> a) -> snap_pc a p -> snap_pc b p.
Proof. intros H. destruct p; cbn; auto; [|destruct r; auto]; intros (m & H1 & H2 & H3); exists m; auto. Qed.
Theorem C43_snapshots : forall sched, let tr := snd (cexec timer_body tstate_init sched) in
  forall t ds n, In (ERes t (TSnap ds n)) tr -> exists missed, n = wrap64 (len ds - missed) /\ 0 <= missed <= len ds /\ (~ In TStop (calls tr) -> missed = 0).
Proof.
  intros sched.
  assert (P : pc_inv code_of sinv (fst (cexec timer_body tstate_init sched)) (snd (cexec timer_body tstate_init sched))).
  { apply (pc_induction timer_body tstate_init code_of entry next entry_ok next_ok sinv); unfold sinv.
    - split; [exists 0; exact tinv0|]. split; [split; [reflexivity|discriminate]|]. split; [discriminate|]. intros t ds n [].
    - intros s pcs tr t op ((m & I) & Hs & Hp & Hr) N. rewrite calls_app. cbn [calls flat_map app].
      assert (NS : ~ In TStop (calls tr ++ [op]) -> ~ In TStop (calls tr) /\ op <> TStop) by (intros H; split; intros X; apply H, in_or_app; [left|right; left]; auto).
      split; [exists m; now apply tinv_call|]. split; [|split].
      + intros H. destruct (NS H) as [H1 H2]. destruct (Hs H1) as [H3 H4]. split; auto. intros u Hu. apply upd_get in Hu. destruct Hu as [[-> Hu]|[_ Hu]]; [destruct op; cbn in Hu; congruence|exact (H4 u Hu)].
      + intros u p Hu. apply upd_get in Hu. destruct Hu as [[-> ->]|[_ Hu]]; [destruct op; exact Logic.I|]. eapply snap_weak; [|eauto]. intros H. apply (NS H).
      + intros u ds n Hin. rewrite calls_app. cbn [calls flat_map app]. apply in_app_or in Hin. destruct Hin as [Hin|[Hin|[]]]; [|discriminate]. destruct (Hr u ds n Hin) as (m' & H1 & H2 & H3). exists m'. split; auto. split; auto. intros H. apply H3, (NS H).
    - intros s pcs tr t p r ((m & I) & Hs & Hp & Hr) N C. rewrite calls_app. cbn [calls flat_map app]. rewrite app_nil_r.
      split; [exists m; eapply tinv_ret; eauto|]. split; [|split].
      + intros H. destruct (Hs H) as [H3 H4]. split; auto. intros u Hu. apply upd_none in Hu. exact (H4 u (proj2 Hu)).
      + intros u p' Hu. apply upd_none in Hu. apply (Hp u p' (proj2 Hu)).
      + intros u ds n Hin. rewrite calls_app. cbn [calls flat_map app]. rewrite app_nil_r. apply in_app_or in Hin. destruct Hin as [Hin|[Hin|[]]]; [eauto|]. inversion Hin; subst. specialize (Hp _ _ N). destruct p; try discriminate C. inversion C; subst. exact Hp.
    - intros s pcs tr t p e u l k ((m & I) & Hs & Hp & Hr) N C En. assert (El : l s = []) by (destruct p; inversion C; reflexivity). rewrite El. cbn [map]. rewrite app_nil_r.
      destruct (tinv_step _ _ _ _ _ _ _ _ _ I N C En) as (m' & I' & Em).
      split; [exists m'; auto|]. split; [|split; [|exact Hr]].
      + intros H. destruct (Hs H) as [H3 H4]. split; [destruct p; inversion C; subst; cbn; auto; exfalso; exact (H4 t N)|]. intros v Hv. apply upd_get in Hv. destruct Hv as [[-> Hv]|[_ Hv]]; [|exact (H4 v Hv)]. destruct p; cbn in Hv; try discriminate Hv; try (destruct (m_stop s); discriminate).
      + intros v p' Hv. apply upd_get in Hv. destruct Hv as [[-> ->]|[_ Hv]]; [|eauto]. pose proof (Hp _ _ N) as Hpp. pose proof (i_fact _ _ _ I t p N) as Fp. destruct p; cbn; auto.
        * destruct (m_stop s); exact Logic.I.
        * destruct (i_hold _ _ _ _ _ I N eq_refl eq_refl) as [Hc Hm]. cbn in Fp. subst ds. exists m. split; auto. split; auto. intros H. apply (i_u5 _ _ _ I). apply (Hs H).
        * destruct v; exact Logic.I.
        * cbn in Hpp. destruct r; auto. contradiction.
        }
  destruct P as (pcs & _ & _ & _ & _ & H). exact H.
Qed.

(** two goroutines: a Snapshot started in the middle of an Update waits for it; Count does not *)
Definition upd_snap : list (choice timer_op) :=
  [Call 0%nat (TUpdate 7); Run 0%nat; Run 0%nat; Run 0%nat; Run 0%nat; Call 1%nat TSnapshot; Run 1%nat; Call 2%nat TCount; Run 2%nat; Run 2%nat; Run 2%nat; Run 2%nat;
   Run 0%nat; Run 0%nat; Run 0%nat; Run 0%nat] ++ repeat (Run 1%nat) 7.
Example C43_concurrent_example : history (snd (cexec timer_body tstate_init upd_snap)) =
  [HInv 0%nat (TUpdate 7); HInv 1%nat TSnapshot; HInv 2%nat TCount; HRes 2%nat (TInt 1); HRes 0%nat TUnit; HRes 1%nat (TSnap [7] 1)].
Proof. reflexivity. Qed.
(** and with a Stop between the two halves of Update *)
Definition upd_stop : list (choice timer_op) :=
  [Call 0%nat (TUpdate 7); Run 0%nat; Run 0%nat; Run 0%nat; Run 0%nat; Call 1%nat TStop; Run 1%nat; Run 1%nat; Run 0%nat; Run 0%nat; Run 0%nat; Call 1%nat TSnapshot] ++ repeat (Run 1%nat) 7.
Example C43_stop_example : last (history (snd (cexec timer_body tstate_init upd_stop))) (HInv 0%nat TStop) = HRes 1%nat (TSnap [7] 0).
Proof. reflexivity. Qed.
