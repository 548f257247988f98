(** Property C43 (several goroutines, with Stop): timers. *)
From Coq Require Import ZArith List Bool Lia Arith.
From Verif.Model Require Import GoInt Conc TimerConc.
From Verif.Spec Require Import Linearizability Traces TimerStopSpec.
From Verif.Proofs Require Import IntFacts LinProofs PcProofs PcLin LinSearch.
Import ListNotations.
Open Scope Z_scope.

(** ** program points of Update, Snapshot and Stop; [VX]: a reader without the timer's mutex *)
Inductive pc :=
| V0 (d : Z) | V1 (d : Z) | V2 (d : Z) | V3 (d : Z) | V4 (d : Z) | V5 | V6
| S0 | S1 | S2 | S3 (ds : list Z) | S4 (ds : list Z) | S5 (ds : list Z) (n : Z)
| P0 | PR (r : timer_ret) | VX (c : tcode).
Definition append d := fun s => MkT (t_mutex s) (s_mutex s) (t_log s ++ [d]) (m_cnt s) (m_stop s).
Definition addone := fun s => MkT (t_mutex s) (s_mutex s) (t_log s) (wrap64 (m_cnt s + 1)) (m_stop s).
Definition setstop := fun s => MkT (t_mutex s) (s_mutex s) (t_log s) (m_cnt s) true.
Definition code_of (p : pc) : tcode :=
  match p with
  | V0 d => lockT (lockS (tact (append d) (fun _ => unlockS (mark_c (unlockT (Ret TUnit))))))
  | V1 d => lockS (tact (append d) (fun _ => unlockS (mark_c (unlockT (Ret TUnit)))))
  | V2 d => tact (append d) (fun _ => unlockS (mark_c (unlockT (Ret TUnit))))
  | V3 _ => unlockS (mark_c (unlockT (Ret TUnit)))
  | V4 _ => mark_c (unlockT (Ret TUnit))
  | V5 => tact addone (fun _ => unlockT (Ret TUnit))
  | V6 => unlockT (Ret TUnit)
  | S0 => lockT (lockS (tact (fun s => s) (fun s => unlockS (tact (fun s => s) (fun s' => unlockT (Ret (TSnap (t_log s) (m_cnt s'))))))))
  | S1 => lockS (tact (fun s => s) (fun s => unlockS (tact (fun s => s) (fun s' => unlockT (Ret (TSnap (t_log s) (m_cnt s')))))))
  | S2 => tact (fun s => s) (fun s => unlockS (tact (fun s => s) (fun s' => unlockT (Ret (TSnap (t_log s) (m_cnt s'))))))
  | S3 ds => unlockS (tact (fun s => s) (fun s' => unlockT (Ret (TSnap ds (m_cnt s')))))
  | S4 ds => tact (fun s => s) (fun s' => unlockT (Ret (TSnap ds (m_cnt s'))))
  | S5 ds n => unlockT (Ret (TSnap ds n))
  | P0 => tact setstop (fun _ => Ret TUnit)
  | PR r => Ret r
  | VX c => c
  end.
Definition entry (op : timer_op) : pc :=
  match op with TUpdate d => V0 d | TSnapshot => S0 | TStop => P0 | TCount | TValues => VX (timer_body op) end.
Definition next (p : pc) (s : tstate) : pc :=
  match p with
  | V0 d => V1 d | V1 d => V2 d | V2 d => V3 d | V3 d => V4 d | V4 _ => if m_stop s then V6 else V5 | V5 => V6 | V6 => PR TUnit
  | S0 => S1 | S1 => S2 | S2 => S3 (t_log s) | S3 ds => S4 ds | S4 ds => S5 ds (m_cnt s) | S5 ds n => PR (TSnap ds n)
  | P0 => PR TUnit | PR r => PR r
  | VX c => match c with Atom _ _ _ k => VX (k s) | _ => VX c end
  end.
Lemma entry_ok op : timer_body op = code_of (entry op).
Proof. destruct op; reflexivity. Qed.
Lemma next_ok p e u l k s : code_of p = Atom e u l k -> e s = true -> k s = code_of (next p s).
Proof.
  destruct p; cbn; intros H; try (inversion H; subst; intros _; cbn; try reflexivity; destruct (m_stop s); reflexivity).
Qed.

Definition holdsT (p : pc) : bool := match p with V1 _ | V2 _ | V3 _ | V4 _ | V5 | V6 | S1 | S2 | S3 _ | S4 _ | S5 _ _ => true | _ => false end.
Definition stat (p : pc) : @tstat timer_op timer_ret :=
  match p with
  | V0 d | V1 d | V2 d | V3 d | V4 d => TPending (TUpdate d)
  | V5 | V6 => TDone TUnit
  | S0 | S1 | S2 | S3 _ | S4 _ => TPending TSnapshot
  | S5 ds n => TDone (TSnap ds n)
  | P0 => TPending TStop
  | PR r => TDone r
  | VX (Ret r) => TDone r
  | VX _ => TIdle
  end.
(** how the memory shows the timer to whoever holds the mutex *)
Definition rel (p : pc) (s : tstate) (q : stop_timer) : Prop :=
  let '(ds, n, _) := q in
  match p with
  | V3 d | V4 d => t_log s = ds ++ [d] /\ m_cnt s = n
  | V5 => t_log s = ds /\ wrap64 (m_cnt s + 1) = n
  | S3 l | S4 l => t_log s = ds /\ m_cnt s = n /\ l = ds
  | _ => t_log s = ds /\ m_cnt s = n
  end.
Record vinv (s : tstate) (pcs : nat -> option pc) (q : stop_timer) : Prop := {
  v_one : forall t u p p', pcs t = Some p -> pcs u = Some p' -> holdsT p = true -> holdsT p' = true -> t = u;
  v_hold : forall t p, pcs t = Some p -> holdsT p = true -> t_mutex s = true /\ rel p s q;
  v_free : t_mutex s = false -> rel S0 s q;
  v_stop : m_stop s = snd q;
  v_reader : forall t c, pcs t <> Some (VX c)
}.
Lemma upd_get {A} (f : nat -> option A) t x u p : pupd f t (Some x) u = Some p -> (u = t /\ p = x) \/ (u <> t /\ f u = Some p).
Proof. unfold pupd. destruct (Nat.eqb_spec u t); intros H; [left; split; congruence|auto]. Qed.
Lemma upd_none {A} (f : nat -> option A) t u p : pupd f t None u = Some p -> u <> t /\ f u = Some p.
Proof. unfold pupd. destruct (Nat.eqb_spec u t); intros H; [discriminate|auto]. Qed.

(** the holder moves: nobody else has the mutex *)
Lemma vinv_holder s s' pcs q q' t p p' : vinv s pcs q -> pcs t = Some p -> holdsT p = true -> holdsT p' = true ->
  t_mutex s' = t_mutex s -> rel p' s' q' -> m_stop s' = snd q' -> vinv s' (pupd pcs t (Some p')) q'.
Proof.
  intros V Ht H H' Em R Es. destruct (v_hold _ _ _ V t p Ht H) as [M _]. split.
  - intros a b x y Ha Hb Hx Hy. apply upd_get in Ha, Hb. destruct Ha as [[-> ->]|[Na Ha]], Hb as [[-> ->]|[Nb Hb]]; auto.
    + exfalso. apply Nb. symmetry. eapply (v_one _ _ _ V); eauto.
    + exfalso. apply Na. eapply (v_one _ _ _ V); eauto.
    + eapply (v_one _ _ _ V); eauto.
  - intros a x Ha Hx. apply upd_get in Ha. destruct Ha as [[-> ->]|[Na Ha]]; [split; congruence|]. exfalso. apply Na. eapply (v_one _ _ _ V); eauto.
  - intros F. congruence.
  - exact Es.
  - intros a c Ha. apply upd_get in Ha. destruct Ha as [[_ <-]|[_ Ha]]; [discriminate H'|exact (v_reader _ _ _ V a c Ha)].
Qed.
(** the holder lets go *)
Lemma vinv_unlock s pcs q t p p' : vinv s pcs q -> pcs t = Some p -> holdsT p = true -> holdsT p' = false -> (forall c, p' <> VX c) ->
  rel S0 s q -> vinv (MkT false (s_mutex s) (t_log s) (m_cnt s) (m_stop s)) (pupd pcs t (Some p')) q.
Proof.
  intros V Ht H H' Nx R. split.
  - intros a b x y Ha Hb Hx Hy. apply upd_get in Ha, Hb. destruct Ha as [[-> ->]|[Na Ha]], Hb as [[-> ->]|[Nb Hb]]; try congruence. eapply (v_one _ _ _ V); eauto.
  - intros a x Ha Hx. apply upd_get in Ha. destruct Ha as [[-> ->]|[Na Ha]]; [congruence|]. exfalso. apply Na. eapply (v_one _ _ _ V); eauto.
  - intros _. exact R.
  - exact (v_stop _ _ _ V).
  - intros a c Ha. apply upd_get in Ha. destruct Ha as [[_ E]|[_ Ha]]; [exact (Nx c (eq_sym E))|exact (v_reader _ _ _ V a c Ha)].
Qed.
Lemma vinv_lock s pcs q t p : vinv s pcs q -> t_mutex s = false -> (forall c, p <> VX c) -> (rel S0 s q -> rel p s q) ->
  (forall s' q, t_log s' = t_log s -> m_cnt s' = m_cnt s -> rel p s q -> rel p s' q) ->
  vinv (MkT true (s_mutex s) (t_log s) (m_cnt s) (m_stop s)) (pupd pcs t (Some p)) q.
Proof.
  intros V F Nx R Rs. split.
  - intros a b x y Ha Hb Hx Hy. apply upd_get in Ha, Hb. destruct Ha as [[-> ->]|[Na Ha]], Hb as [[-> ->]|[Nb Hb]]; auto; first [destruct (v_hold _ _ _ V _ _ Ha Hx); congruence|destruct (v_hold _ _ _ V _ _ Hb Hy); congruence].
  - intros a x Ha Hx. apply upd_get in Ha. destruct Ha as [[-> ->]|[Na Ha]]; [split; [reflexivity|]|destruct (v_hold _ _ _ V _ _ Ha Hx); congruence]. apply Rs; auto. apply R, (v_free _ _ _ V F).
  - discriminate.
  - exact (v_stop _ _ _ V).
  - intros a c Ha. apply upd_get in Ha. destruct Ha as [[_ E]|[_ Ha]]; [exact (Nx c (eq_sym E))|exact (v_reader _ _ _ V a c Ha)].
Qed.
Lemma vinv_idle s pcs q t p : vinv s pcs q -> holdsT p = false -> (forall c, p <> VX c) -> vinv s (pupd pcs t (Some p)) q.
Proof.
  intros V H Nx. split.
  - intros a b x y Ha Hb Hx Hy. apply upd_get in Ha, Hb. destruct Ha as [[-> ->]|[Na Ha]], Hb as [[-> ->]|[Nb Hb]]; try congruence. eapply (v_one _ _ _ V); eauto.
  - intros a x Ha Hx. apply upd_get in Ha. destruct Ha as [[-> ->]|[Na Ha]]; [congruence|]. eapply (v_hold _ _ _ V); eauto.
  - exact (v_free _ _ _ V).
  - exact (v_stop _ _ _ V).
  - intros a c Ha. apply upd_get in Ha. destruct Ha as [[_ E]|[_ Ha]]; [exact (Nx c (eq_sym E))|exact (v_reader _ _ _ V a c Ha)].
Qed.
Lemma vinv_end s pcs q t : vinv s pcs q -> vinv s (pupd pcs t None) q.
Proof.
  intros V. split.
  - intros a b x y Ha Hb Hx Hy. apply upd_none in Ha, Hb. destruct Ha, Hb. eapply (v_one _ _ _ V); eauto.
  - intros a x Ha Hx. apply upd_none in Ha. destruct Ha. eapply (v_hold _ _ _ V); eauto.
  - exact (v_free _ _ _ V).
  - exact (v_stop _ _ _ V).
  - intros a c Ha. apply upd_none in Ha. destruct Ha as [_ Ha]. exact (v_reader _ _ _ V a c Ha).
Qed.
Lemma vinv_stop s pcs ds n b : vinv s pcs (ds, n, b) -> vinv (setstop s) pcs (ds, n, true).
Proof.
  intros V. split.
  - exact (v_one _ _ _ V).
  - intros a x Ha Hx. destruct (v_hold _ _ _ V a x Ha Hx) as [M R]. split; [exact M|]. destruct x; exact R.
  - intros F. exact (v_free _ _ _ V F).
  - reflexivity.
  - exact (v_reader _ _ _ V).
Qed.
Lemma vinv_step s pcs q t p e u l k : vinv s pcs q -> pcs t = Some p -> code_of p = Atom e u l k -> e s = true ->
  (vinv (u s) (pupd pcs t (Some (next p s))) q /\ stat (next p s) = stat p) \/
  (exists op r q', stat p = TPending op /\ stat (next p s) = TDone r /\ stop_apply q op = (q', r) /\ vinv (u s) (pupd pcs t (Some (next p s))) q').
Proof.
  intros V Ht C En. destruct q as [[ds n] b]. pose proof (v_stop _ _ _ V) as Es. cbn in Es.
  assert (HR : holdsT p = true -> rel p s (ds, n, b)) by (intros H; exact (proj2 (v_hold _ _ _ V t p Ht H))).
  destruct p; cbn in C; try (inversion C; subst e u l k; clear C); cbn [next] in *; cbn in HR.
  - left. split; [|reflexivity]. apply negb_true_iff in En. apply vinv_lock; auto; [discriminate|]. intros s' [[? ?] ?] E1 E2 [R1 R2]. cbn. split; congruence.
  - left. split; [|reflexivity]. eapply vinv_holder; eauto; exact (HR eq_refl).
  - left. split; [|reflexivity]. destruct (HR eq_refl) as [R1 R2]. eapply vinv_holder; eauto. cbn. split; congruence.
  - left. split; [|reflexivity]. eapply vinv_holder; eauto; exact (HR eq_refl).
  - right. destruct (HR eq_refl) as [R1 R2]. exists (TUpdate d), TUnit. eexists. split; [reflexivity|]. split; [destruct (m_stop s); reflexivity|]. split; [reflexivity|].
    rewrite <- Es. destruct (m_stop s) eqn:Em; eapply vinv_holder; eauto; cbn; split; congruence.
  - left. split; [|reflexivity]. destruct (HR eq_refl) as [R1 R2]. eapply vinv_holder; eauto. cbn. split; congruence.
  - left. split; [|reflexivity]. eapply vinv_unlock; eauto; [discriminate|]. exact (HR eq_refl).
  - left. split; [|reflexivity]. apply negb_true_iff in En. apply vinv_lock; auto; [discriminate|]. intros s' [[? ?] ?] E1 E2 [R1 R2]. cbn. split; congruence.
  - left. split; [|reflexivity]. eapply vinv_holder; eauto; exact (HR eq_refl).
  - left. split; [|reflexivity]. destruct (HR eq_refl) as [R1 R2]. eapply vinv_holder; eauto. cbn. auto.
  - left. split; [|reflexivity]. destruct (HR eq_refl) as (R1 & R2 & R3). eapply vinv_holder; eauto. cbn. auto.
  - right. destruct (HR eq_refl) as (R1 & R2 & R3). exists TSnapshot, (TSnap ds0 (m_cnt s)), (ds, n, b). split; [reflexivity|]. split; [reflexivity|]. split; [cbn; congruence|].
    eapply vinv_holder; eauto. cbn. auto.
  - left. split; [|reflexivity]. eapply vinv_unlock; eauto; [discriminate|]. exact (HR eq_refl).
  - right. exists TStop, TUnit, (ds, n, true). split; [reflexivity|]. split; [reflexivity|]. split; [reflexivity|]. apply vinv_idle; auto; [|discriminate]. eapply vinv_stop; eauto.
  - destruct (v_reader _ _ _ V _ _ Ht).
Qed.

(** Under every schedule of any number of goroutines calling Update (UpdateSince, Time), Snapshot
    and Stop, all behave as if each had happened in one instant, Stop included: the meter in a
    snapshot has counted exactly the events that came before the first Stop. *)
Theorem C43_stop_concurrent : forall sched, let tr := snd (cexec timer_body tstate_init sched) in
  ~ In TCount (calls tr) -> ~ In TValues (calls tr) -> linearizable stop_apply fresh_timer (history tr).
Proof.
  intros sched tr N1 N2.
  refine (pc_linearizable timer_body tstate_init code_of entry next entry_ok next_ok stop_apply (fun op => op <> TCount /\ op <> TValues) stat vinv fresh_timer _ _ _ _ _ vinv_step sched _).
  - split; try discriminate; auto. cbn. auto.
  - intros []; intros [A B]; first [reflexivity|congruence].
  - intros []; try discriminate; intros r0 H; [now inversion H|]. cbn in H. subst c. reflexivity.
  - intros s pcs q t op [A B] V N. apply vinv_idle; auto; destruct op; try reflexivity; try discriminate; congruence.
  - intros s pcs q t p r V N C. now apply vinv_end.
  - apply Forall_forall. intros op Ho. split; intros ->; [exact (N1 Ho)|exact (N2 Ho)].
Qed.
(** Stop in the middle of an Update; another Update after it *)
Definition ex43s : list (choice timer_op) :=
  [Call 0%nat (TUpdate 7)] ++ repeat (Run 0%nat) 8 ++ [Call 0%nat (TUpdate 8); Run 0%nat; Run 0%nat; Run 0%nat; Run 0%nat; Run 0%nat; Call 1%nat TStop; Run 1%nat; Run 1%nat; Run 0%nat; Run 0%nat; Run 0%nat; Call 0%nat (TUpdate 9)]
  ++ repeat (Run 0%nat) 8 ++ [Call 1%nat TSnapshot] ++ repeat (Run 1%nat) 7.
Example C43_stop_linearizable_example : let tr := snd (cexec timer_body tstate_init ex43s) in
  ~ In TCount (calls tr) /\ ~ In TValues (calls tr) /\
  history tr = [HInv 0%nat (TUpdate 7); HRes 0%nat TUnit; HInv 0%nat (TUpdate 8); HInv 1%nat TStop; HRes 1%nat TUnit; HRes 0%nat TUnit;
    HInv 0%nat (TUpdate 9); HRes 0%nat TUnit; HInv 1%nat TSnapshot; HRes 1%nat (TSnap [7; 8; 9] 2)].
Proof.
  assert (E : calls (snd (cexec timer_body tstate_init ex43s)) = [TUpdate 7; TUpdate 8; TStop; TUpdate 9; TSnapshot]) by (vm_compute; reflexivity).
  cbv zeta. rewrite E. split; [cbn; intuition discriminate|]. split; [cbn; intuition discriminate|]. vm_compute. reflexivity.
Qed.

(** ** Not so with Count, which does not take the timer's mutex: it shows an event that the meter
    has yet to count, and if the timer is stopped before it does, later snapshots say that the
    event came after a Stop that did not begin until the event had been seen. *)
Fixpoint eq_zs (a b : list Z) : bool :=
  match a, b with [], [] => true | x :: a', y :: b' => (x =? y) && eq_zs a' b' | _, _ => false end.
Lemma eq_zs_ok a : forall b, eq_zs a b = true -> a = b.
Proof.
  induction a as [|x a IH]; intros [|y b] H; try discriminate H; [reflexivity|]. cbn in H. apply andb_prop in H. destruct H as [H1 H2]. apply Z.eqb_eq in H1. f_equal; auto.
Qed.
Lemma eq_zs_refl a : eq_zs a a = true.
Proof. induction a; cbn; auto. now rewrite Z.eqb_refl. Qed.
Definition eq_q (a b : stop_timer) : bool := eq_zs (fst (fst a)) (fst (fst b)) && (snd (fst a) =? snd (fst b)) && Bool.eqb (snd a) (snd b).
Definition eq_op (a b : timer_op) : bool :=
  match a, b with TUpdate x, TUpdate y => x =? y | TSnapshot, TSnapshot | TCount, TCount | TValues, TValues | TStop, TStop => true | _, _ => false end.
Definition eq_ret (a b : timer_ret) : bool :=
  match a, b with TUnit, TUnit => true | TInt x, TInt y => x =? y | TList x, TList y => eq_zs x y | TSnap x n, TSnap y m => eq_zs x y && (n =? m) | _, _ => false end.
Lemma eq_q_ok a b : eq_q a b = true -> a = b.
Proof.
  destruct a as [[l n] x], b as [[m k] y]. unfold eq_q. cbn. rewrite !andb_true_iff, Z.eqb_eq. intros [[H ->] H2]. apply eqb_prop in H2. apply eq_zs_ok in H. now subst.
Qed.
Lemma eq_op_ok a b : eq_op a b = true -> a = b.
Proof. destruct a, b; intros H; try discriminate H; try reflexivity. cbn in H. apply Z.eqb_eq in H. now subst. Qed.
Lemma eq_ret_ok a b : eq_ret a b = true -> a = b.
Proof.
  destruct a, b; intros H; try discriminate H; try reflexivity; cbn in H.
  - apply Z.eqb_eq in H. now subst.
  - apply eq_zs_ok in H. now subst.
  - apply andb_prop in H. destruct H as [H1 H2]. apply eq_zs_ok in H1. apply Z.eqb_eq in H2. now subst.
Qed.
Lemma eq_ret_refl a : eq_ret a a = true.
Proof. destruct a; cbn; auto using Z.eqb_refl, eq_zs_refl. now rewrite eq_zs_refl, Z.eqb_refl. Qed.
Definition seen_then_missed : list (choice timer_op) :=
  [Call 0%nat (TUpdate 7); Run 0%nat; Run 0%nat; Run 0%nat; Run 0%nat; Call 1%nat TCount; Run 1%nat; Run 1%nat; Run 1%nat; Run 1%nat; Call 1%nat TStop; Run 1%nat; Run 1%nat;
   Run 0%nat; Run 0%nat; Run 0%nat; Call 1%nat TSnapshot] ++ repeat (Run 1%nat) 7.
Example seen_then_missed_history : history (snd (cexec timer_body tstate_init seen_then_missed)) =
  [HInv 0%nat (TUpdate 7); HInv 1%nat TCount; HRes 1%nat (TInt 1); HInv 1%nat TStop; HRes 1%nat TUnit; HRes 0%nat TUnit; HInv 1%nat TSnapshot; HRes 1%nat (TSnap [7] 0)].
Proof. vm_compute. reflexivity. Qed.
Theorem C43_stop_count_refuted : ~ (forall sched, let tr := snd (cexec timer_body tstate_init sched) in
  ~ In TValues (calls tr) -> linearizable stop_apply fresh_timer (history tr)).
Proof.
  intros H. specialize (H seen_then_missed). cbv zeta in H. rewrite seen_then_missed_history in H.
  assert (E : calls (snd (cexec timer_body tstate_init seen_then_missed)) = [TUpdate 7; TCount; TStop; TSnapshot]) by (vm_compute; reflexivity).
  rewrite E in H. specialize (H ltac:(cbn; intuition discriminate)). revert H.
  apply (not_linearizable stop_apply eq_q eq_op eq_ret eq_q_ok eq_op_ok eq_ret_ok eq_ret_refl 2 6). vm_compute. reflexivity.
Qed.
