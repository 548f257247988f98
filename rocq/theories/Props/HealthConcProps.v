(** Property C75: health checks used by several goroutines. *)
From Coq Require Import ZArith List Arith Bool Lia.
From Verif.Model Require Import Conc HealthConc.
From Verif.Spec Require Import Linearizability Traces HealthConcSpec.
From Verif.Proofs Require Import LinProofs PcProofs LogFacts LinSearch HealthConcProofs.
Import ListNotations.
Open Scope Z_scope.

(** ** If no call overlaps one that sets the error, there is no data race, and each call takes
    effect at one instant *)
Theorem C75_linearizable : forall sched, let tr := snd (health_exec sched) in
  setters_alone tr -> linearizable health_apply nil_error (history tr).
Proof. exact health_linearizable. Qed.
Print Assumptions C75_linearizable.
Theorem C75_no_race : forall sched, setters_alone (snd (health_exec sched)) -> ~ health_race (fst (health_exec sched)).
Proof. exact health_no_race. Qed.
Print Assumptions C75_no_race.

(** ** A call that sets the error and one of another goroutine that sets or reads it race as soon
    as both have begun: reading, and setting by Healthy and Unhealthy, start at once, and Check
    does when it has got the function *)
Definition begins (t : nat) (op : health_op) : list (choice health_op) :=
  match op with HCheck _ => [Call t op; Run t] | _ => [Call t op] end.
Lemma begun c tr v o : th c v = Idle -> (sets_of o <> [] \/ o = HError) ->
  exists pc c2 tr2, crun health_body c tr (begins v o) = (c2, tr2) /\ sh c2 = sh c /\ th c2 v = Busy o (hcode_of pc) /\ (forall w, w <> v -> th c2 w = th c w) /\
    match pc with PWrite1 _ _ _ => sets_of o <> [] | PRead1 => o = HError | _ => False end.
Proof.
  intros Hv Ho. destruct o as [| |e|es]; cbn [begins crun cstep]; rewrite Hv.
  - exists PRead1. do 2 eexists. split; [reflexivity|]. cbn [sh th]. split; [reflexivity|]. split; [apply tset_same|]. split; [intros w Nw; now apply tset_other|]. reflexivity.
  - exists (PWrite1 HHealthy nil_error []). do 2 eexists. split; [reflexivity|]. cbn [sh th]. split; [reflexivity|]. split; [apply tset_same|]. split; [intros w Nw; now apply tset_other|]. discriminate.
  - exists (PWrite1 (HUnhealthy e) e []). do 2 eexists. split; [reflexivity|]. cbn [sh th]. split; [reflexivity|]. split; [apply tset_same|]. split; [intros w Nw; now apply tset_other|]. discriminate.
  - destruct es as [|e es]; [destruct Ho as [Ho|Ho]; [now elim Ho|discriminate Ho]|]. cbn [th]. rewrite tset_same. cbn [health_body always sh].
    exists (PWrite1 (HCheck (e :: es)) e es). do 2 eexists. split; [reflexivity|]. cbn [sh th]. split; [reflexivity|]. split; [apply tset_same|]. split; [intros w Nw; now rewrite !tset_other by exact Nw|]. discriminate.
Qed.
Theorem C75_race : forall sched t u op op', t <> u -> let c := fst (health_exec sched) in th c t = Idle -> th c u = Idle ->
  sets_of op <> [] -> (sets_of op' <> [] \/ op' = HError) ->
  health_race (fst (health_exec (sched ++ begins t op ++ begins u op'))).
Proof.
  intros sched t u op op' N c Ht Hu So Su. unfold health_exec, cexec in *. rewrite !crun_app. destruct (crun health_body (cstart nil_error) [] sched) as [c0 tr]. cbn [fst] in *. subst c.
  destruct (begun c0 tr t op Ht (or_introl So)) as (pc & c1 & tr1 & E1 & S1 & T1 & O1 & P1). rewrite crun_app, E1.
  destruct (begun c1 tr1 u op' ltac:(rewrite O1; auto) Su) as (pc' & c2 & tr2 & E2 & S2 & T2 & O2 & P2). rewrite E2. cbn [fst].
  exists t, u, TypeWord. split; [exact N|]. rewrite <- (O2 t N) in T1. split.
  - destruct pc; try (exfalso; exact P1); [subst op; now elim So|]. do 5 eexists. split; [exact T1|]. split; [reflexivity|]. now left.
  - destruct pc'; try (exfalso; exact P2); [right|left]; (do 5 eexists; split; [exact T2|]; split; [reflexivity|]; now left).
Qed.
Print Assumptions C75_race.

(** ** Then Error may return what nobody has set: the type of one error with the data of another *)
Definition torn : list (choice health_op) :=
  [Call 1 (HUnhealthy (1, 100)); Run 1; Run 1; Run 1; Call 1 (HUnhealthy (2, 200)); Run 1; Call 2 HError; Run 2; Run 2; Run 2].
Theorem C75_error_refuted : ~ (forall sched t c e, let tr := snd (health_exec sched) in In c (done_calls t tr) -> c_ret c = HErr e -> known tr e).
Proof.
  intros H. specialize (H torn 2%nat (MkCall HError [Reads TypeWord; Reads DataWord] (HErr (2, 100))) (2, 100)). cbv zeta in H.
  assert (D : done_calls 2 (snd (health_exec torn)) = [MkCall HError [Reads TypeWord; Reads DataWord] (HErr (2, 100))]) by (vm_compute; reflexivity). rewrite D in H.
  assert (C : calls (snd (health_exec torn)) = [HUnhealthy (1, 100); HUnhealthy (2, 200); HError]) by (vm_compute; reflexivity).
  destruct (H (or_introl eq_refl) eq_refl) as [X|(op & I & X)]; [discriminate X|]. rewrite C in I. repeat (destruct I as [<-|I]; [cbn in X; repeat (destruct X as [X|X]; [discriminate X|]); contradiction|]). contradiction.
Qed.
Print Assumptions C75_error_refuted.
(** even if there is only one error: its type without its data, which is an error that is not
    nil and panics when it is asked for its text *)
Definition half_set : list (choice health_op) := [Call 1 (HUnhealthy (1, 100)); Run 1; Call 2 HError; Run 2; Run 2; Run 2].
Example C75_half : map c_ret (done_calls 2 (snd (health_exec half_set))) = [HErr (1, 0)].
Proof. vm_compute. reflexivity. Qed.
(** but both words have been set by somebody *)
Theorem C75_words : forall sched t c e, let tr := snd (health_exec sched) in In c (done_calls t tr) -> c_ret c = HErr e ->
  exists a b, known tr a /\ known tr b /\ e = (fst a, snd b).
Proof.
  intros sched t c e tr Hc He. destruct (words_all sched) as (pcs & _ & _ & _ & _ & W). destruct (W t c e Hc He) as ((a & Ka & Ea) & (b & Kb & Eb)).
  exists a, b. split; [exact Ka|]. split; [exact Kb|]. rewrite <- Ea, <- Eb. now destruct e.
Qed.
Print Assumptions C75_words.

(** ** A goroutine that checks and two that ask at the same time *)
Definition health_of (e : event access health_op health_ret) : nat := match e with EInv t _ => t | EStep t _ => t | ERes t _ => t end.
Lemma hopen_none (tr : list (event access health_op health_ret)) t : (forall e, In e tr -> health_of e <> t) -> open_call t tr = None.
Proof.
  induction tr as [|e tr IH] using rev_ind; intros H; [reflexivity|]. specialize (IH (fun x Hx => H x (in_or_app _ _ _ (or_introl Hx)))).
  assert (N : health_of e <> t) by (apply H, in_or_app; right; now left). destruct e as [u op|u l|u r]; cbn in N; unfold open_call in *; rewrite call_log_snoc; cbn; destruct (Nat.eqb_spec u t); try congruence; exact IH.
Qed.
Definition alone_now (n : nat) (a : list (event access health_op health_ret)) : bool :=
  forallb (fun t => forallb (fun u => Nat.eqb t u || match open_call t a, open_call u a with Some (op, _), Some _ => match sets_of op with [] => true | _ => false end | _, _ => true end) (seq 0 n)) (seq 0 n).
Lemma alone_check n tr : forallb (fun e => Nat.ltb (health_of e) n) tr && forallb (fun k => alone_now n (firstn k tr)) (seq 0 (S (length tr))) = true -> setters_alone tr.
Proof.
  rewrite andb_true_iff, !forallb_forall. intros [Hn Hk] a b t u op ls op' ls' -> Ne Ot Ou.
  assert (B : forall v x, open_call v a = Some x -> (v < n)%nat).
  { intros v x H. destruct (Nat.lt_ge_cases v n) as [L|L]; [exact L|]. rewrite hopen_none in H; [discriminate H|]. intros e He <-. specialize (Hn e (in_or_app _ _ _ (or_introl He))). apply Nat.ltb_lt in Hn. lia. }
  specialize (Hk (length a)). rewrite firstn_app, firstn_all, Nat.sub_diag in Hk. cbn [firstn] in Hk. rewrite app_nil_r in Hk. assert (R : In (length a) (seq 0 (S (length (a ++ b))))) by (apply in_seq; rewrite app_length; lia). specialize (Hk R).
  unfold alone_now in Hk. rewrite forallb_forall in Hk. specialize (Hk t ltac:(apply in_seq; pose proof (B _ _ Ot); lia)). rewrite forallb_forall in Hk. specialize (Hk u ltac:(apply in_seq; pose proof (B _ _ Ou); lia)).
  destruct (Nat.eqb_spec t u); [contradiction|]. rewrite Ot, Ou in Hk. cbn in Hk. now destruct (sets_of op).
Qed.
Definition ex75 : list (choice health_op) :=
  [Call 1 (HCheck [(0, 0); (1, 100)]); Run 1; Run 1; Run 1; Run 1; Run 1; Run 1; Call 2 HError; Call 3 HError; Run 2; Run 3; Run 3; Run 2; Run 2; Run 3; Call 2 HHealthy; Run 2; Run 2; Run 2; Call 3 HError; Run 3; Run 3; Run 3].
Example C75_example : let tr := snd (health_exec ex75) in setters_alone tr /\ map c_ret (done_calls 2 tr) = [HErr (1, 100); HDone] /\ map c_ret (done_calls 3 tr) = [HErr (1, 100); HErr (0, 0)].
Proof. intros tr. split; [apply (alone_check 4); vm_compute; reflexivity|]. split; vm_compute; reflexivity. Qed.
