(** C58: samples used by several goroutines. *)
From Coq Require Import ZArith List Lia Permutation.
From Verif.Model Require Import GoInt GoFloat GoBase Conc Stats Uniform ExpDecay Mutex SampleConc.
From Verif.Spec Require Import Linearizability Traces Reservoir Uniformity DecaySpec SampleSpec MutexSpec.
From Verif.Proofs Require Import LinProofs MutexProofs SampleConcProofs UniformProofs ExpDecayProofs.
Import ListNotations.
Open Scope Z_scope.

(** a sample in the state [s] with its mutex free, used in any way *)
Definition uniform_exec (s : uniform) := cexec uniform_body (MkGuarded false s).
Definition expdecay_exec (mexp : f64 -> f64) (s : expdecay) := cexec (expdecay_body mexp) (MkGuarded false s).

(** ** All calls look as if they had happened one at a time *)
Theorem C58_uniform_linearizable : forall s sched, linearizable uniform_apply s (history (snd (uniform_exec s sched))).
Proof. intros s sched. apply (guarded_linearizable uniform_code (fun _ r => r) uniform_apply s). intros o d. exact (uniform_seq o d). Qed.
Theorem C58_expdecay_linearizable : forall mexp s sched, linearizable (expdecay_apply mexp) s (history (snd (expdecay_exec mexp s sched))).
Proof. intros mexp s sched. apply (guarded_linearizable (expdecay_code mexp) expdecay_after (expdecay_apply mexp) s). intros o d. exact (expdecay_seq mexp o d). Qed.

(** ** No two goroutines are at the fields at the same time *)
Theorem C58_race_free : forall mexp u x sched t t',
  (accessing (fst (uniform_exec u sched)) t -> accessing (fst (uniform_exec u sched)) t' -> t = t') /\
  (accessing (fst (expdecay_exec mexp x sched)) t -> accessing (fst (expdecay_exec mexp x sched)) t' -> t = t').
Proof.
  intros mexp u x sched t t'. split.
  - apply (guarded_race_free uniform_code (fun _ r => r) uniform_apply u). intros o d. exact (uniform_seq o d).
  - apply (guarded_race_free (expdecay_code mexp) expdecay_after (expdecay_apply mexp) x). intros o d. exact (expdecay_seq mexp o d).
Qed.

(** ** Every call returns, also after calls that panicked *)
Theorem C58_all_return : forall mexp u x sched,
  all_return uniform_body (fst (uniform_exec u sched)) /\ all_return (expdecay_body mexp) (fst (expdecay_exec mexp x sched)).
Proof.
  intros mexp u x sched. split.
  - apply (guarded_returns uniform_code (fun _ r => r) uniform_apply u). intros o d. exact (uniform_seq o d).
  - apply (guarded_returns (expdecay_code mexp) expdecay_after (expdecay_apply mexp) x). intros o d. exact (expdecay_seq mexp o d).
Qed.

(** ** Nothing is lost *)
Lemma no_clear_recorded ops : (forall now, ~ In (SClear now) ops) ->
  recorded (map sop_event ops) = flat_map (fun o => match o with SUpdate v _ _ _ => [v] | _ => [] end) ops.
Proof.
  induction ops as [|o ops IH] using rev_ind; intros N; [reflexivity|]. rewrite map_app. cbn [map]. rewrite recorded_snoc, flat_map_app, IH by (intros now I; apply (N now), in_or_app; now left). cbn [flat_map]. rewrite app_nil_r.
  destruct o; cbn [sop_event rec_step]; rewrite ?app_nil_r; try reflexivity. exfalso. apply (N now), in_or_app. right. now left.
Qed.
(** the values of the Update calls *)
Definition updates (ops : list sop) : list Z := flat_map (fun o => match o with SUpdate v _ _ _ => [v] | _ => [] end) ops.

(** When all calls have returned, the sample is as after the same calls in some order; without
    Clear, Count is the number of Updates, and the values are among theirs (all of them, if
    there is room). *)
Theorem C58_uniform_counts : forall n sched, 0 <= n -> let run := uniform_exec (ustart n) sched in
  quiet (fst run) -> slen (calls (snd run)) < 2 ^ 63 -> (forall now, ~ In (SClear now) (calls (snd run))) ->
  let s := g_data (sh (fst run)) in let vs := updates (calls (snd run)) in
  uni_Count s = slen vs /\ uni_Size s = Z.min (slen vs) n /\ submultiset (uni_Values s) vs /\ (slen vs <= n -> Permutation (uni_Values s) vs).
Proof.
  intros n sched Hn run Q F NC s vs. unfold uniform_exec in run.
  destruct (guarded_quiet uniform_code (fun _ r => r) uniform_apply (ustart n) uniform_seq sched Q) as (ops & P & E). fold (uniform_body) in E, P.
  assert (Es : s = uni_run (ustart n) (map to_uop ops)). { unfold s, run. change (fun op => critical (uniform_code op) (fun r => r)) with uniform_body in E. rewrite E. cbn [g_data]. apply uniform_run. }
  change (fun op => critical (uniform_code op) (fun r => r)) with uniform_body in P. fold run in P.
  assert (Pv : Permutation (recorded (map uop_event (map to_uop ops))) vs). { rewrite uop_events, no_clear_recorded by (intros now I; apply (NC now), (Permutation_in _ P I)). unfold vs, updates. now apply Permutation_flat_map. }
  assert (Fw : few (map uop_event (map to_uop ops))). { apply few_short. unfold slen in *. rewrite !map_length, (Permutation_length P). exact F. }
  assert (Ln : slen (recorded (map uop_event (map to_uop ops))) = slen vs) by (unfold slen; now rewrite (Permutation_length Pv)).
  destruct (uni_count_size n (map to_uop ops) Hn Fw) as (C1 & C2 & _). rewrite Es, C1, C2, Ln. split; [reflexivity|]. split; [reflexivity|]. split.
  - destruct (uni_values_sub n (map to_uop ops) Hn Fw) as (rest & R). exists rest. now rewrite R.
  - intros L. rewrite <- Pv. apply uni_values_all; auto. now rewrite Ln.
Qed.
Theorem C58_expdecay_counts : forall mexp N alpha now sched, (1 <= N)%nat -> let run := expdecay_exec mexp (NewExpDecaySample N alpha now) sched in
  quiet (fst run) -> slen (calls (snd run)) < 2 ^ 63 -> (forall now, ~ In (SClear now) (calls (snd run))) ->
  let s := g_data (sh (fst run)) in let vs := updates (calls (snd run)) in
  exp_Count s = slen vs /\ exp_Size s = Z.min (slen vs) (Z.of_nat N) /\ submultiset (exp_Values s) vs.
Proof.
  intros mexp N alpha now sched HN run Q F NC s vs. unfold expdecay_exec in run.
  destruct (guarded_quiet (expdecay_code mexp) expdecay_after (expdecay_apply mexp) (NewExpDecaySample N alpha now) (expdecay_seq mexp) sched Q) as (ops & P & E).
  change (fun op => critical (expdecay_code mexp op) (expdecay_after op)) with (expdecay_body mexp) in P, E. fold run in P, E.
  assert (Es : s = exp_run mexp (NewExpDecaySample N alpha now) (map to_xop ops)). { unfold s. rewrite E. cbn [g_data]. apply expdecay_run. }
  assert (Pv : Permutation (recorded (map xop_event (map to_xop ops))) vs). { rewrite xop_events, no_clear_recorded by (intros t I; apply (NC t), (Permutation_in _ P I)). unfold vs, updates. now apply Permutation_flat_map. }
  assert (Fw : few (map xop_event (map to_xop ops))). { apply few_short. unfold slen in *. rewrite !map_length, (Permutation_length P). exact F. }
  assert (Ln : slen (recorded (map xop_event (map to_xop ops))) = slen vs) by (unfold slen; now rewrite (Permutation_length Pv)).
  destruct (exp_count_size mexp N alpha now (map to_xop ops) HN Fw) as (C1 & C2 & _). rewrite Es, C1, C2, Ln. split; [reflexivity|]. split; [reflexivity|].
  destruct (exp_only_recorded mexp N alpha now (map to_xop ops) HN Fw) as (rest & R). exists rest. now rewrite R.
Qed.

(** ** example *)
(** Two updates and a snapshot of a reservoir of two; goroutine 1 finds the mutex locked and
    waits, and the snapshot, called before anything has been recorded, sees one value. *)
Definition busy_sched : list (choice sop) :=
  ([Call 2 SSnapshot; Call 0 (SUpdate 7 0 0 f_zero); Call 1 (SUpdate 5 0 0 f_zero)] ++ repeat (Run 0) 3 ++ [Run 1; Run 2] ++ repeat (Run 0) 6 ++ repeat (Run 2) 6 ++ repeat (Run 1) 20)%nat.
Definition saw (t : nat) (c : Z) (l : list Z) (e : event unit sop (res sret)) : bool :=
  match e with ERes u (Ok (VSnapshot c' l')) => (Nat.eqb u t && Z.eqb c' c && if list_eq_dec Z.eq_dec l' l then true else false)%bool | _ => false end.
Example C58_example :
  let run := uniform_exec (ustart 2) busy_sched in
  quiet (fst run) /\ g_data (sh (fst run)) = MkUniform 2 2 [7; 5] /\ existsb (saw 2 1 [7]) (snd run) = true /\
  accessing (fst (uniform_exec (ustart 2) (firstn 6 busy_sched))) 0 /\ slen (calls (snd run)) < 2 ^ 63 /\ (forall now, ~ In (SClear now) (calls (snd run))).
Proof.
  intros run. split; [apply quiet_check; vm_compute; reflexivity|]. split; [vm_compute; reflexivity|]. split; [vm_compute; reflexivity|]. split; [vm_compute; discriminate|].
  assert (E : calls (snd run) = [SSnapshot; SUpdate 7 0 0 f_zero; SUpdate 5 0 0 f_zero]) by (vm_compute; reflexivity). rewrite E. split; [reflexivity|]. intros now [H|[H|[H|[]]]]; discriminate H.
Qed.
