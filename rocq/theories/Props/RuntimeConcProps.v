(** Property C73: captures of the runtime's statistics by several goroutines.

    [captures sched]: the execution of CaptureRuntimeMemStatsOnce and CaptureDebugGCStatsOnce
    under a schedule, with every use of a package variable an action of its own. *)
From Coq Require Import ZArith List String Bool Lia Arith.
From Verif.Model Require Import GoInt GoFloat GoBase Conc World Runtime RuntimeConc.
From Verif.Spec Require Import Traces RuntimeSpec RuntimeConcSpec.
From Verif.Proofs Require Import LinProofs ProcCapture RuntimeConcProofs.
From Verif.Props Require Import RuntimePauseProps.
From Verif.Model Require Import RuntimeConc.
Import ListNotations.
Local Open Scope string_scope.
Local Open Scope list_scope.
Local Open Scope Z_scope.

(** Captures that do not overlap, by whichever goroutines, update the metrics as captures one
    after the other (C50, C51, C53 and C57). *)
Theorem C73_in_turn : forall f sched, one_at_a_time capture_body vars_init sched ->
  let '(c, tr) := captures sched in quiet c -> calls_made f (labels tr) = in_turn f prev0 None (calls tr).
Proof.
  intros f sched O. pose proof (alone_inv capture_body vars_init sched O) as H. unfold captures. destruct (cexec capture_body vars_init sched) as [c tr]. cbn [fst snd] in H.
  intros Q. destruct H as [[_ H]|(t & op & k & X & _)]; [|rewrite Q in X; discriminate].
  pose proof (serial_made f (calls tr) vars_init) as E. rewrite H in E. exact E.
Qed.
Print Assumptions C73_in_turn.

(** So they record every pause that C50 says, once. *)
Definition only_pauses (g : group) (x : string) : nat := match g with RuntimeMetrics => if x =? "PauseNs" then 1 else 0 | DebugMetrics => 0 end%string%nat.
Definition pick (c : op) : list Z := match c with OUpdate 1 n => [n] | _ => [] end.
Lemma pick_all ls : recorded_pauses ls = flat_map pick (calls_made only_pauses ls).
Proof.
  induction ls as [|l ls IH]; [reflexivity|]. change (l :: ls) with ([l] ++ ls). unfold recorded_pauses, calls_made in *. rewrite !flat_map_app, IH. f_equal.
  destruct l as [| |[] x n|[] x y|[] x t]; cbn [flat_map as_call app only_pauses]; try reflexivity; destruct (x =? "PauseNs")%string; reflexivity.
Qed.
Lemma pick_pauses l : flat_map pick (map (OUpdate 1) l) = l.
Proof. induction l as [|n l IH]; [reflexivity|]. cbn [map flat_map pick app]. now rewrite IH. Qed.
Lemma pick_capture p r t : flat_map pick (capture (only_pauses RuntimeMetrics) p r t) = pauses (pv_numGC p) (rd_mem r).
Proof.
  unfold capture. cbv zeta. rewrite !flat_map_app. change (only_pauses RuntimeMetrics "PauseNs") with 1%nat. rewrite pick_pauses.
  change (flat_map pick [OUpdate (only_pauses RuntimeMetrics "PauseTotalNs") _; _; _; _; _; _; _; _]) with (@nil Z). rewrite app_nil_r. reflexivity.
Qed.
Lemma pick_debug last g t : flat_map pick (dbg_capture (only_pauses DebugMetrics) last g t) = [].
Proof. unfold dbg_capture. rewrite !flat_map_app. cbn. destruct (match last with Some n => n =? gc_LastGC g | None => false end); [reflexivity|]. destruct (gc_Pause g); reflexivity. Qed.
Lemma pick_turn P cs : forall p last n0 ns, pv_numGC p = Z.of_nat n0 mod 2 ^ 32 -> Forall2 (fun r n => shows P n r) (readings_of cs) ns -> rising n0 ns (2 ^ 32) ->
  flat_map pick (in_turn only_pauses p last cs) = map (fun k => as_int64 (P k)) (all_recorded n0 ns).
Proof.
  induction cs as [|[r t|g t] cs IH]; intros p last n0 ns E F Ri.
  - cbn [readings_of flat_map] in F. inversion F. reflexivity.
  - change (readings_of (CaptureRuntime r t :: cs)) with (r :: readings_of cs) in F. inversion F as [|? n ? ns' Sh F']; subst. destruct Ri as (Le & Lt & Ri).
    cbn [in_turn all_recorded]. rewrite flat_map_app, map_app, pick_capture, E, (pauses_are P n0 n r Sh Le) by lia. f_equal; [rewrite map_map; reflexivity|].
    apply (IH (remember r) last n ns'); auto. destruct Sh as (Sh & _). exact Sh.
  - cbn [in_turn]. rewrite flat_map_app, pick_debug. apply (IH p _ n0 ns); auto.
Qed.
Theorem C73_each_once : forall P ns sched, one_at_a_time capture_body vars_init sched ->
  let '(c, tr) := captures sched in quiet c -> Forall2 (fun r n => shows P n r) (readings_of (calls tr)) ns -> rising 0 ns (2 ^ 32) ->
  recorded_pauses (labels tr) = map (fun k => as_int64 (P k)) (all_recorded 0 ns).
Proof.
  intros P ns sched O. pose proof (C73_in_turn only_pauses sched O) as H. destruct (captures sched) as [c tr]. intros Q F Ri.
  rewrite pick_all, (H Q). apply pick_turn; auto.
Qed.
Print Assumptions C73_each_once.

(** Under every schedule, a pause recorded is one that some capture has read. *)
Theorem C73_pauses_read : forall sched n, let tr := snd (captures sched) in In n (recorded_pauses (labels tr)) ->
  exists t r x i, In (Call t (CaptureRuntime r x)) sched /\ n = as_int64 (nth i (ms_PauseNs (rd_mem r)) 0).
Proof.
  intros sched n tr H.
  set (M := flat_map (fun ch => match ch with Call _ (CaptureRuntime r _) => [rd_mem r] | _ => [] end) sched).
  destruct (sound_inv M sched) as [_ G].
  - intros t r x I. apply in_flat_map. eexists. split; [exact I|left; reflexivity].
  - destruct (G n H) as (m & i & Im & ->). apply in_flat_map in Im. destruct Im as (ch & Ic & Im). destruct ch as [t [r x|]|]; try contradiction. destruct Im as [<-|[]].
    exists t, r, x, i. split; [exact Ic|reflexivity].
Qed.
Print Assumptions C73_pauses_read.

(** Two captures of the runtime's statistics that have both been called race at once; so do
    two of the debug statistics, when the first reads gcStats. *)
Theorem C73_race : forall sched t u r1 r2 x1 x2, t <> u -> let c := fst (captures sched) in th c t = Idle -> th c u = Idle ->
  data_race (fst (captures (sched ++ [Call t (CaptureRuntime r1 x1); Call u (CaptureRuntime r2 x2)]))).
Proof.
  intros sched t u r1 r2 x1 x2 N c Ht Hu. change [Call t (CaptureRuntime r1 x1); Call u (CaptureRuntime r2 x2)] with ([Call t (CaptureRuntime r1 x1)] ++ [Call u (CaptureRuntime r2 x2)]).
  rewrite app_assoc. unfold captures in *. rewrite !cexec_snoc. destruct (cexec capture_body vars_init sched) as [c0 tr]. cbn [fst snd] in *. subst c.
  cbn [cstep]. rewrite Ht. cbn [fst snd th sh]. rewrite tset_other by auto. rewrite Hu. cbn [fst snd th sh].
  exists t, u, VMemStats. split; [exact N|]. split; [|left].
  - do 5 eexists. cbn [th sh]. rewrite tset_other, tset_same by auto. split; [reflexivity|]. split; [reflexivity|left; reflexivity].
  - do 5 eexists. cbn [th sh]. rewrite tset_same. split; [reflexivity|]. split; [reflexivity|left; reflexivity].
Qed.
Print Assumptions C73_race.
Theorem C73_debug_race : forall sched t u g1 g2 x1 x2, t <> u -> let c := fst (captures sched) in th c t = Idle -> th c u = Idle ->
  data_race (fst (captures (sched ++ [Call t (CaptureDebug g1 x1); Run t; Call u (CaptureDebug g2 x2)]))).
Proof.
  intros sched t u g1 g2 x1 x2 N c Ht Hu. change [Call t (CaptureDebug g1 x1); Run t; Call u (CaptureDebug g2 x2)] with (([Call t (CaptureDebug g1 x1)] ++ [Run t]) ++ [Call u (CaptureDebug g2 x2)]).
  rewrite !app_assoc. unfold captures in *. rewrite !cexec_snoc. destruct (cexec capture_body vars_init sched) as [c0 tr]. cbn [fst snd] in *. subst c.
  cbn [cstep]. rewrite Ht. cbn [fst snd th sh]. rewrite tset_same. cbn [capture_body debug_c load always fst snd th sh]. rewrite !tset_other by auto. rewrite Hu. cbn [fst snd th sh].
  exists t, u, VGCStats. split; [exact N|]. split; [|right].
  - do 5 eexists. cbn [th sh]. rewrite tset_other, tset_same by auto. split; [reflexivity|]. split; [reflexivity|left; reflexivity].
  - do 5 eexists. cbn [th sh]. rewrite tset_same. split; [reflexivity|]. split; [reflexivity|left; reflexivity].
Qed.
Print Assumptions C73_debug_race.

(** Overlapping captures record a pause twice, or never.  After [n] collections, the pause of the
    k-th having taken 100 k nanoseconds: *)
Definition pause_of (k : nat) : Z := 100 * Z.of_nat k.
Definition stats_at (n : nat) : reading := MkReading (MkMem 0 0 false false 0 0 0 0 0 0 0 0 0 0 0 0 0 0 0 (Z.of_nat n) f_zero
  (map (fun k => if (k <? n)%nat then pause_of (S k) else 0) (seq 0 256)) 0 0 0 0 0) 0 0 0.
Lemma nth_map_seq {A} (h : nat -> A) n i d : (i < n)%nat -> nth i (map h (seq 0 n)) d = h i.
Proof. intros L. rewrite (nth_indep _ d (h 0%nat)) by (rewrite map_length, seq_length; exact L). rewrite map_nth, seq_nth by exact L. reflexivity. Qed.
Lemma stats_show n : (n <= 256)%nat -> shows pause_of n (stats_at n).
Proof.
  intros L. unfold shows, stats_at. cbn [rd_mem ms_NumGC ms_PauseNs]. split; [rewrite Z.mod_small by lia; reflexivity|]. split; [rewrite map_length, seq_length; reflexivity|].
  intros k [K1 K2] _. assert (E : ((k + 255) mod 256 = k - 1)%nat) by (replace (k + 255)%nat with (k - 1 + 1 * 256)%nat by lia; rewrite Nat.mod_add by lia; apply Nat.mod_small; lia).
  rewrite E, nth_map_seq by lia. replace (k - 1 <? n)%nat with true by (symmetry; apply Nat.ltb_lt; lia). f_equal. lia.
Qed.
Definition twice : list (choice capture_op) :=
  Call 1 (CaptureRuntime (stats_at 1) 0) :: Run 1 :: repeat (Run 1) 54 ++ Call 2 (CaptureRuntime (stats_at 1) 0) :: Run 2 :: repeat (Run 2) 100 ++ repeat (Run 1) 100.
Definition lost : list (choice capture_op) :=
  Call 1 (CaptureRuntime (stats_at 1) 0) :: Run 1 :: repeat (Run 1) 54 ++ Call 2 (CaptureRuntime (stats_at 2) 0) :: Run 2 :: repeat (Run 1) 100 ++ repeat (Run 2) 100.
(* the part of a schedule after its k-th choice begins as it should *)
Definition prompt_b (sched : list (choice capture_op)) : bool :=
  forallb (fun k => match skipn k sched with Call t (CaptureRuntime _ _) :: r => match r with Run u :: _ => Nat.eqb u t | _ => false end | _ => true end) (seq 0 (List.length sched)).
Lemma prompt_check sched : prompt_b sched = true -> prompt sched.
Proof.
  intros H pre t r x post E. unfold prompt_b in H. rewrite forallb_forall in H. specialize (H (List.length pre)). rewrite E in H.
  rewrite skipn_app, skipn_all, Nat.sub_diag in H. cbn [app skipn] in H. assert (I : In (List.length pre) (seq 0 (List.length (pre ++ Call t (CaptureRuntime r x) :: post)))) by (apply in_seq; rewrite app_length; cbn; lia).
  apply H in I. destruct post as [|[|u] post]; try discriminate. apply Nat.eqb_eq in I. subst u. eauto.
Qed.

Theorem C73_no_pause_twice_refuted :
  ~ (forall P ns sched, prompt sched -> (forall i j, P i = P j -> i = j) -> let '(c, tr) := captures sched in quiet c ->
     Forall2 (fun r n => shows P n r) (readings_of (calls tr)) ns -> rising 0 ns 256 -> NoDup (recorded_pauses (labels tr))).
Proof.
  intros H. specialize (H pause_of [1; 1]%nat twice (prompt_check twice ltac:(vm_compute; reflexivity))).
  assert (Q : quiet (fst (captures twice))) by (apply quiet_check; vm_compute; reflexivity).
  assert (C : calls (snd (captures twice)) = [CaptureRuntime (stats_at 1) 0; CaptureRuntime (stats_at 1) 0]) by (vm_compute; reflexivity).
  assert (R : recorded_pauses (labels (snd (captures twice))) = [100; 100]) by (vm_compute; reflexivity).
  destruct (captures twice) as [c tr]. cbn [fst snd] in *. rewrite C, R in H.
  assert (D : NoDup [100; 100]) by (apply H; [unfold pause_of; intros; lia|exact Q|repeat constructor; apply stats_show; lia|cbn; lia]).
  inversion D as [|? ? X _]. apply X. left. reflexivity.
Qed.
Print Assumptions C73_no_pause_twice_refuted.
Theorem C73_no_pause_lost_refuted :
  ~ (forall P ns sched, prompt sched -> (forall i j, P i = P j -> i = j) -> let '(c, tr) := captures sched in quiet c ->
     Forall2 (fun r n => shows P n r) (readings_of (calls tr)) ns -> rising 0 ns 256 ->
     forall k, (1 <= k <= last ns 0)%nat -> In (as_int64 (P k)) (recorded_pauses (labels tr))).
Proof.
  intros H. specialize (H pause_of [1; 2]%nat lost (prompt_check lost ltac:(vm_compute; reflexivity))).
  assert (Q : quiet (fst (captures lost))) by (apply quiet_check; vm_compute; reflexivity).
  assert (C : calls (snd (captures lost)) = [CaptureRuntime (stats_at 1) 0; CaptureRuntime (stats_at 2) 0]) by (vm_compute; reflexivity).
  assert (R : recorded_pauses (labels (snd (captures lost))) = [100]) by (vm_compute; reflexivity).
  destruct (captures lost) as [c tr]. cbn [fst snd] in *. rewrite C, R in H.
  assert (D : In (as_int64 (pause_of 2)) [100]) by (apply H; [unfold pause_of; intros; lia|exact Q|repeat constructor; apply stats_show; lia|cbn; lia|cbn; lia]).
  destruct D as [D|[]]. vm_compute in D. discriminate D.
Qed.
Print Assumptions C73_no_pause_lost_refuted.
(** nor does the debug capture record the latest pause at most once *)
Definition gc_at1 : gcstats := MkGc 5 1 100 [100].
Definition debug_twice : list (choice capture_op) :=
  [Call 1 (CaptureDebug gc_at1 0); Call 2 (CaptureDebug gc_at1 0); Run 1; Run 2] ++ repeat (Run 1) 20 ++ repeat (Run 2) 20.
Theorem C73_debug_once_refuted :
  ~ (forall P T ns sched, (forall i, (1 <= i)%nat -> T i <> 0) -> (forall i j, T i = T j -> i = j) -> (forall i j, P i = P j -> i = j) ->
     let '(c, tr) := captures sched in quiet c -> Forall2 (fun g n => gc_shows P T n g) (gc_readings_of (calls tr)) ns -> rising 0 ns 256 -> NoDup (debug_pauses (labels tr))).
Proof.
  intros H. specialize (H pause_of (fun i => 5 * Z.of_nat i) [1; 1]%nat debug_twice ltac:(cbv beta; intros; lia) ltac:(cbv beta; intros; lia) ltac:(unfold pause_of; intros; lia)).
  assert (Q : quiet (fst (captures debug_twice))) by (apply quiet_check; vm_compute; reflexivity).
  assert (C : gc_readings_of (calls (snd (captures debug_twice))) = [gc_at1; gc_at1]) by (vm_compute; reflexivity).
  assert (R : debug_pauses (labels (snd (captures debug_twice))) = [100; 100]) by (vm_compute; reflexivity).
  destruct (captures debug_twice) as [c tr]. cbn [fst snd] in *. rewrite C, R in H.
  assert (D : NoDup [100; 100]) by (apply H; [exact Q|repeat constructor|cbn; lia]).
  inversion D as [|? ? X _]. apply X. left. reflexivity.
Qed.
Print Assumptions C73_debug_once_refuted.

(** two goroutines that take turns: after one and after three collections *)
Definition turns : list (choice capture_op) :=
  Call 1 (CaptureRuntime (stats_at 1) 0) :: repeat (Run 1) 100 ++ Call 2 (CaptureDebug gc_at1 0) :: repeat (Run 2) 30 ++ Call 2 (CaptureRuntime (stats_at 3) 0) :: repeat (Run 2) 120.
Lemma one_check sched : forallb (fun k => match skipn k sched with Call _ _ :: _ => quiet_b (fst (captures (firstn k sched))) (firstn k sched) | _ => true end) (seq 0 (List.length sched)) = true ->
  one_at_a_time capture_body vars_init sched.
Proof.
  intros H pre t op post E. rewrite forallb_forall in H. specialize (H (List.length pre)). rewrite E in H.
  rewrite skipn_app, skipn_all, Nat.sub_diag, firstn_app, firstn_all, Nat.sub_diag in H. cbn [app skipn firstn] in H. rewrite app_nil_r in H.
  apply quiet_check. apply H. apply in_seq. rewrite app_length. cbn. lia.
Qed.
Example C73_example : one_at_a_time capture_body vars_init turns /\ quiet (fst (captures turns)) /\
  Forall2 (fun r n => shows pause_of n r) (readings_of (calls (snd (captures turns)))) [1; 3]%nat /\ rising 0 [1; 3]%nat (2 ^ 32) /\
  recorded_pauses (labels (snd (captures turns))) = [100; 200; 300] /\ all_recorded 0 [1; 3]%nat = [1; 2; 3]%nat.
Proof.
  split; [apply one_check; vm_compute; reflexivity|]. split; [apply quiet_check; vm_compute; reflexivity|].
  assert (C : readings_of (calls (snd (captures turns))) = [stats_at 1; stats_at 3]) by (vm_compute; reflexivity). rewrite C.
  split; [repeat constructor; apply stats_show; lia|]. split; [cbn; lia|]. split; [vm_compute; reflexivity|reflexivity].
Qed.
