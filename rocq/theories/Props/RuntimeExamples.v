(** Concrete cases of the theorems about the runtime and debug metrics (C50-C53, C57). *)
From Coq Require Import ZArith List String Bool Lia Arith.
From Verif.Model Require Import GoInt GoFloat GoBase Stats Uniform ExpDecay World Runtime.
From Verif.Spec Require Import RegistrySpec RuntimeSpec.
From Verif.Props Require Import SnapshotProps RuntimeProps RuntimePauseProps RuntimeRegProps.
Import ListNotations.
Local Open Scope nat_scope.
Local Open Scope list_scope.

Definition mexp0 : f64 -> f64 := fun x => x.
Definition os0 : nat -> orc := fun _ => orc0.
(** pauses 101, 102, …; after [n] collections, with [fr] frees *)
Definition P0 (k : nat) : Z := (100 + Z.of_nat k)%Z.
Definition buffer (n : nat) : list Z := map (fun i => P0 (n - (n + 255 - i) mod 256)) (seq 0 256).
Definition rd0 (n : nat) (fr : Z) : reading :=
  MkReading (MkMem 7 0 false true fr 0 0 0 0 0 0 0 0 0 0 0 0 0 0 (Z.of_nat n mod 2 ^ 32) f_zero (buffer n) 0 0 0 0 0) 3 4 5.
(** value 0 is DefaultRegistry; value 1 a registry with a gauge of its own under one of the names; it is given to Register, then two captures *)
Definition h_start : history := [(PApi ONewRegistry, os0); (PApi (ONew NGauge), os0); (PApi (ORegister 1 "runtime.MemStats.Sys" 2), os0); (PApi ONewRegistry, os0)].
Definition h_reg : history := h_start ++ [(PRegisterRuntime (Some 1), os0)].
Definition h_cap : history := h_reg ++ [(PCaptureRuntime (Some 3) (rd0 3 1000), os0)].
Definition holds (h : history) (name : string) : option val := match snd (step mexp0 (p_state (preach mexp0 h)) (OGet 1 name, orc0)) with Some (Ok (RVal g)) => Some g | _ => None end.

Lemma shows_rd0 n fr : (n <=? 600) = true -> shows P0 n (rd0 n fr).
Proof.
  intros L. apply Nat.leb_le in L. split; [reflexivity|]. split; [reflexivity|]. intros k K1 K2. unfold rd0, buffer. cbn [rd_mem ms_PauseNs].
  set (i := (k + 255) mod 256). assert (Li : i < 256) by (unfold i; apply Nat.mod_upper_bound; lia).
  set (f := fun i => P0 (n - (n + 255 - i) mod 256)). rewrite (nth_indep _ 0%Z (f 0)) by (rewrite map_length, seq_length; exact Li).
  rewrite (map_nth f (seq 0 256) 0 i), seq_nth by exact Li. unfold f. f_equal. unfold i. lia.
Qed.
Lemma found s x name o g : snd (step mexp0 (p_state s) (OGet x name, o)) = Some (Ok (RVal g)) -> looked_up mexp0 s x name o g.
Proof. exact (fun H => H). Qed.
Lemma h_reg_next : next mexp0 h_start (PRegisterRuntime (Some 1)) os0 = preach mexp0 h_reg.
Proof. reflexivity. Qed.
Lemma h_start_nil : usenil (fst (p_state (preach mexp0 h_start))) = false.
Proof. vm_compute. reflexivity. Qed.
Lemma rt_here name g : snd (step mexp0 (p_state (preach mexp0 h_start)) (OGet 1 name, orc0)) = Some (Ok (RVal VNil)) ->
  snd (step mexp0 (p_state (preach mexp0 h_reg)) (OGet 1 name, orc0)) = Some (Ok (RVal g)) -> runtime_metric mexp0 h_reg name g.
Proof.
  intros H1 H2. exists h_start, 1, os0, [], orc0. split; [reflexivity|]. split; [intros r os [H|[H|[H|[H|[]]]]]; discriminate H|]. split; [exact h_start_nil|].
  split; [exact (found _ _ _ _ _ H1)|]. rewrite h_reg_next. exact (found _ _ _ _ _ H2).
Qed.
Example rt_frees : runtime_metric mexp0 h_reg "runtime.MemStats.Frees" (VGauge 9).
Proof. apply rt_here; vm_compute; reflexivity. Qed.
Example rt_pauses : runtime_metric mexp0 h_reg "runtime.MemStats.PauseNs" (VHist 27).
Proof. apply rt_here; vm_compute; reflexivity. Qed.
Example rt_timer : runtime_metric mexp0 h_reg "runtime.ReadMemStats" (VTimer 43).
Proof. apply rt_here; vm_compute; reflexivity. Qed.
(** C52: the first registration, with one name taken already *)
Example C52_first_case : ~ was_registered mexp0 h_start /\ result mexp0 h_start (PRegisterRuntime (Some 1)) os0 = Some (Ok RUnit) /\
  holds h_start "runtime.MemStats.Sys" = Some (VGauge 3) /\ holds h_reg "runtime.MemStats.Sys" = Some (VGauge 3) /\
  holds h_start "runtime.MemStats.Frees" = Some VNil /\ holds h_reg "runtime.MemStats.Frees" = Some (VGauge 9).
Proof.
  split; [intros W; apply done_iff in W; vm_compute in W; discriminate W|]. vm_compute. auto 10.
Qed.
(** C52: capturing with a registry never given to Register, after and before *)
Example C52_capture_case : was_registered mexp0 h_reg /\ result mexp0 h_reg (PCaptureRuntime (Some 3) (rd0 3 1000)) os0 = Some (Ok RUnit) /\
  result mexp0 h_start (PCaptureRuntime (Some 3) (rd0 3 1000)) os0 = Some (Panic msg_nil).
Proof. split; [apply done_iff; vm_compute; reflexivity|]. vm_compute. auto. Qed.
(** C51, C57: a first capture, and a second after 997 more frees (of 2^64) and 2 more collections *)
Example C51_case : holds h_reg "runtime.MemStats.Frees" = Some (VGauge 9) /\ nth_error (snd (p_state (preach mexp0 h_reg))) 8 = Some (VGauge 9) /\
  In ("runtime.MemStats.Frees"%string, 1000%Z) (delta_gauges (last_capture mexp0 h_reg) (rd0 3 1000)) /\
  result mexp0 h_cap (PCaptureRuntime None (rd0 5 (- 3))) os0 <> None /\
  In ("runtime.MemStats.Frees"%string, (- 1003)%Z) (delta_gauges (last_capture mexp0 h_cap) (rd0 5 (- 3))) /\
  shown_after mexp0 (preach mexp0 h_reg) [(PCaptureRuntime (Some 3) (rd0 3 1000), os0); (PCaptureRuntime None (rd0 5 1997), os0)] 8 = [1000; 997]%Z.
Proof.
  split; [vm_compute; reflexivity|]. split; [vm_compute; reflexivity|].
  split; [replace (last_capture mexp0 h_reg) with (@None reading) by (vm_compute; reflexivity); left; reflexivity|].
  split; [replace (result mexp0 h_cap (PCaptureRuntime None (rd0 5 (- 3))) os0) with (Some (Ok RUnit)) by (vm_compute; reflexivity); discriminate|].
  split; [|vm_compute; reflexivity].
  replace (last_capture mexp0 h_cap) with (Some (rd0 3 1000)); [left; reflexivity|]. unfold h_cap. rewrite ProcHistory.last_capture_snoc.
  replace (result mexp0 h_reg (PCaptureRuntime (Some 3) (rd0 3 1000)) os0) with (Some (Ok RUnit)) by (vm_compute; reflexivity). reflexivity.
Qed.
Lemma last_cap : last_capture mexp0 h_cap = Some (rd0 3 1000).
Proof.
  unfold h_cap. rewrite ProcHistory.last_capture_snoc. replace (result mexp0 h_reg (PCaptureRuntime (Some 3) (rd0 3 1000)) os0) with (Some (Ok RUnit)) by (vm_compute; reflexivity). reflexivity.
Qed.
(** C50: 3 collections at the first capture, 300 more at the second: the last 256 are recorded *)
Example C50_case : holds h_reg "runtime.MemStats.PauseNs" = Some (VHist 27) /\ nth_error (snd (p_state (preach mexp0 h_cap))) 26 = Some (VHist 27) /\
  last_capture mexp0 h_cap = Some (rd0 3 1000) /\ shows P0 3 (rd0 3 1000) /\ shows P0 303 (rd0 303 0) /\
  result mexp0 h_cap (PCaptureRuntime None (rd0 303 0)) os0 <> None /\
  recorded_gcs 3 303 = seq 257 47 ++ seq 48 209 /\
  snd (step mexp0 (p_state (preach mexp0 h_cap)) (OCount 26, orc0)) = Some (Ok (RZ 3)) /\
  snd (step mexp0 (p_state (next mexp0 h_cap (PCaptureRuntime None (rd0 303 0)) os0)) (OCount 26, orc0)) = Some (Ok (RZ 259)).
Proof.
  split; [vm_compute; reflexivity|]. split; [vm_compute; reflexivity|]. split; [exact last_cap|]. split; [apply shows_rd0; reflexivity|]. split; [apply shows_rd0; reflexivity|].
  split; [replace (result mexp0 h_cap (PCaptureRuntime None (rd0 303 0)) os0) with (Some (Ok RUnit)) by (vm_compute; reflexivity); discriminate|].
  split; [vm_compute; reflexivity|]. split; vm_compute; reflexivity.
Qed.
Example C50_history_case : rising 0 [3; 3; 259; 303] (2 ^ 32) /\ rising 0 [3; 3; 259; 303] 257 /\ List.length (all_recorded 0 [3; 3; 259; 303]) = 303.
Proof. cbn [rising]. repeat split; try lia; vm_compute; reflexivity. Qed.

(** C53: debug statistics *)
Definition T0 (k : nat) : Z := (1000000 * Z.of_nat k)%Z.
Definition gc0 (n : nat) : gcstats := MkGc (T0 n) (Z.of_nat n) 50 (map P0 (rev (seq 1 n))).
Definition g_reg : history := [(PRegisterDebug (Some 0), os0)].
Definition g_cap : history := g_reg ++ [(PCaptureDebug None (gc0 2), os0)].
Lemma shows_gc0 n : gc_shows P0 T0 n (gc0 n).
Proof.
  split; [destruct n; reflexivity|]. unfold gc0. cbn [gc_Pause]. destruct n as [|n]; [reflexivity|]. rewrite seq_S, rev_app_distr. reflexivity.
Qed.
Definition dholds (h : history) (name : string) : option val := match snd (step mexp0 (p_state (preach mexp0 h)) (OGet 0 name, orc0)) with Some (Ok (RVal g)) => Some g | _ => None end.
Example C53_case : debug_metric mexp0 g_cap "debug.GCStats.Pause" (VHist 5) /\
  option_map gc_LastGC (last_gc_capture mexp0 g_cap) = Some (gc_LastGC (gc0 2)) /\
  result mexp0 g_cap (PCaptureDebug (Some 0) (gc0 5)) os0 = Some (Ok RUnit) /\
  option_map (fun s => exp_Values s) (sample_of (fst (p_state (preach mexp0 g_cap))) (VHist 5)) = Some [102%Z] /\
  option_map (fun s => exp_Values s) (sample_of (fst (p_state (next mexp0 g_cap (PCaptureDebug (Some 0) (gc0 5)) os0))) (VHist 5)) = Some [102; 105]%Z /\
  option_map (fun s => exp_Values s) (sample_of (fst (p_state (next mexp0 g_cap (PCaptureDebug (Some 0) (gc0 2)) os0))) (VHist 5)) = Some [102]%Z.
Proof.
  split. { exists [], 0, os0, [(PCaptureDebug None (gc0 2), os0)], orc0. split; [reflexivity|]. split; [intros r os []|]. split; [reflexivity|]. split; unfold looked_up; vm_compute; reflexivity. }
  split; [vm_compute; reflexivity|]. split; [vm_compute; reflexivity|]. split; [vm_compute; reflexivity|]. split; vm_compute; reflexivity.
Qed.
