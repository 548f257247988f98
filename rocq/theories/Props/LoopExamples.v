(** Concrete cases of the theorems about loops (C67) and about a decaying sample used by several
    goroutines (C58). *)
From Coq Require Import ZArith List String Bool Lia Arith.
From Verif.Model Require Import GoInt GoFloat GoBase World Fmt Report Json JsonQuote Send Runtime Loops Conc Stats ExpDecay Mutex SampleConc.
From Verif.Spec Require Import RegistrySpec WriteSpec HistorySpec MutexSpec Traces.
From Verif.Proofs Require Import LinProofs.
From Verif.Props Require Import SnapshotProps HealthProps ReportProps WriteProps SendProps LoopProps RuntimeExamples SampleConcProps.
Import ListNotations.
Local Open Scope nat_scope.
Local Open Scope string_scope.

(** two cues; the gauge is set to 7 before the second one *)
Definition two_cues {A} (a b : A) : list (cue A) := [MkCue [] hurt a; MkCue [(PApi (OUpdate 1 7%Z), fun _ => hurt)] hurt b].
Definition no_text (e : Z) : string := "".
Example C67_texts : let s := prun one_exp proc_init one_gauge in let out {B} (r : proc * list B * option string) := (snd (fst r), snd r) in
  out (write_loop one_exp no_text (put_all) (VReg 0) 1 s (two_cues [] [])) = (["gauge a" ++ newline ++ "  value:              -5" ++ newline; "gauge a" ++ newline ++ "  value:               7" ++ newline], None) /\
  out (json_loop one_exp json_quote (fun _ => "0") no_text (VReg 0) 1 s (two_cues tt tt)) =
    (["{" ++ json_quote "a" ++ ":{" ++ json_quote "value" ++ ":-5}}" ++ newline; "{" ++ json_quote "a" ++ ":{" ++ json_quote "value" ++ ":7}}" ++ newline], None) /\
  out (log_on_cue one_exp no_text 1 (VReg 0) s (two_cues tt tt)) =
    ([["gauge a" ++ newline; "  value:              -5" ++ newline]; ["gauge a" ++ newline; "  value:               7" ++ newline]], None) /\
  out (syslog_loop one_exp no_text (VReg 0) 1 s (two_cues tt tt)) = ([["gauge a: value: -5"]; ["gauge a: value: 7"]], None) /\
  fst (fst (opentsdb_loop one_exp "h" "p" 1 (VReg 0) 0 s (two_cues (true, []) (true, [])))) = s.
Proof. cbv zeta. split; [vm_compute; reflexivity|]. split; [vm_compute; reflexivity|]. split; [vm_compute; reflexivity|]. split; [vm_compute; reflexivity|]. reflexivity. Qed.

(** captures on ticks: between them somebody sets the gauge of frees, the next capture sets it again *)
Definition frees_after (l : list (cue (reading * (nat -> orc)))) : option Z :=
  let s := fst (fst (capture_runtime_loop mexp0 (Some 3) 1 (prun mexp0 proc_init h_reg) l)) in
  match snd (step mexp0 (p_state s) (OValue 8, orc0)) with Some (Ok (RZ n)) => Some n | _ => None end.
Definition two_readings : list (cue (reading * (nat -> orc))) :=
  [MkCue [] orc0 (rd0 3 1000, os0); MkCue [(PApi (OUpdate 8 5%Z), os0)] orc0 (rd0 5 1997, os0)].
Example C67_captures_example :
  snd (capture_runtime_loop mexp0 (Some 3) 1 (prun mexp0 proc_init h_reg) two_readings) = None /\
  List.length (snd (fst (capture_runtime_loop mexp0 (Some 3) 1 (prun mexp0 proc_init h_reg) two_readings))) = 2 /\
  frees_after (firstn 1 two_readings) = Some 1000%Z /\ frees_after two_readings = Some 997%Z /\
  snd (capture_runtime_loop mexp0 (Some 3) 1 (prun mexp0 proc_init h_start) two_readings) = Some msg_nil /\
  snd (capture_debug_loop mexp0 None 1 (prun mexp0 proc_init g_reg) [MkCue [] orc0 (gc0 2, os0); MkCue [] orc0 (gc0 5, os0)]) = None.
Proof. split; [vm_compute; reflexivity|]. split; [vm_compute; reflexivity|]. split; [vm_compute; reflexivity|]. split; [vm_compute; reflexivity|]. split; vm_compute; reflexivity. Qed.

(** C58: three updates of a decaying sample of two by two goroutines, the first in the way of the second *)
Definition busy_decay : list (choice sop) :=
  ([Call 0 (SUpdate 7 1 1 f_half); Call 1 (SUpdate 5 2 2 f_half)] ++ repeat (Run 0) 3 ++ [Run 1] ++ repeat (Run 0) 40 ++ repeat (Run 1) 40 ++ [Call 0 (SUpdate 9 3 3 f_half)] ++ repeat (Run 0) 60)%list.
Example C58_expdecay_example : let run := expdecay_exec one_exp (NewExpDecaySample 2 f_half 0) busy_decay in
  quiet (fst run) /\ updates (calls (snd run)) = [7; 5; 9]%Z /\ (slen (calls (snd run)) < 2 ^ 63)%Z /\ (forall now, ~ In (SClear now) (calls (snd run))) /\
  exp_Count (g_data (sh (fst run))) = 3%Z /\ exp_Size (g_data (sh (fst run))) = 2%Z.
Proof.
  intros run. split; [apply quiet_check; vm_compute; reflexivity|].
  split; [vm_compute; reflexivity|]. split; [vm_compute; reflexivity|]. split; [|split; vm_compute; reflexivity].
  assert (E : forallb (fun c => match c with SClear _ => false | _ => true end) (calls (snd run)) = true) by (vm_compute; reflexivity).
  rewrite forallb_forall in E. intros now H. discriminate (E _ H).
Qed.
