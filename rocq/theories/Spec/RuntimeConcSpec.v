(** Captures by several goroutines: what they should do, and what a data race is. *)
From Coq Require Import ZArith List String Bool.
From Verif.Model Require Import GoInt GoFloat GoBase Conc World Runtime RuntimeConc.
From Verif.Spec Require Import Traces RuntimeSpec.
Import ListNotations.
Local Open Scope string_scope.
Local Open Scope list_scope.
Local Open Scope Z_scope.

(** calls of the metrics' methods; [f] says where the program holds the metrics *)
Definition as_call (f : group -> string -> nat) (l : seen_action) : list op :=
  match l with
  | Updated g x n => [OUpdate (f g x) n]
  | UpdatedF g x y => [OUpdateF (f g x) y]
  | Timed g x t => [OUpdateSince (f g x) t]
  | _ => []
  end.
Definition calls_made (f : group -> string -> nat) (ls : list seen_action) : list op := flat_map (as_call f) ls.
(** captures one after the other: the calls of Runtime.v *)
Fixpoint in_turn (f : group -> string -> nat) (p : previous) (last : option Z) (cs : list capture_op) : list op :=
  match cs with
  | [] => []
  | CaptureRuntime r t :: cs => capture (f RuntimeMetrics) p r t ++ in_turn f (remember r) last cs
  | CaptureDebug g t :: cs => dbg_capture (f DebugMetrics) last g t ++ in_turn f p (Some (gc_LastGC g)) cs
  end.
(** no call while another is in progress *)
Definition one_at_a_time {S L Op R} (body : Op -> code S L R) (s0 : S) (sched : list (choice Op)) : Prop :=
  forall pre t op post, sched = pre ++ Call t op :: post -> quiet (fst (cexec body s0 pre)).

(** the pauses recorded, and the readings of the captures, in order of the calls *)
Definition recorded_pauses (ls : list seen_action) : list Z :=
  flat_map (fun l => match l with Updated RuntimeMetrics x n => if x =? "PauseNs" then [n] else [] | _ => [] end)%string ls.
Definition readings_of (cs : list capture_op) : list reading := flat_map (fun c => match c with CaptureRuntime r _ => [r] | _ => [] end) cs.
Definition debug_pauses (ls : list seen_action) : list Z :=
  flat_map (fun l => match l with Updated DebugMetrics x n => if x =? "Pause" then [n] else [] | _ => [] end)%string ls.
Definition gc_readings_of (cs : list capture_op) : list gcstats := flat_map (fun c => match c with CaptureDebug g _ => [g] | _ => [] end) cs.
(** captures read the statistics at once when they are called, so in the order of the calls *)
Definition prompt (sched : list (choice capture_op)) : Prop :=
  forall pre t r time post, sched = pre ++ Call t (CaptureRuntime r time) :: post -> exists post', post = Run t :: post'.

(** two goroutines are about to use the same variable, and one of them writes *)
Definition about_to {S L Op R} (c : config S L Op R) (t : nat) (l : L) : Prop :=
  exists op e u lab k, th c t = Busy op (Atom e u lab k) /\ e (sh c) = true /\ In l (lab (sh c)).
Definition data_race (c : config vars seen_action capture_op unit) : Prop :=
  exists t u x, t <> u /\ about_to c t (Writes x) /\ (about_to c u (Writes x) \/ about_to c u (Reads x)).
