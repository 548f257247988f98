(** The endless loops around the reports and captures: graphite.go:40-47, opentsdb.go:40-46,
    writer.go:12-16, json.go:17-21, log.go:24-41, syslog.go:13-15, stathat/stathat.go:11-18,
    runtime.go:59-63, debug.go:26-30.  (That of librato is in LibratoPost.v.)

    Simplifications.  A cue (a tick, an item of the channel, the end of a sleep) is an input,
    together with what the process has done since the cue before; a turn is not interleaved with
    the rest of the process.  The warning that Graphite logs first is left out. *)
From Coq Require Import ZArith List String Bool.
From Verif.Model Require Import GoInt GoFloat GoBase World Fmt Report Json Send Runtime.
Import ListNotations.

Record cue (A : Type) := MkCue { q_before : list (pop * (nat -> orc)); q_orc : orc; q_in : A }.
Arguments MkCue {A}. Arguments q_before {A}. Arguments q_orc {A}. Arguments q_in {A}.

Section Loop.
Variable mexp : f64 -> f64.
Section Turn.
Context {A B : Type}.
Variable turn : A -> orc -> proc -> proc * res B.
(** the process after the cues, what each turn gave, and the panic that ended the process *)
Fixpoint loop (s : proc) (cues : list (cue A)) : proc * list B * option string :=
  match cues with
  | [] => (s, [], None)
  | c :: r =>
    match turn (q_in c) (q_orc c) (prun mexp s (q_before c)) with
    | (s', Panic m) => (s', [], Some m)
    | (s', Ok b) => let '(s2, l, e) := loop s' r in (s2, b :: l, e)
    end
  end.
(** for range time.Tick(d): time.Tick returns nil if d is not positive, and nothing is received
    from a nil channel *)
Definition on_ticks (d : Z) (s : proc) (cues : list (cue A)) : proc * list B * option string :=
  if Z.leb d 0 then (s, [], None) else loop s cues.
End Turn.
Definition set_world (s : proc) (w : world) : proc := MkProc (w, snd (p_state s)) (rt_done s) (rt_tab s) (rt_prev s) (dbg_done s) (dbg_tab s) (dbg_last s).
Definition on_world {B} (m : M B) (o : orc) (s : proc) : proc * res B := let '(w, r) := m o (fst (p_state s)) in (set_world s w, r).
(** a connection is opened for every report; what arrives, and whether an error is logged *)
Definition on_conn (once : bool -> fate -> orc -> world -> sent) (a : bool * fate) (o : orc) (s : proc) : proc * res (string * bool) :=
  let r := once (fst a) (snd a) o (fst (p_state s)) in
  (set_world s (s_world r), match s_err r with Ok e => Ok (c_accepted (s_conn r), e) | Panic m => Panic m end).

(** graphite.go:42-46 *)
Definition graphite_loop (format_float : f64 -> string) (prefix : string) (unit_ : Z) (ps : list f64) (v : val) (d : Z) :=
  on_ticks (on_conn (graphite_once format_float prefix unit_ ps v)) d.
(** opentsdb.go:41-45 *)
Definition opentsdb_loop (host prefix : string) (unit_ : Z) (v : val) (d : Z) := on_ticks (on_conn (opentsdb_once host prefix unit_ v)) d.
(** writer.go:13-15; what the writer does is an input of every turn *)
Definition write_turn (error_text : Z -> string) (sort : list (string * val) -> list (string * val)) (v : val) (f : fate) (o : orc) (s : proc) : proc * res string :=
  let r := write_to error_text sort v f o (fst (p_state s)) in
  (set_world s (s_world r), match s_err r with Ok _ => Ok (c_accepted (s_conn r)) | Panic m => Panic m end).
Definition write_loop (error_text : Z -> string) (sort : list (string * val) -> list (string * val)) (v : val) (d : Z) := on_ticks (write_turn error_text sort v) d.
(** json.go:18-20 *)
Definition json_loop (quote : string -> string) (number : f64 -> string) (error_text : Z -> string) (v : val) (d : Z) :=
  on_ticks (fun _ : unit => on_world (write_json_once quote number error_text v)) d.
(** log.go:37-41: the loop ends when the channel is closed *)
Definition log_on_cue (error_text : Z -> string) (scale : Z) (v : val) := loop (fun _ : unit => on_world (log_once error_text scale v)).
(** log.go:24-32: a goroutine passes the ticks on *)
Definition log_loop (error_text : Z -> string) (scale : Z) (v : val) (freq : Z) := on_ticks (fun _ : unit => on_world (log_once error_text scale v)) freq.
(** syslog.go:14 *)
Definition syslog_loop (error_text : Z -> string) (v : val) (d : Z) := on_ticks (fun _ : unit => on_world (syslog_once error_text v)) d.
(** stathat.go:12-17: the first report comes at once; sh returns nil *)
Definition stathat_loop (v : val) := loop (fun _ : unit => on_world (stathat v)).
(** runtime.go:60-62, debug.go:27-29 *)
Definition capture_turn (c : pop) (os : nat -> orc) (s : proc) : proc * res unit :=
  match pstep mexp s (c, os) with (s', Some (Panic m)) => (s', Panic m) | (s', _) => (s', Ok tt) end.
Definition capture_runtime_loop (r : option nat) (d : Z) := on_ticks (fun (a : reading * (nat -> orc)) (_ : orc) => capture_turn (PCaptureRuntime r (fst a)) (snd a)) d.
Definition capture_debug_loop (r : option nat) (d : Z) := on_ticks (fun (a : gcstats * (nat -> orc)) (_ : orc) => capture_turn (PCaptureDebug r (fst a)) (snd a)) d.
End Loop.
