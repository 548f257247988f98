(** The reports of the package and its subpackages, as changes of the state of the metrics. *)
From Coq Require Import ZArith List String Bool.
From Verif.Model Require Import GoInt GoFloat GoBase World Report Json Expvar Librato.
From Verif.Spec Require Import WriteSpec.
Import ListNotations.

(** [reported runs v o w w']: a report on the registry [v] in the state [w] left the state
    [w'], whether it returned or panicked; [runs] says whether it runs the health checks *)
Inductive reported : bool -> val -> orc -> world -> world -> Prop :=
| r_graphite v o w decimal prefix unit_ ps : reported false v o w (fst (graphite decimal prefix unit_ ps v o w))
| r_opentsdb v o w host prefix unit_ : reported false v o w (fst (opentsdb host prefix unit_ v o w))
| r_stathat v o w : reported false v o w (fst (stathat v o w))
| r_librato v o w sq self now : reported false v o w (fst (build_request sq self now v o w))
| r_expvar v o w e : reported false v o w (fst (exp_sync v o w e))
| r_write v o w error_text sort : sorts sort -> reported true v o w (fst (write_once error_text sort v o w))
| r_log v o w error_text scale : reported true v o w (fst (log_once error_text scale v o w))
| r_syslog v o w error_text : reported true v o w (fst (syslog_once error_text v o w))
| r_json v o w quote number error_text : reported true v o w (fst (write_json_once quote number error_text v o w))
| r_get_all v o w : reported true v o w (fst (reg_get_all v o w)).

(** the calls of the API a report may consist of; the last two run health checks *)
Definition reading_call (runs : bool) (c : op) : bool :=
  match c with
  | OEach _ | OCount _ | OValue _ | OStat _ _ | OPercentile _ _ | OPercentiles _ _ | OSnapshot _ | OMRate _ _ | OSample _ | OError _ => true
  | OCheck _ | OGetAll _ => runs
  | _ => false
  end.
