(** The JSON export (json.go) while the rest of the process goes on: GetAll as in Live.v, whose
    result is then encoded as in Json.v.  A prefixed registry exports the whole registry
    underlying it (registry.go:317-320); here [r] is that registry. *)
From Coq Require Import ZArith List String.
From Verif.Model Require Import GoInt GoFloat GoBase World Fmt Report Json Live.
Import ListNotations.
Local Open Scope string_scope.

Section LiveJson.
Variable mexp : f64 -> f64.
Variable quote : string -> string.
Variable number : f64 -> string.
Variable error_text : Z -> string.
(** json.go:11-13; [None] is an error *)
Definition live_json (r : nat) : L (option string) := lbind (live_get_all mexp r) (fun all => lret (marshal quote number error_text all)).
(** json.go:25-27, as [write_json_once] of Json.v *)
Definition live_write_json (r : nat) : L string := lbind (live_json r) (fun j => lret (match j with Some s => s ++ newline | None => "" end)).
End LiveJson.
