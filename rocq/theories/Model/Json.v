(** json.go.

    Simplifications.  Of encoding/json what MarshalJSON needs: Marshal of a
    map[string]map[string]interface{} whose values are int64, float64, string and nil
    writes the keys in ascending order, and fails when a float is NaN or infinite.  The
    quotation of strings, and the notation of finite floats, are parameters, as is the
    text of an error. *)
From Coq Require Import ZArith List String Bool.
From Verif.Model Require Import GoInt GoFloat GoBase World Fmt Report.
Import ListNotations.
Open Scope string_scope.
Open Scope world_scope.

Section Json.
(** a JSON string *)
Variable quote : string -> string.
(** the JSON number of a finite float *)
Variable number : f64 -> string.
Variable error_text : Z -> string.

(** the keys of a map in ascending order *)
Fixpoint insert_key {A} (kv : string * A) (l : list (string * A)) : list (string * A) :=
  match l with [] => [kv] | x :: r => if String.ltb (fst x) (fst kv) then x :: insert_key kv r else kv :: x :: r end.
Definition sort_keys {A} (l : list (string * A)) : list (string * A) := fold_right insert_key [] l.
(** an object, unless a value cannot be encoded *)
Fixpoint members (l : list (string * option string)) : option (list string) :=
  match l with
  | [] => Some []
  | (k, Some t) :: r => match members r with Some ms => Some ((quote k ++ ":" ++ t) :: ms) | None => None end
  | (_, None) :: _ => None
  end.
Definition object (l : list (string * option string)) : option string :=
  match members (sort_keys l) with Some ms => Some ("{" ++ String.concat "," ms ++ "}") | None => None end.
(** a value of the map GetAll returns for one metric; an "error" is nil or the text of the
    error (registry.go:139-145) *)
Definition json_value (g : gval) : option string :=
  match g with
  | GZ n => Some (fmt_d n)
  | GF x => if fis_finite x then Some (number x) else None
  | GE None => Some "null"
  | GE (Some e) => Some (quote (fmt_err error_text (Some e)))
  end.
Definition marshal (all : list (string * list (string * gval))) : option string :=
  object (map (fun nf => (fst nf, object (map (fun kg => (fst kg, json_value (snd kg))) (snd nf)))) all).
(** json.go:11-13, 29-31; [None] is an error *)
Definition marshal_json (r : val) : M (option string) := all <- reg_get_all r;; ret (marshal all).
(** json.go:25-27: what is written.  Encode appends a line feed, and writes nothing when
    there is an error, which is ignored. *)
Definition write_json_once (r : val) : M string :=
  j <- marshal_json r;; ret (match j with Some s => s ++ newline | None => "" end).
End Json.
