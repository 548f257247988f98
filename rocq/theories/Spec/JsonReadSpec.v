(** What a reader of JSON should find in an export. *)
From Coq Require Import ZArith List String Ascii Bool.
From Verif.Model Require Import GoInt GoFloat GoBase World.
From Verif.Spec Require Import ApiSpec RegistrySpec GetAllSpec TextSpec ReportSpec WriteSpec JsonSpec JsonText.
Import ListNotations.
Local Open Scope string_scope.

(** the code unit of a character of a JSON string; a byte of a string is one below 128 *)
Definition unit_of (c : jchar) : nat := match c with JByte c => nat_of_ascii c | JUnit n => n end.
Definition units (s : string) : list nat := map nat_of_ascii (list_ascii_of_string s).

Section Json.
(** what the string [s] is in JSON *)
Variable chars : string -> list jchar.
Variable number : f64 -> string.
Variable error_text : Z -> string.
(** the JSON value of what an accessor answers *)
Definition value_json (a : rv) (j : json) : Prop :=
  match a with
  | RZ n => exists t, j = JNum t /\ parse_int t = Some n
  | RF x => fis_finite x = true /\ j = JNum (number x)
  | RErr None => j = JNull
  | RErr (Some e) => j = JStr (chars (error_says error_text (Some e)))
  | _ => False
  end.
(** an object with these members, in this order *)
Definition json_object (fs : list (string * json)) : json := JObj (map (fun kv => (chars (fst kv), snd kv)) fs).
(** the metric [i], which the program holds at [x] *)
Definition metric_json (mexp : f64 -> f64) (st : state) (b : nat) (o : orc) (i : val) (x : nat) (j : json) : Prop :=
  exists fs, j = json_object fs /\ ascending (map fst fs) /\ (forall k, In k (map fst fs) <-> In k (map fst (accessors (cls i) x))) /\
    forall k v, In (k, v) fs -> exists c a, In (k, c) (accessors (cls i) x) /\ reported mexp st b o i x c a /\ value_json a v.
End Json.
