(** What the reporters' output should say of a metric while the rest of the process goes on:
    everything about one metric is what it answers in one of the states [seg]. *)
From Coq Require Import ZArith List String Ascii Bool Permutation Sorted.
From Verif.Model Require Import GoInt GoFloat GoBase World Report.
From Verif.Spec Require Import ApiSpec RegistrySpec GetAllSpec TextSpec ReportSpec WriteSpec LogSpec.
Import ListNotations.
Local Open Scope nat_scope.
Local Open Scope string_scope.

(** ** OpenTSDB: "put path time value host=h" *)
Definition put_tells (mexp : f64 -> f64) (s : state) (o : orc) (x : nat) (path host : string) (now u : Z) (l : string) (f : field) : Prop :=
  let '(g, c, style) := f in
  exists value time a, split space l = ["put"; path ++ "." ++ g; time; value; "host=" ++ first_label host] /\ parse_int time = Some now /\
    answer mexp s o standard x c = Some (Ok a) /\ prints u style a value.
Definition puts_tell (mexp : f64 -> f64) (path host : string) (now u : Z) (i : val) (seg : list state) (ls : list string) : Prop :=
  if class_eqb (cls i) CHealth then ls = []
  else exists x s o, In s seg /\ nth_error (snd s) x = Some i /\ Forall2 (put_tells mexp s o x path host now u) ls (opentsdb_table x (cls i)).

(** ** Health checks: first run, and some time later asked for the error *)
Definition error_told (mexp : f64 -> f64) (i : val) (seg : list state) (e : option err) : Prop :=
  exists x s1 s2 o1 o2 q, seg = [s1; s2] /\ nth_error (snd s1) x = Some i /\ s2 = run mexp s1 ((OCheck x, o1) :: q) /\
    snd (step mexp s2 (OError x, o2)) = Some (Ok (RErr e)).

(** ** WriteOnce and Log: a block of lines *)
Definition block_tells (mexp : f64 -> f64) (error_text : Z -> string) (rows : nat -> class -> list row) (u : Z) (suffix : string) (nm : string) (i : val) (seg : list state) (ls : list string) : Prop :=
  exists rest, ls = (word (cls i) ++ " " ++ nm) :: rest /\
    if class_eqb (cls i) CHealth then exists e, rest = ["  error:       " ++ error_says error_text e] /\ error_told mexp i seg e
    else exists x s o, In s seg /\ nth_error (snd s) x = Some i /\ Forall2 (row_says mexp s o x u suffix) rest (rows x (cls i)).
(** sort.Sort on the named metrics WriteOnce has collected, which here are given by the places
    at which they are held *)
Definition sorts_places (sort : list (string * nat) -> list (string * nat)) : Prop :=
  forall l, Permutation (sort l) l /\ Sorted (fun a b => String.ltb (fst b) (fst a) = false) (sort l).

(** ** Syslog: one message *)
Definition message_tells (mexp : f64 -> f64) (error_text : Z -> string) (nm : string) (i : val) (seg : list state) (l : string) : Prop :=
  exists parts, l = message (cls i) nm parts /\
    if class_eqb (cls i) CHealth then exists e, parts = [("error", error_says error_text e)] /\ error_told mexp i seg e
    else exists x s o, In s seg /\ nth_error (snd s) x = Some i /\ Forall2 (part_says mexp s o x) parts (sys_table x (cls i)).

(** ** Stathat: posts *)
Definition posts_tell (mexp : f64 -> f64) (nm : string) (i : val) (seg : list state) (ps : list post) : Prop :=
  if class_eqb (cls i) CHealth then ps = []
  else exists x s o, In s seg /\ nth_error (snd s) x = Some i /\ Forall2 (hat_says mexp s o x nm) ps (hat_table x (cls i)).
