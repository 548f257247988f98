(** What is posted to Librato. *)
From Coq Require Import ZArith List String Bool Permutation.
From Verif.Model Require Import GoInt GoFloat GoBase World Librato LibratoPost.
From Verif.Spec Require Import TextSpec JsonText JsonReadSpec.
Import ListNotations.
Local Open Scope string_scope.

Section Reads.
(** the characters of a JSON string, and the notation of finite floats *)
Variables (chars : string -> list jchar) (number : f64 -> string).
(** the members of an object are those of a map, in some order *)
Definition same_members {A} (R : A -> json -> Prop) (m : list (string * A)) (ms : list (string * json)) : Prop :=
  exists m', Permutation m' m /\ Forall2 (fun ka kj => fst kj = fst ka /\ R (snd ka) (snd kj)) m' ms.
Definition integer_reads (n : Z) (j : json) : Prop := exists t, j = JNum t /\ parse_int t = Some n.
Definition lval_reads (v : lval) (j : json) : Prop :=
  match v with
  | LF x => fis_finite x = true /\ j = JNum (number x)
  | LU n | LI n => integer_reads n j
  | LS s => j = JStr (chars s)
  | LA a => exists ms, j = json_object chars ms /\ same_members (fun s j => j = JStr (chars s)) a ms
  end.
Definition measurement_reads (m : measurement) (j : json) : Prop := exists ms, j = json_object chars ms /\ same_members lval_reads m ms.
(** a list without elements is left out *)
Definition list_reads (k : string) (l : list measurement) (ms : list (string * json)) : Prop :=
  (l = [] /\ ms = []) \/ (l <> [] /\ exists js, ms = [(k, JArr js)] /\ Forall2 measurement_reads l js).
Definition batch_reads (b : batch) (j : json) : Prop :=
  exists gs cs jt, list_reads "gauges" (b_gauges b) gs /\ list_reads "counters" (b_counters b) cs /\ integer_reads (b_time b) jt /\
    j = json_object chars (gs ++ cs ++ [("measure_time", jt); ("source", JStr (chars (b_source b)))])%list.
End Reads.

(** the batch contains a measurement *)
Definition has_measurement (b : batch) : Prop := exists m, In m (b_gauges b) \/ In m (b_counters b).
(** and no NaN and no infinity *)
Definition all_finite (b : batch) : Prop := forall m k x, In m (b_gauges b) \/ In m (b_counters b) -> In (k, LF x) m -> fis_finite x = true.

(** the requests among what is done *)
Definition requests (l : list action) : list http_request := flat_map (fun a => match a with Do r => [r] | _ => [] end) l.
(** the network accepts the request *)
Definition accepts (http : http_request -> http_answer) (r : http_request) : Prop := exists status body, http r = Answer 200 status body.
(** two executions that differ only in what the network answers *)
Definition same_tick (a b : tick) : Prop := t_calls a = t_calls b /\ t_now a = t_now b /\ t_orc a = t_orc b.
