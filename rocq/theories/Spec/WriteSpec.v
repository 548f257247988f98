(** What the textual reports (WriteOnce, Log, Syslog) should say. *)
From Coq Require Import ZArith List String Ascii Bool Permutation Sorted.
From Verif.Model Require Import GoInt GoFloat GoBase World.
From Verif.Spec Require Import ApiSpec RegistrySpec GetAllSpec TextSpec ReportSpec.
Import ListNotations.
Local Open Scope nat_scope.
Local Open Scope string_scope.

(** ** Sorting *)
(** ascending byte order of names, without repetitions *)
Definition ascending (names : list string) : Prop := Sorted (fun a b => String.ltb a b = true) names.
(** what sort.Sort does with a slice of named metrics: put the same elements into an order in
    which none is less than the one before *)
Definition sorts (sort : list (string * val) -> list (string * val)) : Prop :=
  forall l, Permutation (sort l) l /\ Sorted (fun a b => String.ltb (fst b) (fst a) = false) (sort l).
(** the same oracle with another map iteration order *)
Definition reorder (order : list nat) (o : orc) : orc :=
  MkOrc (o_now o) (o_draw o) (o_rand o) (o_fun o) (o_funf o) (o_health o) order.

(** ** Lines: a label, blanks up to a minimum width, and a number *)
Fixpoint unpad (s : string) : string :=
  match s with String a r => if Ascii.eqb a space then unpad r else s | "" => "" end.
Definition row : Type := string * nat * op * style.
(** the line is the number [a], which accessor [c] answers, after the label; [suffix] follows
    numbers of time units *)
Definition row_says (mexp : f64 -> f64) (st : state) (o : orc) (x : nat) (u : Z) (suffix : string) (l : string) (rw : row) : Prop :=
  let '(label, width, c, s) := rw in
  exists t a, l = label ++ t ++ (match s with FixedPer _ => suffix | _ => "" end) /\ answer mexp st o standard x c = Some (Ok a) /\ prints u s a (unpad t) /\
    String.length t = Nat.max width (String.length (unpad t)).

Section Tables.
Variable x : nat.
Definition rate_rows : list row :=
  [("  1-min rate:  ", 12, OMRate x RK1, Fixed 2); ("  5-min rate:  ", 12, OMRate x RK5, Fixed 2); ("  15-min rate: ", 12, OMRate x RK15, Fixed 2); ("  mean rate:   ", 12, OMRate x RKMean, Fixed 2)].
Definition percentile_rows (s : style) : list row :=
  [("  median:      ", 12, OPercentile x (ratio 1 2), s); ("  75%:         ", 12, OPercentile x (ratio 3 4), s); ("  95%:         ", 12, OPercentile x (ratio 95 100), s);
   ("  99%:         ", 12, OPercentile x (ratio 99 100), s); ("  99.9%:       ", 12, OPercentile x (ratio 999 1000), s)].
Definition distribution_rows : list row :=
  ([("  count:       ", 9, OCount x, Whole); ("  min:         ", 9, OStat x SMin, Whole); ("  max:         ", 9, OStat x SMax, Whole);
    ("  mean:        ", 12, OStat x SMean, Fixed 2); ("  stddev:      ", 12, OStat x SStdDev, Fixed 2)] ++ percentile_rows (Fixed 2))%list.
(** WriteOnce *)
Definition text_rows (k : class) : list row :=
  match k with
  | CCounter => [("  count:       ", 9, OCount x, Whole)]
  | CGauge => [("  value:       ", 9, OValue x, Whole)]
  | CGaugeF => [("  value:       ", 0, OValue x, Fixed 6)]
  | CHist => distribution_rows
  | CMeter => ("  count:       ", 9, OCount x, Whole) :: rate_rows
  | CTimer => (distribution_rows ++ rate_rows)%list
  | _ => []
  end.
End Tables.
Definition word (k : class) : string :=
  match k with CCounter => "counter" | CGauge | CGaugeF => "gauge" | CHealth => "healthcheck" | CHist => "histogram" | CMeter => "meter" | CTimer => "timer" | _ => "" end.

(** ** Health checks: run, then the error; a check that is registered under several names may
    have been run for each of them *)
Definition says_error (mexp : f64 -> f64) (st : state) (v : val) (o : orc) (i : val) (x : nat) (e : option err) : Prop :=
  forall ns, NoDup ns -> (forall n, In n ns <-> shown st v n = Some i) ->
  exists k, (1 <= k <= List.length ns)%nat /\ snd (step mexp (run mexp st (repeat (OCheck x, o) k)) (OError x, o)) = Some (Ok (RErr e)).
Definition error_says (error_text : Z -> string) (e : option err) : string :=
  match e with None => "<nil>" | Some (EDup n) => "duplicate metric: " ++ n | Some (EUser k) => error_text k end.
(** the lines on the metric [i] named [nm] *)
Definition block (mexp : f64 -> f64) (error_text : Z -> string) (st : state) (v : val) (o : orc) (rows : nat -> class -> list row) (u : Z) (suffix : string) (x : nat) (nm : string) (i : val) (ls : list string) : Prop :=
  exists rest, ls = (word (cls i) ++ " " ++ nm) :: rest /\
    if class_eqb (cls i) CHealth then exists e, rest = ["  error:       " ++ error_says error_text e] /\ says_error mexp st v o i x e
    else Forall2 (row_says mexp st o x u suffix) rest (rows x (cls i)).
