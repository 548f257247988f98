(** What a report should tell while the rest of the process goes on: of every metric the
    readings of one instant. *)
From Coq Require Import ZArith List String Bool.
From Verif.Model Require Import GoInt GoFloat GoBase World Report Live.
From Verif.Spec Require Import ApiSpec RegistrySpec GetAllSpec TextSpec ReportSpec ReadOnlySpec.
Import ListNotations.

(** ** A program in which a report takes part *)
(** the rest of the process makes the calls of the first gap, then the report its first call,
    and so on *)
Fixpoint weave (gaps : list (list (op * orc) * orc)) (calls : list op) : list (op * orc) :=
  match gaps, calls with
  | (q, o) :: gaps, c :: calls => q ++ (c, o) :: weave gaps calls
  | _, _ => []
  end.
(** the states in which the report makes its calls *)
Fixpoint moments (mexp : f64 -> f64) (st : state) (gaps : list (list (op * orc) * orc)) (calls : list op) : list state :=
  match gaps, calls with
  | (q, o) :: gaps, c :: calls => run mexp st q :: moments mexp (run mexp st (q ++ [(c, o)])) gaps calls
  | _, _ => []
  end.

(** an execution is such a program; the calls are readings *)
Definition woven {A} (mexp : f64 -> f64) (runs : bool) (st : state) (gaps : list (list (op * orc) * orc)) (e : exec A) : Prop :=
  exists calls, Forall (fun c => reading_call runs c = true) calls /\ (List.length calls <= List.length gaps)%nat /\
    at_end e = run mexp st (weave gaps calls) /\ acted e = moments mexp st gaps calls /\ left e = skipn (List.length calls) gaps.

(** ** Readings *)
(** the class of the metrics a reading is about *)
Definition about (d : reading) : class :=
  match d with
  | RdCounter _ => CCounter
  | RdGauge _ => CGauge
  | RdGaugeF _ => CGaugeF
  | RdHealth _ => CHealth
  | RdHist _ _ _ _ _ _ => CHist
  | RdMeter _ _ _ _ _ => CMeter
  | RdTimer _ _ _ _ _ _ _ _ _ _ => CTimer
  end.
(** [says c a]: the accessor [c] answers [a].  The numbers of the reading are the answers of
    the accessors of the metric at [x]. *)
Definition tells (says : op -> rv -> Prop) (x : nat) (ps : list f64) (d : reading) : Prop :=
  let distribution n mn mx me sd q :=
    says (OCount x) (RZ n) /\ says (OStat x SMin) (RZ mn) /\ says (OStat x SMax) (RZ mx) /\ says (OStat x SMean) (RF me) /\ says (OStat x SStdDev) (RF sd) /\
    Forall2 (fun p s => says (OPercentile x p) (RF s)) ps q in
  let rates r1 r5 r15 rm := says (OMRate x RK1) (RF r1) /\ says (OMRate x RK5) (RF r5) /\ says (OMRate x RK15) (RF r15) /\ says (OMRate x RKMean) (RF rm) in
  match d with
  | RdCounter n => says (OCount x) (RZ n)
  | RdGauge n => says (OValue x) (RZ n)
  | RdGaugeF y => says (OValue x) (RF y)
  | RdHealth e => says (OError x) (RErr e)
  | RdHist n mn mx me sd q => distribution n mn mx me sd q
  | RdMeter n r1 r5 r15 rm => says (OCount x) (RZ n) /\ rates r1 r5 r15 rm
  | RdTimer n mn mx me sd q r1 r5 r15 rm => distribution n mn mx me sd q /\ rates r1 r5 r15 rm
  end.
(** The metric [i] as the report finds it: [d] is read off in one of the states [seg], at one
    instant.  A health check is run before. *)
Definition found (mexp : f64 -> f64) (ps : list f64) (i : val) (seg : list state) (d : reading) : Prop :=
  about d = cls i /\
  match cls i with
  | CHealth => exists x s1 s2 o1 o2 q, seg = [s1; s2] /\ nth_error (snd s1) x = Some i /\
      s2 = run mexp s1 ((OCheck x, o1) :: q) /\ tells (fun c a => snd (step mexp s2 (c, o2)) = Some (Ok a)) x ps d
  | _ => exists x s o, In s seg /\ nth_error (snd s) x = Some i /\ tells (fun c a => answer mexp s o ps x c = Some (Ok a)) x ps d
  end.
(** The part of a report about the metric [i] registered as [nm]; a report that runs no
    health checks leaves them out. *)
Definition covered {A} (mexp : f64 -> f64) (health : bool) (ps : list f64) (render : string -> reading -> res (list A)) (nm : string) (i : val) (seg : list state) (out : list A) : Prop :=
  if class_eqb (cls i) CHealth && negb health then out = [] /\ seg = []
  else exists d, found mexp ps i seg d /\ render nm d = Ok out.
(** ** Lines of a Graphite report: "path value time", the value being what the metric at [x]
    answers in the state [s] *)
Definition line_tells (mexp : f64 -> f64) (s : state) (o : orc) (ps : list f64) (x : nat) (path : string) (now u : Z) (l : string) (f : field) : Prop :=
  let '(g, c, style) := f in
  exists value time a, split space l = [path ++ "." ++ g; value; time]%string /\ parse_int time = Some now /\ answer mexp s o ps x c = Some (Ok a) /\ prints u style a value.
(** all lines about the metric [i] come from one of the states [seg] *)
Definition lines_tell (mexp : f64 -> f64) (table : nat -> class -> list field) (ps : list f64) (path : string) (now u : Z) (i : val) (seg : list state) (ls : list string) : Prop :=
  if class_eqb (cls i) CHealth then ls = []
  else exists x s o, In s seg /\ nth_error (snd s) x = Some i /\ Forall2 (line_tells mexp s o ps x path now u) ls (table x (cls i)).
(** ** GetAll *)
(** the keys and values of the metric [i]: those of one instant; a health check is run, and
    asked for its error afterwards *)
Definition listed (mexp : f64 -> f64) (i : val) (seg : list state) (fs : list (string * gval)) : Prop :=
  match cls i with
  | CHealth => exists x s1 s2 o1 o2 q e, In s1 seg /\ In s2 seg /\ nth_error (snd s1) x = Some i /\ s2 = run mexp s1 ((OCheck x, o1) :: q) /\
      snd (step mexp s2 (OError x, o2)) = Some (Ok (RErr e)) /\ fs = [("error"%string, GE e)]
  | _ => exists x s o, In s seg /\ nth_error (snd s) x = Some i /\
      Forall2 (fun (kg : string * gval) (ka : string * op) => fst kg = fst ka /\ answer mexp s o standard x (snd ka) = Some (Ok (as_result (snd kg)))) fs (accessors (cls i) x)
  end.
