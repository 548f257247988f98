(** Timer.Time(f): the only method of the library, besides Each and the functional
    metrics, that runs code of its caller in the middle.  [World.v] has its two halves as
    separate calls; this is the whole method. *)
From Coq Require Import ZArith List.
From Verif.Model Require Import GoInt GoFloat GoBase World.

(** Everything the caller's function does to the objects of the library and to the
    variables, and whether it returns or panics. *)
Definition behaviour := state -> state * res unit.

(** timer.go:225-229 StandardTimer.Time:
      ts := time.Now(); f(); t.Update(time.Since(ts))
    timer.go:313-315 TimerSnapshot.Time panics; timer.go:129 NilTimer.Time does nothing.
    [v] is the receiver, [o1] what time.Now reads before f, [o2] what is read after it (the
    clock, and what Update reads).  A panic of f leaves Time at once: there is no defer. *)
Definition time_call (mexp : f64 -> f64) (v : val) (f : behaviour) (o1 o2 : orc) (st : state) : state * res unit :=
  match timer_begin v o1 (fst st) with
  | (w, Ok (RTime ts)) =>
    match f (w, snd st) with
    | (st', Ok _) => let (w', r) := timer_end mexp ts v o2 (fst st') in ((w', snd st'), r)
    | (st', Panic msg) => (st', Panic msg)
    end
  | (w, Ok _) => ((w, snd st), Ok tt)
  | (w, Panic msg) => ((w, snd st), Panic msg)
  end.
