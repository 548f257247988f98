(** Vocabulary for statements about programs that use the API: kinds of calls and kinds of values. *)
From Coq Require Import ZArith List String Bool.
From Verif.Model Require Import GoInt GoFloat GoBase World.
Import ListNotations.
Local Open Scope nat_scope.
Local Open Scope list_scope.

(** a call that reads the metric at index [x] *)
Definition reads (c : op) : option nat :=
  match c with
  | OCount x | OValue x | OStat x _ | OPercentile x _ | OPercentiles x _ | OSize x | ORate x | OMRate x _ => Some x
  | _ => None
  end.
(** readings that cannot depend on the order of the sample *)
Definition order_free (c : op) : bool := match c with OStat _ SVariance | OStat _ SStdDev => false | _ => true end.
(** the same call on the value at another index *)
Definition at_index (y : nat) (c : op) : op :=
  match c with
  | OCount _ => OCount y | OValue _ => OValue y | OStat _ s => OStat y s | OPercentile _ p => OPercentile y p
  | OPercentiles _ ps => OPercentiles y ps | OSize _ => OSize y | ORate _ => ORate y | OMRate _ k => OMRate y k
  | c => c
  end.
(** a call that changes the metric at index [x], if it is not a snapshot or a stub *)
Definition mutates (c : op) : option nat :=
  match c with
  | OInc x _ | ODec x _ | OClear x | OUpdate x _ | OUpdateF x _ | OTick x | OMark x _
  | OTimeBegin x | OTimeEnd x _ | OUpdateSince x _ => Some x
  | _ => None
  end.
(** the snapshot types *)
Definition is_snapshot (v : val) : bool :=
  match v with
  | VCounterSnap _ | VGaugeSnap _ | VGaugeFSnap _ | VSampleSnap _ | VHistSnap _ | VEwmaSnap _ | VMeterSnap _ | VTimerSnap _ => true
  | _ => false
  end.
(** the stub types *)
Definition is_stub (v : val) : bool :=
  match v with
  | VNilCounter | VNilGauge | VNilGaugeF | VNilHealth | VNilSample | VNilHist | VNilEwma | VNilMeter | VNilTimer => true
  | _ => false
  end.
(** metrics whose sample, if they have one, is one of the library's two samples *)
Definition reservoir (v : val) : Prop := match v with VUniform _ | VExp _ => True | _ => False end.
Definition over_reservoir (h : list obj) (v : val) : Prop :=
  match v with
  | VSampleSnap _ | VHistSnap _ | VTimerSnap _ => False
  | VHist l => exists s, nth_error h l = Some (OHist s) /\ reservoir s
  | VTimer l => exists k m s, nth_error h l = Some (OTimer (VHist k) m) /\ nth_error h k = Some (OHist s) /\ reservoir s
  | _ => True
  end.
(** the program never calls NewSampleSnapshot *)
Definition no_NewSampleSnapshot (p : list (op * orc)) : Prop :=
  Forall (fun co => match fst co with ONewSampleSnapshot _ _ => False | _ => True end) p.
(** what [x.Values()] contains: call it and read the slice *)
Definition values_of (mexp : f64 -> f64) (st : state) (x : nat) (o : orc) : option (res rv) :=
  snd (step mexp (fst (step mexp st (OValues x, o))) (OReadSlice (List.length (snd st)), o)).

(** the interfaces: which calls are methods of which interface (counter.go:7-13,
    gauge.go:7-11, gauge_float64.go:9-13, healthcheck.go:4-9, sample.go:14-31,
    histogram.go:5-19, ewma.go:11-16, meter.go:11-21, timer.go:9-28) *)
Definition method (k : class) (c : op) : option nat :=
  match k, c with
  | CCounter, (OClear x | OCount x | ODec x _ | OInc x _ | OSnapshot x)
  | CGauge, (OSnapshot x | OUpdate x _ | OValue x)
  | CGaugeF, (OSnapshot x | OUpdateF x _ | OValue x)
  | CHealth, (OCheck x | OError x | OHealthy x | OUnhealthy x _)
  | CSample, (OClear x | OCount x | OStat x _ | OPercentile x _ | OPercentiles x _ | OSize x | OSnapshot x | OUpdate x _ | OValues x)
  | CHist, (OClear x | OCount x | OStat x _ | OPercentile x _ | OPercentiles x _ | OSample x | OSnapshot x | OUpdate x _)
  | CEwma, (ORate x | OSnapshot x | OTick x | OUpdate x _)
  | CMeter, (OCount x | OMark x _ | OMRate x _ | OSnapshot x | OStop x)
  | CTimer, (OCount x | OStat x _ | OPercentile x _ | OPercentiles x _ | OMRate x _ | OSnapshot x | OStop x
            | OTimeBegin x | OTimeEnd x _ | OUpdate x _ | OUpdateSince x _) => Some x
  | _, _ => None
  end.
(** the stub of each constructor *)
Definition stub_for (k : newk) : val :=
  match k with
  | NCounter => VNilCounter | NGauge | NFuncGauge _ => VNilGauge | NGaugeF | NFuncGaugeF _ => VNilGaugeF
  | NHealth _ => VNilHealth | NUniform _ | NExp _ _ => VNilSample | NHist _ => VNilHist | NEwma _ => VNilEwma
  | NMeter => VNilMeter | NTimer | NCustomTimer _ _ => VNilTimer
  end.
(** a result that is zero: 0, 0.0, zeros, no error, an empty slice, a stub, nothing *)
Definition zero_result (c : op) (h : list obj) (r : rv) : Prop :=
  match r with
  | RUnit => True
  | RZ n => n = 0%Z
  | RF x => x = f_zero
  | RFs l => match c with OPercentiles _ ps => l = map (fun _ => f_zero) ps | _ => False end
  | RErr e => e = None
  | RVal (VSlice a) => nth_error h a = Some (OArr [])
  | RVal v => is_stub v = true
  | _ => False
  end.
(** a program that only constructs metrics and calls methods of stubs *)
Fixpoint only_stubs (mexp : f64 -> f64) (st : state) (p : list (op * orc)) : Prop :=
  match p with
  | [] => True
  | (c, o) :: p' =>
    ((exists k, c = ONew k /\ ctor_of (snd st) k <> None) \/
     exists x v, nth_error (snd st) x = Some v /\ is_stub v = true /\ method (cls v) c = Some x) /\
    only_stubs mexp (fst (step mexp st (c, o))) p'
  end.
(** the results of a program *)
Fixpoint results (mexp : f64 -> f64) (st : state) (p : list (op * orc)) : list (option (res rv)) :=
  match p with [] => [] | co :: p' => snd (step mexp st co) :: results mexp (fst (step mexp st co)) p' end.
