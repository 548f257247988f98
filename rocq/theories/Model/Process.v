(** A process: goroutines that use the metrics it holds.  The state is one of World.v; the
    goroutines call methods of counters, gauges, float64 gauges, UniformSamples, ExpDecaySamples
    and histograms over such samples.  Each of these methods works on the fields of one struct
    (counter.go:85-112, gauge.go:85-102, gauge_float64.go:90-107, sample.go:63-186, 420-535); a
    histogram (histogram.go:153-202) has only its sample, which never changes, and its methods
    call the sample's.  The code is that of CounterGauge.v and SampleConc.v, action by action.

    Not here: EWMAs, meters, timers, health checks and registries, whose concurrent use has its
    own models; functional gauges, stubs and snapshots; making new metrics.  The goroutines use
    the metrics the process holds at the start. *)
From Coq Require Import ZArith List String.
From Verif.Model Require Import GoInt GoFloat GoBase Conc CounterGauge Stats Uniform ExpDecay Mutex Compose World.
From Verif.Model Require SampleConc.
Import ListNotations.
Open Scope Z_scope.

(** what a caller gets: numbers, the elements of a slice, the values in a snapshot, a panic *)
Inductive seen :=
| SeenUnit | SeenInt (n : Z) | SeenFloat (x : f64) | SeenFloats (xs : list f64) | SeenSlice (l : list Z)
| SeenCounter (n : Z) | SeenGauge (n : Z) | SeenGaugeF (x : f64) | SeenSample (count : Z) (l : list Z)
| SeenPanic (msg : string) | SeenNothing.
Definition seen_counter (r : zret) : seen := match r with RNone => SeenUnit | RInt v => SeenInt v | RSnap v => SeenCounter v end.
Definition seen_gauge (r : zret) : seen := match r with RNone => SeenUnit | RInt v => SeenInt v | RSnap v => SeenGauge v end.
Definition seen_gaugef (r : fret) : seen := match r with FRNone => SeenUnit | FRVal v => SeenFloat v | FRSnap v => SeenGaugeF v end.
Definition seen_sample (r : res SampleConc.sret) : seen :=
  match r with
  | Panic m => SeenPanic m
  | Ok SampleConc.VUnit => SeenUnit
  | Ok (SampleConc.VInt n) => SeenInt n
  | Ok (SampleConc.VFloat x) => SeenFloat x
  | Ok (SampleConc.VFloats xs) => SeenFloats xs
  | Ok (SampleConc.VValues l) => SeenSlice l
  | Ok (SampleConc.VSnapshot c l) => SeenSample c l
  end.

(** ** Which method a call is *)
Definition counter_call (c : op) : option counter_op :=
  match c with OInc _ n => Some (CInc n) | ODec _ n => Some (CDec n) | OClear _ => Some CClear | OCount _ => Some CCount | OSnapshot _ => Some CSnapshot | _ => None end.
Definition gauge_call (c : op) : option gauge_op :=
  match c with OUpdate _ n => Some (GUpdate n) | OValue _ => Some GValue | OSnapshot _ => Some GSnapshot | _ => None end.
Definition gaugef_call (c : op) : option gaugef_op :=
  match c with OUpdateF _ x => Some (GFUpdate x) | OValue _ => Some GFValue | OSnapshot _ => Some GFSnapshot | _ => None end.
Definition stat_call (s : stat) : SampleConc.stat :=
  match s with
  | SMax => SampleConc.QMax | SMin => SampleConc.QMin | SSum => SampleConc.QSum
  | SMean => SampleConc.QMean | SStdDev => SampleConc.QStdDev | SVariance => SampleConc.QVariance
  end.
Definition sample_call (c : op) (o : orc) : option SampleConc.sop :=
  match c with
  | OUpdate _ n => Some (SampleConc.SUpdate n (o_now o) (o_draw o) (o_rand o))
  | OClear _ => Some (SampleConc.SClear (o_now o))
  | OCount _ => Some SampleConc.SCount
  | OSize _ => Some SampleConc.SSize
  | OValues _ => Some SampleConc.SValues
  | OSnapshot _ => Some SampleConc.SSnapshot
  | OStat _ s => Some (SampleConc.SStat (stat_call s))
  | OPercentile _ p => Some (SampleConc.SPercentile p)
  | OPercentiles _ ps => Some (SampleConc.SPercentiles ps)
  | _ => None
  end.

(** ** The struct at an address, and its methods *)
Inductive cell := CounterAt (n : Z) | GaugeAt (n : Z) | GaugeFAt (b : Z) | UniformAt (s : uniform) | ExpAt (s : expdecay) | NoMetric.
Definition cell_at (w : world) (l : nat) : cell :=
  match nth_error (heap w) l with
  | Some (OCounter n) => CounterAt n
  | Some (OGauge n) => GaugeAt n
  | Some (OGaugeF b) => GaugeFAt b
  | Some (OUniform c n a) => match nth_error (heap w) a with Some (OArr xs) => UniformAt (MkUniform c n xs) | _ => NoMetric end
  | Some (OExp x) => ExpAt x
  | _ => NoMetric
  end.
Definition cell_state (k : cell) : Type :=
  match k with
  | CounterAt _ | GaugeAt _ | GaugeFAt _ => Z
  | UniformAt _ => guarded uniform
  | ExpAt _ => guarded expdecay
  | NoMetric => unit
  end.
Definition cell_start (k : cell) : cell_state k :=
  match k with
  | CounterAt n | GaugeAt n | GaugeFAt n => n
  | UniformAt s => MkGuarded false s
  | ExpAt s => MkGuarded false s
  | NoMetric => tt
  end.
Fixpoint giving {S L A B} (f : A -> B) (c : code S L A) : code S unit B :=
  match c with
  | Ret a => Ret (f a)
  | Atom e u l k => Atom e u (fun s => map (fun _ => tt) (l s)) (fun s => giving f (k s))
  end.
(** a call of a method the struct does not have *)
Definition no_method {S} : code S unit seen := Atom always (fun s => s) silent (fun _ => Ret SeenNothing).

Section Exp.
Variable mexp : f64 -> f64.
Definition cell_body (k : cell) (co : op * orc) : code (cell_state k) unit seen :=
  match k with
  | CounterAt _ => match counter_call (fst co) with Some c => giving seen_counter (counter_body c) | None => no_method end
  | GaugeAt _ => match gauge_call (fst co) with Some c => giving seen_gauge (gauge_body c) | None => no_method end
  | GaugeFAt _ => match gaugef_call (fst co) with Some c => giving seen_gaugef (gaugef_body c) | None => no_method end
  | UniformAt _ =>
    critical (match sample_call (fst co) (snd co) with Some c => SampleConc.uniform_code c | None => Ret (Panic msg_nil) end)
      (fun r => match sample_call (fst co) (snd co) with Some _ => seen_sample r | None => SeenNothing end)
  | ExpAt _ =>
    critical (match sample_call (fst co) (snd co) with Some c => SampleConc.expdecay_code mexp c | None => Ret (Panic msg_nil) end)
      (fun r => match sample_call (fst co) (snd co) with Some c => seen_sample (SampleConc.expdecay_after c r) | None => SeenNothing end)
  | NoMetric => no_method
  end.
(** the structs in the memory of a process, with the mutexes free *)
Definition metrics (w : world) (l : nat) : object :=
  MkObject (cell_state (cell_at w l)) unit (op * orc) seen (cell_body (cell_at w l)) (cell_start (cell_at w l)).

(** ** The struct a call works on *)
Definition receiver (c : op) : option nat :=
  match c with
  | OInc x _ | ODec x _ | OClear x | OCount x | OValue x | OUpdate x _ | OUpdateF x _ | OSnapshot x | OStat x _
  | OPercentile x _ | OPercentiles x _ | OSize x | OValues x => Some x
  | _ => None
  end.
Definition home (w : world) (v : val) : option nat :=
  match v with
  | VCounter l | VGauge l | VGaugeF l | VUniform l | VExp l => Some l
  | VHist h => match nth_error (heap w) h with Some (OHist (VUniform l)) | Some (OHist (VExp l)) => Some l | _ => None end
  | _ => None
  end.
Definition target (st : state) (c : op) : option nat :=
  match receiver c with
  | Some x => match nth_error (snd st) x with Some v => home (fst st) v | None => None end
  | None => None
  end.
Definition locate (st : state) (co : op * orc) : any_op (metrics (fst st)) :=
  existT (fun l => o_op (metrics (fst st) l)) (match target st (fst co) with Some l => l | None => O end) co.
Definition locate_choice (st : state) (x : choice (op * orc)) : choice (any_op (metrics (fst st))) :=
  match x with Call t co => Call t (locate st co) | Run t => Run t end.
(** goroutines that make these calls in the state [st] *)
Definition process (st : state) (sched : list (choice (op * orc))) := objects_exec (metrics (fst st)) (map (locate_choice st) sched).
End Exp.
