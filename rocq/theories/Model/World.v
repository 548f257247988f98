(** The whole API as one sequential program state: a heap of objects, the set of
    meters the arbiter ticks, the UseNilMetrics flag, and the values the user
    holds.  A user program is a list of calls; each call refers to values that
    earlier calls returned, so references cannot be forged.

    Simplifications.  One goroutine (the concurrent behaviour of the parts is in
    CounterGauge.v, Ewma.v, Meter.v and RegistryConc.v), so locks are left out.
    All clock readings of one call are equal.  The functions given to
    functional gauges return whatever the oracle says and have no side effects;
    the functions given to health checks perform a list of verdicts on the check
    they are given, which may depend on the check's error at the time.  Callbacks of Each, and the function given to Timer.Time, are
    ordinary calls made after Each resp. between [OTimeBegin] and [OTimeEnd].
    Types of the user's own that implement the library's interfaces are not
    modelled.  int is int64. *)
From Coq Require Import ZArith List String Bool.
From Verif.Model Require Import GoInt GoFloat GoBase Stats Uniform ExpDecay Conc CounterGauge Ewma Meter.
Import ListNotations.
Open Scope string_scope.
Open Scope Z_scope.

(** ** Values *)

(** A Go interface value (or slice): its dynamic type and contents; [l] is a
    pointer. *)
Inductive val : Type :=
| VNil                                                    (* nil interface *)
| VCounter (l : nat) | VCounterSnap (n : Z) | VNilCounter             (* counter.go:85, 42, 66 *)
| VGauge (l : nat) | VGaugeSnap (n : Z) | VFuncGauge (f : nat) | VNilGauge       (* gauge.go:85, 58, 105, 72 *)
| VGaugeF (l : nat) | VGaugeFSnap (x : f64) | VFuncGaugeF (f : nat) | VNilGaugeF (* gauge_float64.go:90, 63, 110, 77 *)
| VHealth (l : nat) | VNilHealth                                      (* healthcheck.go:37, 21 *)
| VUniform (l : nat) | VExp (l : nat) | VSampleSnap (l : nat) | VNilSample       (* sample.go:400, 37, 300, 189 *)
| VHist (l : nat) | VHistSnap (l : nat) | VNilHist                    (* histogram.go:153, 49, 108 *)
| VEwma (l : nat) | VEwmaSnap (x : f64) | VNilEwma                    (* ewma.go:79, 42, 62 *)
| VMeter (l : nat) | VMeterSnap (l : nat) | VNilMeter                 (* meter.go:128, 65, 101 *)
| VTimer (l : nat) | VTimerSnap (l : nat) | VNilTimer                 (* timer.go:142, 253, 79 *)
| VReg (l : nat)                                                      (* registry.go:55 *)
| VPref (under : val) (prefix : string)   (* registry.go:247: a pointer to a struct nothing writes to *)
| VSlice (l : nat)                                                    (* []int64 *)
| VOther (n : Z).                         (* a value implementing none of the interfaces *)

(** The interface of the library a value implements.  The library's own types
    implement exactly one. *)
Inductive class := CCounter | CGauge | CGaugeF | CHealth | CSample | CHist | CEwma | CMeter | CTimer | CReg | CSlice | CNone.
Definition cls (v : val) : class :=
  match v with
  | VCounter _ | VCounterSnap _ | VNilCounter => CCounter
  | VGauge _ | VGaugeSnap _ | VFuncGauge _ | VNilGauge => CGauge
  | VGaugeF _ | VGaugeFSnap _ | VFuncGaugeF _ | VNilGaugeF => CGaugeF
  | VHealth _ | VNilHealth => CHealth
  | VUniform _ | VExp _ | VSampleSnap _ | VNilSample => CSample
  | VHist _ | VHistSnap _ | VNilHist => CHist
  | VEwma _ | VEwmaSnap _ | VNilEwma => CEwma
  | VMeter _ | VMeterSnap _ | VNilMeter => CMeter
  | VTimer _ | VTimerSnap _ | VNilTimer => CTimer
  | VReg _ | VPref _ _ => CReg
  | VSlice _ => CSlice
  | VNil | VOther _ => CNone
  end.

(** error values: DuplicateMetric(name) (registry.go:13-17) or the user's *)
Inductive err := EDup (name : string) | EUser (n : Z).

(** ** Objects *)
Inductive obj : Type :=
| OCounter (n : Z)
| OGauge (n : Z)
| OGaugeF (b : Z)                                   (* uint64 *)
| OHealth (e : option err) (f : nat)
| OUniform (count size : Z) (arr : nat)             (* the slice is the whole array [arr] *)
| OExp (x : expdecay)
| OArr (xs : list Z)                                (* backing array of a []int64 *)
| OSampleSnap (count : Z) (arr : nat)
| OHist (s : val)
| OHistSnap (s : nat)
| OEwma (e : ewma)
| OMeter (snap : nat) (a1 a5 a15 : val) (start : Z) (stopped : bool)
| OMeterSnap (count r1 r5 r15 mean : Z)
| OTimer (h m : val)
| OTimerSnap (h m : nat)
| OReg (entries : list (string * val)).

Record world := MkWorld {
  heap : list obj;            (* a pointer is an index *)
  alive : list nat;           (* arbiter.meters *)
  ticking : bool;             (* arbiter.started *)
  usenil : bool               (* UseNilMetrics, metrics.go:13 *)
}.

(** DefaultRegistry (registry.go:333), and the address of all zero-length arrays *)
Definition default_reg : nat := 0.
Definition zero_base : nat := 1.
Definition world_init : world := MkWorld [OReg []; OArr []] [] false false.

(** ** Oracles *)
Inductive hact := HHealthy | HUnhealthy (e : option err) | HPanic.
Record orc := MkOrc {
  o_now : Z;                  (* the clock, ns *)
  o_draw : Z;                 (* rand.Int63n *)
  o_rand : f64;               (* rand.Float64 *)
  o_fun : nat -> Z;           (* what functional gauges return *)
  o_funf : nat -> f64;
  o_health : nat -> option err -> list hact; (* what health check functions do, given the check's error *)
  o_order : list nat          (* map iteration order *)
}.

(** ** Computations: read the oracle, change the world, return or panic *)
Definition M (A : Type) : Type := orc -> world -> world * res A.
Definition ret {A} (a : A) : M A := fun _ w => (w, Ok a).
Definition bind {A B} (m : M A) (f : A -> M B) : M B := fun o w =>
  match m o w with
  | (w', Ok a) => f a o w'
  | (w', Panic msg) => (w', Panic msg)
  end.
Definition throw {A} (msg : string) : M A := fun _ w => (w, Panic msg).
Definition lift {A} (r : res A) : M A := fun _ w => (w, r).
Definition ask {A} (f : orc -> A) : M A := fun o w => (w, Ok (f o)).
Definition gets {A} (f : world -> A) : M A := fun _ w => (w, Ok (f w)).

Declare Scope world_scope.
Notation "x <- m ;; k" := (bind m (fun x => k)) (at level 61, m at next level, right associativity) : world_scope.
Notation "' p <- m ;; k" := (bind m (fun p => k)) (at level 61, p pattern, m at next level, right associativity) : world_scope.
Notation "m ;; k" := (bind m (fun _ => k)) (at level 61, right associativity) : world_scope.
Open Scope world_scope.

Definition msg_dangling : string := "model: dangling pointer".
Definition msg_snapshot : string := "called on a snapshot".
Definition msg_functional : string := "Update called on a functional gauge".
Definition msg_user : string := "panic in user function".

Definition set_heap (h : list obj) (w : world) : world := MkWorld h (alive w) (ticking w) (usenil w).
Definition load (l : nat) : M obj := fun _ w =>
  match nth_error (heap w) l with Some o => (w, Ok o) | None => (w, Panic msg_dangling) end.
Definition store (l : nat) (o : obj) : M unit := fun _ w => (set_heap (lset (heap w) l o) w, Ok tt).
Definition alloc (o : obj) : M nat := fun _ w => (set_heap (heap w ++ [o]) w, Ok (List.length (heap w))).

(** ** Counters and gauges: the code of CounterGauge.v without interference *)
Definition seq_state {L R} (c : code Z L R) (s : Z) : Z := match cseq c s with Some (s', _) => s' | None => s end.
Definition zret_val (r : option (Z * zret)) : Z :=
  match r with Some (_, RInt v) | Some (_, RSnap v) => v | _ => 0 end.
Definition fret_val (r : option (Z * fret)) : f64 :=
  match r with Some (_, FRVal v) | Some (_, FRSnap v) => v | _ => f_zero end.

Definition c_load (l : nat) : M Z := o <- load l;; match o with OCounter n => ret n | _ => throw msg_dangling end.
Definition c_do (l : nat) (op : counter_op) : M Z :=
  n <- c_load l;;
  let r := cseq (counter_body op) n in
  store l (OCounter (seq_state (counter_body op) n));; ret (zret_val r).
(** counter.go:42-112 *)
Definition counter_mut (v : val) (op : counter_op) : M unit :=
  match v with
  | VCounter l => c_do l op;; ret tt
  | VCounterSnap _ => throw msg_snapshot
  | VNilCounter => ret tt
  | _ => throw msg_dangling
  end.
Definition counter_count (v : val) : M Z :=
  match v with
  | VCounter l => c_do l CCount
  | VCounterSnap n => ret n
  | VNilCounter => ret 0
  | _ => throw msg_dangling
  end.
Definition counter_snapshot (v : val) : M val :=
  match v with
  | VCounter l => n <- c_do l CSnapshot;; ret (VCounterSnap n)
  | VCounterSnap _ => ret v
  | VNilCounter => ret VNilCounter
  | _ => throw msg_dangling
  end.

Definition g_do (l : nat) (op : gauge_op) : M Z :=
  o <- load l;;
  match o with
  | OGauge n => store l (OGauge (seq_state (gauge_body op) n));; ret (zret_val (cseq (gauge_body op) n))
  | _ => throw msg_dangling
  end.
(** gauge.go:58-120 *)
Definition gauge_update (v : val) (n : Z) : M unit :=
  match v with
  | VGauge l => g_do l (GUpdate n);; ret tt
  | VGaugeSnap _ => throw msg_snapshot
  | VFuncGauge _ => throw msg_functional
  | VNilGauge => ret tt
  | _ => throw msg_dangling
  end.
Definition gauge_value (v : val) : M Z :=
  match v with
  | VGauge l => g_do l GValue
  | VGaugeSnap n => ret n
  | VFuncGauge f => ask (fun o => o_fun o f)
  | VNilGauge => ret 0
  | _ => throw msg_dangling
  end.
Definition gauge_snapshot (v : val) : M val :=
  match v with
  | VGauge l => n <- g_do l GSnapshot;; ret (VGaugeSnap n)
  | VGaugeSnap _ => ret v
  | VFuncGauge f => n <- gauge_value v;; ret (VGaugeSnap n)
  | VNilGauge => ret VNilGauge
  | _ => throw msg_dangling
  end.

Definition gf_do (l : nat) (op : gaugef_op) : M f64 :=
  o <- load l;;
  match o with
  | OGaugeF b => store l (OGaugeF (seq_state (gaugef_body op) b));; ret (fret_val (cseq (gaugef_body op) b))
  | _ => throw msg_dangling
  end.
(** gauge_float64.go:63-125 *)
Definition gaugef_update (v : val) (x : f64) : M unit :=
  match v with
  | VGaugeF l => gf_do l (GFUpdate x);; ret tt
  | VGaugeFSnap _ => throw msg_snapshot
  | VFuncGaugeF _ => throw msg_functional
  | VNilGaugeF => ret tt
  | _ => throw msg_dangling
  end.
Definition gaugef_value (v : val) : M f64 :=
  match v with
  | VGaugeF l => gf_do l GFValue
  | VGaugeFSnap x => ret x
  | VFuncGaugeF f => ask (fun o => o_funf o f)
  | VNilGaugeF => ret f_zero
  | _ => throw msg_dangling
  end.
Definition gaugef_snapshot (v : val) : M val :=
  match v with
  | VGaugeF l => x <- gf_do l GFSnapshot;; ret (VGaugeFSnap x)
  | VGaugeFSnap _ => ret v
  | VFuncGaugeF _ => x <- gaugef_value v;; ret (VGaugeFSnap x)
  | VNilGaugeF => ret VNilGaugeF
  | _ => throw msg_dangling
  end.

(** ** Health checks (healthcheck.go:10-61) *)
Definition health_set (v : val) (e : option err) : M unit :=
  match v with
  | VHealth l => o <- load l;; match o with OHealth _ f => store l (OHealth e f) | _ => throw msg_dangling end
  | VNilHealth => ret tt
  | _ => throw msg_dangling
  end.
Definition health_error (v : val) : M (option err) :=
  match v with
  | VHealth l => o <- load l;; match o with OHealth e _ => ret e | _ => throw msg_dangling end
  | VNilHealth => ret None
  | _ => throw msg_dangling
  end.
Definition health_act (v : val) (a : hact) : M unit :=
  match a with
  | HHealthy => health_set v None
  | HUnhealthy e => health_set v e
  | HPanic => throw msg_user
  end.
Fixpoint health_acts (v : val) (l : list hact) : M unit :=
  match l with [] => ret tt | a :: l' => health_act v a;; health_acts v l' end.
(** Check calls the user's function on the check itself *)
Definition health_check (v : val) : M unit :=
  match v with
  | VHealth l =>
    o <- load l;;
    match o with
    | OHealth e f => acts <- ask (fun o => o_health o f e);; health_acts v acts
    | _ => throw msg_dangling
    end
  | VNilHealth => ret tt
  | _ => throw msg_dangling
  end.

(** ** Samples (sample.go) *)
Definition arr_get (a : nat) : M (list Z) := o <- load a;; match o with OArr xs => ret xs | _ => throw msg_dangling end.
Definition uni_get (l : nat) : M (Z * Z * nat) := o <- load l;; match o with OUniform c n a => ret (c, n, a) | _ => throw msg_dangling end.
Definition exp_get (l : nat) : M expdecay := o <- load l;; match o with OExp x => ret x | _ => throw msg_dangling end.
Definition ssnap_get (l : nat) : M (Z * nat) := o <- load l;; match o with OSampleSnap c a => ret (c, a) | _ => throw msg_dangling end.
(** make([]int64, len(xs)) and copy *)
Definition new_slice (xs : list Z) : M nat := alloc (OArr xs).

Section Exp.
Variable mexp : f64 -> f64.

(** sample.go:74-78, 195, 318, 429-433 *)
Definition sample_count (v : val) : M Z :=
  match v with
  | VUniform l => '(c, _, _) <- uni_get l;; ret c
  | VExp l => x <- exp_get l;; ret (exp_Count x)
  | VSampleSnap l => '(c, _) <- ssnap_get l;; ret c
  | VNilSample => ret 0
  | _ => throw msg_dangling
  end.

(** the slice the statistics are computed from: the live one, or a copy for
    ExpDecaySample *)
Definition sample_contents (v : val) : M (list Z) :=
  match v with
  | VUniform l => '(_, _, a) <- uni_get l;; arr_get a
  | VExp l => x <- exp_get l;; ret (exp_Values x)
  | VSampleSnap l => '(_, a) <- ssnap_get l;; arr_get a
  | VNilSample => ret []
  | _ => throw msg_dangling
  end.

(** sample.go:109-113, 215, 342, 474-478: Size *)
Definition sample_size (v : val) : M Z := xs <- sample_contents v;; ret (slen xs).

(** sample.go:146-155, 230, 360-364, 522-528: Values returns a new slice (the
    empty one for NilSample) *)
Definition sample_values (v : val) : M val :=
  match v with
  | VNilSample => ret (VSlice zero_base)
  | _ => xs <- sample_contents v;; a <- new_slice xs;; ret (VSlice a)
  end.

(** results of the statistics *)
Inductive rv :=
| RUnit | RVal (v : val) | RZ (n : Z) | RF (x : f64) | RFs (l : list f64) | RZs (l : list Z)
| RErr (e : option err) | RPairs (l : list (string * val)) | RTime (t : Z)
| RAll (l : list (string * list (string * gval)))
with gval := GZ (n : Z) | GF (x : f64) | GE (e : option err).

Inductive stat := SMax | SMin | SSum | SMean | SStdDev | SVariance.
(** the functions of Stats.v on a slice *)
Definition stat_of (s : stat) (xs : list Z) : rv :=
  match s with
  | SMax => RZ (SampleMax xs) | SMin => RZ (SampleMin xs) | SSum => RZ (SampleSum xs)
  | SMean => RF (SampleMean xs) | SStdDev => RF (SampleStdDev xs) | SVariance => RF (SampleVariance xs)
  end.
(** what the stubs return *)
Definition stat_zero (s : stat) : rv :=
  match s with SMax | SMin | SSum => RZ 0 | _ => RF f_zero end.
(** sample.go:82-95, 131-138, 158-160, 198-204, 221-224, 233, 321-327, 349-352, 367,
    437-456, 493-504, 531-535 *)
Definition sample_stat (s : stat) (v : val) : M rv :=
  match v with
  | VNilSample => ret (stat_zero s)
  | _ => xs <- sample_contents v;; ret (stat_of s xs)
  end.

(** sample.go:98-106, 207-212, 331-339, 459-471: ExpDecaySample sorts a copy,
    the others the slice itself *)
Definition sample_percentiles (ps : list f64) (v : val) : M (list f64) :=
  match v with
  | VUniform l =>
    '(_, _, a) <- uni_get l;; xs <- arr_get a;;
    let '(after, r) := SamplePercentiles xs ps in store a (OArr after);; lift r
  | VExp l => x <- exp_get l;; lift (snd (SamplePercentiles (exp_Values x) ps))
  | VSampleSnap l =>
    '(_, a) <- ssnap_get l;; xs <- arr_get a;;
    let '(after, r) := SamplePercentiles xs ps in store a (OArr after);; lift r
  | VNilSample => ret (map (fun _ => f_zero) ps)
  | _ => throw msg_dangling
  end.
Definition first_score (l : list f64) : M f64 := lift (sget l 0).

(** sample.go:63-70, 192, 313-315, 420-425: UniformSample.Clear makes a new slice *)
Definition sample_clear (v : val) : M unit :=
  match v with
  | VUniform l => '(_, n, _) <- uni_get l;; a <- new_slice [];; store l (OUniform 0 n a)
  | VExp l => x <- exp_get l;; now <- ask o_now;; store l (OExp (exp_clear x now))
  | VSampleSnap _ => throw msg_snapshot
  | VNilSample => ret tt
  | _ => throw msg_dangling
  end.

(** sample.go:141-143, 164-186, 227, 355-357, 507-519.  append writes to the
    sample's own array, which has room for reservoirSize elements. *)
Definition sample_update (x : Z) (v : val) : M unit :=
  match v with
  | VUniform l =>
    '(c, n, a) <- uni_get l;; xs <- arr_get a;; draw <- ask o_draw;;
    let '(u, r) := uni_update (MkUniform c n xs) x draw in
    store a (OArr (u_values u));; store l (OUniform (u_count u) (u_size u) a);; lift r
  | VExp l =>
    s <- exp_get l;; now <- ask o_now;; rand <- ask o_rand;;
    let '(s', r) := exp_update mexp s now x rand in
    store l (OExp s');; lift r
  | VSampleSnap _ => throw msg_snapshot
  | VNilSample => ret tt
  | _ => throw msg_dangling
  end.

(** sample.go:116-128, 218, 345, 481-490 *)
Definition sample_snapshot (v : val) : M val :=
  match v with
  | VUniform l => '(c, _, a) <- uni_get l;; xs <- arr_get a;; b <- new_slice xs;; s <- alloc (OSampleSnap c b);; ret (VSampleSnap s)
  | VExp l => x <- exp_get l;; b <- new_slice (exp_Values x);; s <- alloc (OSampleSnap (exp_Count x) b);; ret (VSampleSnap s)
  | VSampleSnap _ => ret v
  | VNilSample => ret VNilSample
  | _ => throw msg_dangling
  end.

(** ** Histograms (histogram.go) *)
(** the sample the methods delegate to (histogram.go:49-105, 153-202); the stub's
    methods return what NilSample's do (histogram.go:108-149) *)
Definition hist_sample (v : val) : M val :=
  match v with
  | VHist l => o <- load l;; match o with OHist s => ret s | _ => throw msg_dangling end
  | VHistSnap l => o <- load l;; match o with OHistSnap s => ret (VSampleSnap s) | _ => throw msg_dangling end
  | VNilHist => ret VNilSample
  | _ => throw msg_dangling
  end.
Definition hist_count (v : val) : M Z := s <- hist_sample v;; sample_count s.
Definition hist_stat (s : stat) (v : val) : M rv := sm <- hist_sample v;; sample_stat s sm.
Definition hist_percentiles (ps : list f64) (v : val) : M (list f64) := s <- hist_sample v;; sample_percentiles ps s.
(** histogram.go:54-56, 100-102: the snapshot's mutators panic *)
Definition hist_clear (v : val) : M unit :=
  match v with VHistSnap _ => throw msg_snapshot | _ => s <- hist_sample v;; sample_clear s end.
Definition hist_update (x : Z) (v : val) : M unit :=
  match v with VHistSnap _ => throw msg_snapshot | _ => s <- hist_sample v;; sample_update x s end.
(** histogram.go:90, 137, 188-190: the type assertion fails unless the sample's
    snapshot is a SampleSnapshot *)
Definition hist_snapshot (v : val) : M val :=
  match v with
  | VHist l =>
    s <- hist_sample v;; c <- sample_snapshot s;;
    match c with
    | VSampleSnap k => h <- alloc (OHistSnap k);; ret (VHistSnap h)
    | _ => throw msg_type
    end
  | VHistSnap _ => ret v
  | VNilHist => ret VNilHist
  | _ => throw msg_dangling
  end.

(** ** EWMAs: the code of Ewma.v without interference *)
Definition ewma_do (l : nat) (op : ewma_op) : M f64 :=
  o <- load l;;
  match o with
  | OEwma e =>
    match cseq (ewma_body op) e with
    | Some (e', r) => store l (OEwma e');; ret (match r with WVal v | WSnap v => v | WNone => f_zero end)
    | None => throw msg_dangling
    end
  | _ => throw msg_dangling
  end.
(** ewma.go:42-138 *)
Definition ewma_mut (op : ewma_op) (v : val) : M unit :=
  match v with
  | VEwma l => ewma_do l op;; ret tt
  | VEwmaSnap _ => throw msg_snapshot
  | VNilEwma => ret tt
  | _ => throw msg_dangling
  end.
Definition ewma_rate (v : val) : M f64 :=
  match v with
  | VEwma l => ewma_do l WRate
  | VEwmaSnap x => ret x
  | VNilEwma => ret f_zero
  | _ => throw msg_dangling
  end.
Definition ewma_snapshot (v : val) : M val :=
  match v with
  | VEwma l => x <- ewma_do l WSnapshot;; ret (VEwmaSnap x)
  | VEwmaSnap _ => ret v
  | VNilEwma => ret VNilEwma
  | _ => throw msg_dangling
  end.

(** ** Meters (meter.go) *)
Record mobj := MkM { mo_snap : nat; mo_a1 : val; mo_a5 : val; mo_a15 : val; mo_start : Z; mo_stopped : bool }.
Definition meter_get (l : nat) : M mobj :=
  o <- load l;; match o with OMeter s a b c t st => ret (MkM s a b c t st) | _ => throw msg_dangling end.
Record msnap := MkS { s_count : Z; s_r1 : Z; s_r5 : Z; s_r15 : Z; s_mean : Z }.
Definition msnap_get (l : nat) : M msnap :=
  o <- load l;; match o with OMeterSnap c a b d m => ret (MkS c a b d m) | _ => throw msg_dangling end.

(** meter.go:205-215 updateSnapshot *)
Definition update_snapshot (m : mobj) : M unit :=
  r1 <- ewma_rate (mo_a1 m);; r5 <- ewma_rate (mo_a5 m);; r15 <- ewma_rate (mo_a15 m);;
  s <- msnap_get (mo_snap m);; now <- ask o_now;;
  let mean := fdiv (f_of_int (s_count s)) (ExpDecay.seconds (time_sub now (mo_start m))) in
  store (mo_snap m) (OMeterSnap (s_count s) (float64bits r1) (float64bits r5) (float64bits r15) (float64bits mean)).

(** meter.go:74-76, 107, 160-171 Mark *)
Definition meter_mark (n : Z) (v : val) : M unit :=
  match v with
  | VMeter l =>
    m <- meter_get l;;
    if mo_stopped m then ret tt
    else
      s <- msnap_get (mo_snap m);;
      store (mo_snap m) (OMeterSnap (wrap64 (s_count s + n)) (s_r1 s) (s_r5 s) (s_r15 s) (s_mean s));;
      ewma_mut (WUpdate n) (mo_a1 m);; ewma_mut (WUpdate n) (mo_a5 m);; ewma_mut (WUpdate n) (mo_a15 m);;
      update_snapshot m
  | VMeterSnap _ => throw msg_snapshot
  | VNilMeter => ret tt
  | _ => throw msg_dangling
  end.

(** meter.go:71, 104, 155-157 Count and 80-92, 110-119, 174-191 the rates *)
Definition meter_view (v : val) : M msnap :=
  match v with
  | VMeter l => m <- meter_get l;; msnap_get (mo_snap m)
  | VMeterSnap l => msnap_get l
  | VNilMeter => ret (MkS 0 0 0 0 0)
  | _ => throw msg_dangling
  end.
Definition meter_count (v : val) : M Z := s <- meter_view v;; ret (s_count s).
Inductive ratek := RK1 | RK5 | RK15 | RKMean.
Definition rate_bits (k : ratek) (s : msnap) : Z :=
  match k with RK1 => s_r1 s | RK5 => s_r5 s | RK15 => s_r15 s | RKMean => s_mean s end.
Definition meter_rate (k : ratek) (v : val) : M f64 := s <- meter_view v;; ret (float64frombits (rate_bits k s)).

(** meter.go:95, 122, 194-203 Snapshot *)
Definition meter_snapshot (v : val) : M val :=
  match v with
  | VMeter l =>
    s <- meter_view v;; k <- alloc (OMeterSnap (s_count s) (s_r1 s) (s_r5 s) (s_r15 s) (s_mean s));; ret (VMeterSnap k)
  | VMeterSnap _ => ret v
  | VNilMeter => ret VNilMeter
  | _ => throw msg_dangling
  end.

Definition set_alive (f : list nat -> list nat) : M unit := fun _ w =>
  (MkWorld (heap w) (f (alive w)) (ticking w) (usenil w), Ok tt).
(** meter.go:98, 125, 146-152 Stop *)
Definition meter_stop (v : val) : M unit :=
  match v with
  | VMeter l =>
    m <- meter_get l;;
    if mo_stopped m then ret tt
    else
      store l (OMeter (mo_snap m) (mo_a1 m) (mo_a5 m) (mo_a15 m) (mo_start m) true);;
      set_alive (filter (fun k => negb (Nat.eqb k l)))
  | VMeterSnap _ | VNilMeter => ret tt
  | _ => throw msg_dangling
  end.

(** meter.go:217-222, 245-251: one round of ticks *)
Definition meter_tick (l : nat) : M unit :=
  m <- meter_get l;;
  ewma_mut WTick (mo_a1 m);; ewma_mut WTick (mo_a5 m);; ewma_mut WTick (mo_a15 m);;
  update_snapshot m.
Fixpoint tick_all (ls : list nat) : M unit :=
  match ls with [] => ret tt | l :: r => meter_tick l;; tick_all r end.
Definition tick_meters : M unit :=
  ls <- gets alive;; order <- ask o_order;; tick_all (visit order ls).

(** ** Timers (timer.go) *)
Definition timer_get (v : val) : M (val * val) :=
  match v with
  | VTimer l => o <- load l;; match o with OTimer h m => ret (h, m) | _ => throw msg_dangling end
  | VTimerSnap l => o <- load l;; match o with OTimerSnap h m => ret (VHistSnap h, VMeterSnap m) | _ => throw msg_dangling end
  | VNilTimer => ret (VNilHist, VNilMeter)
  | _ => throw msg_dangling
  end.
(** the readings delegate (timer.go:149-197, 210-212, 220-222, 248-250, 260-310, 329); the
    stub's return what the other stubs' do (timer.go:85-138) *)
Definition timer_count (v : val) : M Z := '(h, _) <- timer_get v;; hist_count h.
Definition timer_stat (s : stat) (v : val) : M rv := '(h, _) <- timer_get v;; hist_stat s h.
Definition timer_percentiles (ps : list f64) (v : val) : M (list f64) := '(h, _) <- timer_get v;; hist_percentiles ps h.
Definition timer_rate (k : ratek) (v : val) : M f64 := '(_, m) <- timer_get v;; meter_rate k m.
(** timer.go:200-207, 300, 117 Snapshot, with its two type assertions *)
Definition timer_snapshot (v : val) : M val :=
  match v with
  | VTimer l =>
    '(h, m) <- timer_get v;;
    hs <- hist_snapshot h;;
    match hs with
    | VHistSnap hl =>
      msn <- meter_snapshot m;;
      match msn with
      | VMeterSnap ml => k <- alloc (OTimerSnap hl ml);; ret (VTimerSnap k)
      | _ => throw msg_type
      end
    | _ => throw msg_type
    end
  | VTimerSnap _ => ret v
  | VNilTimer => ret VNilTimer
  | _ => throw msg_dangling
  end.
(** timer.go:215-217, 307, 123 Stop *)
Definition timer_stop (v : val) : M unit :=
  match v with
  | VTimer l => '(_, m) <- timer_get v;; meter_stop m
  | VTimerSnap _ | VNilTimer => ret tt
  | _ => throw msg_dangling
  end.
(** timer.go:232-237, 318-320, 132 Update *)
Definition timer_update (d : Z) (v : val) : M unit :=
  match v with
  | VTimer l => '(h, m) <- timer_get v;; hist_update d h;; meter_mark 1 m
  | VTimerSnap _ => throw msg_snapshot
  | VNilTimer => ret tt
  | _ => throw msg_dangling
  end.
(** timer.go:240-245, 323-325, 135 UpdateSince: time.Since(ts) *)
Definition timer_update_since (ts : Z) (v : val) : M unit :=
  match v with
  | VTimer l => now <- ask o_now;; '(h, m) <- timer_get v;; hist_update (time_sub now ts) h;; meter_mark 1 m
  | VTimerSnap _ => throw msg_snapshot
  | VNilTimer => ret tt
  | _ => throw msg_dangling
  end.
(** timer.go:225-229, 313-315 Time(f): before f (returns the start time: f runs next),
    and after it.  NilTimer.Time (timer.go:129) does not call f. *)
Definition timer_begin (v : val) : M rv :=
  match v with
  | VTimer _ => now <- ask o_now;; ret (RTime now)
  | VTimerSnap _ => throw msg_snapshot
  | VNilTimer => ret RUnit
  | _ => throw msg_dangling
  end.
Definition timer_end (ts : Z) (v : val) : M unit := now <- ask o_now;; timer_update (time_sub now ts) v.

(** ** Constructors *)
Inductive ctor :=
| KCounter | KGauge | KFuncGauge (f : nat) | KGaugeF | KFuncGaugeF (f : nat)
| KHealth (f : nat) | KUniform (size : Z) | KExp (size : Z) (alpha : f64)
| KHist (s : val) | KEwma (alpha : f64) | KMeter | KTimer | KCustomTimer (h m : val).

(** if UseNilMetrics { return stub } *)
Definition unless_nil (stub : val) (m : M val) : M val := b <- gets usenil;; if (b : bool) then ret stub else m.
Definition via {A} (f : nat -> val) (m : M nat) (k : val -> M A) : M A := l <- m;; k (f l).

(** ewma.go:19-24 *)
Definition new_ewma (alpha : f64) : M val :=
  unless_nil VNilEwma (l <- alloc (OEwma (NewEWMA alpha));; ret (VEwma l)).
(** sample.go:48-60; make panics for a negative capacity *)
Definition new_exp (size : Z) (alpha : f64) : M val :=
  unless_nil VNilSample
    (if size <? 0 then throw msg_makeslice
     else now <- ask o_now;; l <- alloc (OExp (NewExpDecaySample (Z.to_nat size) alpha now));; ret (VExp l)).
(** sample.go:409-417 *)
Definition new_uniform (size : Z) : M val :=
  unless_nil VNilSample
    (if size <? 0 then throw msg_makeslice
     else a <- new_slice [];; l <- alloc (OUniform 0 size a);; ret (VUniform l)).
(** histogram.go:30-35 *)
Definition new_hist (s : val) : M val := unless_nil VNilHist (l <- alloc (OHist s);; ret (VHist l)).
(** meter.go:36-49, 135-143 *)
Definition new_meter : M val :=
  unless_nil VNilMeter
    (s <- alloc (OMeterSnap 0 0 0 0 0);;
     a1 <- new_ewma (ewma_alpha mexp 1);; a5 <- new_ewma (ewma_alpha mexp 5);; a15 <- new_ewma (ewma_alpha mexp 15);;
     now <- ask o_now;;
     l <- alloc (OMeter s a1 a5 a15 now false);;
     (fun _ w => (MkWorld (heap w) (alive w ++ [l]) true (usenil w), Ok tt));;
     ret (VMeter l)).
(** 0.015 as a float64 *)
Definition f_0015 : f64 := fdiv (f_of_int 15) (f_of_int 1000).
(** timer.go:68-76 *)
Definition new_timer : M val :=
  unless_nil VNilTimer
    (s <- new_exp 1028 f_0015;; h <- new_hist s;; m <- new_meter;; l <- alloc (OTimer h m);; ret (VTimer l)).

Definition construct (k : ctor) : M val :=
  match k with
  | KCounter => unless_nil VNilCounter (l <- alloc (OCounter counter_init);; ret (VCounter l))      (* counter.go:24-29 *)
  | KGauge => unless_nil VNilGauge (l <- alloc (OGauge gauge_init);; ret (VGauge l))                (* gauge.go:22-27 *)
  | KFuncGauge f => unless_nil VNilGauge (ret (VFuncGauge f))                                       (* gauge.go:40-45 *)
  | KGaugeF => unless_nil VNilGaugeF (l <- alloc (OGaugeF gaugef_init);; ret (VGaugeF l))           (* gauge_float64.go:25-32 *)
  | KFuncGaugeF f => unless_nil VNilGaugeF (ret (VFuncGaugeF f))                                    (* gauge_float64.go:45-50 *)
  | KHealth f => unless_nil VNilHealth (l <- alloc (OHealth None f);; ret (VHealth l))              (* healthcheck.go:13-18 *)
  | KUniform n => new_uniform n
  | KExp n alpha => new_exp n alpha
  | KHist s => new_hist s
  | KEwma alpha => new_ewma alpha
  | KMeter => new_meter
  | KTimer => new_timer
  | KCustomTimer h m => unless_nil VNilTimer (l <- alloc (OTimer h m);; ret (VTimer l))             (* timer.go:43-51 *)
  end.

(** ** Registries (registry.go) *)
Definition entries_get (l : nat) : M (list (string * val)) :=
  o <- load l;; match o with OReg es => ret es | _ => throw msg_dangling end.
Fixpoint lookup (name : string) (es : list (string * val)) : option val :=
  match es with
  | [] => None
  | (k, v) :: r => if String.eqb k name then Some v else lookup name r
  end.
Definition remove (name : string) (es : list (string * val)) : list (string * val) :=
  filter (fun kv => negb (String.eqb (fst kv) name)) es.

(** registry.go:210: case Counter, Gauge, GaugeFloat64, Healthcheck, Histogram, Meter, Timer *)
Definition is_metric (v : val) : bool :=
  match cls v with CCounter | CGauge | CGaugeF | CHealth | CHist | CMeter | CTimer => true | _ => false end.

(** registry.go:205-214 register *)
Definition std_register (l : nat) (name : string) (v : val) : M (option err) :=
  es <- entries_get l;;
  match lookup name es with
  | Some _ => ret (Some (EDup name))
  | None => (if is_metric v then store l (OReg (es ++ [(name, v)])) else ret tt);; ret None
  end.
(** registry.go:75-79 Get: nil when there is none *)
Definition std_get (l : nat) (name : string) : M val :=
  es <- entries_get l;; ret (match lookup name es with Some v => v | None => VNil end).
(** registry.go:85-105 GetOrRegister; [mk] is the value, or the call of the
    function that makes it *)
Definition std_get_or_register (l : nat) (name : string) (mk : M val) : M val :=
  es <- entries_get l;;
  match lookup name es with
  | Some v => ret v
  | None => v <- mk;; std_register l name v;; ret v
  end.
(** registry.go:234-245 stop, Stoppable *)
Definition stop_value (v : val) : M unit :=
  match cls v with
  | CMeter => meter_stop v
  | CTimer => timer_stop v
  | _ => ret tt
  end.
(** registry.go:188-193 Unregister *)
Definition std_unregister (l : nat) (name : string) : M unit :=
  es <- entries_get l;;
  match lookup name es with Some v => stop_value v | None => ret tt end;;
  es' <- entries_get l;; store l (OReg (remove name es')).
(** a map iteration visits the entries in some order *)
Definition in_order {A} (order : list nat) (l : list A) : list A :=
  flat_map (fun i => match nth_error l i with Some a => [a] | None => [] end) (visit order (seq 0 (List.length l))).
(** registry.go:196-203 UnregisterAll *)
Fixpoint unregister_each (l : nat) (names : list string) : M unit :=
  match names with [] => ret tt | n :: r => std_unregister l n;; unregister_each l r end.
Definition std_unregister_all (l : nat) : M unit :=
  es <- entries_get l;; order <- ask o_order;; unregister_each l (map fst (in_order order es)).
(** registry.go:221-232 registered *)
Definition std_registered (l : nat) : M (list (string * val)) :=
  es <- entries_get l;; order <- ask o_order;; ret (in_order order es).
(** registry.go:116-124 RunHealthchecks *)
Fixpoint check_each (vs : list val) : M unit :=
  match vs with
  | [] => ret tt
  | v :: r => match cls v with CHealth => health_check v | _ => ret tt end;; check_each r
  end.
Definition std_run_healthchecks (l : nat) : M unit := es <- std_registered l;; check_each (map snd es).

(** the percentiles of registry.go:146, 166 *)
Definition f_half : f64 := fdiv (f_of_int 1) (f_of_int 2).
Definition ps5 : list f64 :=
  [f_half; fdiv (f_of_int 3) (f_of_int 4); fdiv (f_of_int 95) (f_of_int 100); fdiv (f_of_int 99) (f_of_int 100); fdiv (f_of_int 999) (f_of_int 1000)].
Definition g_of (r : rv) : gval := match r with RZ n => GZ n | RF x => GF x | _ => GE None end.
(** registry.go:144-156, 164-176: the fields shared by histograms and timers *)
Definition dist_fields (count : Z) (mn mx me sd : rv) (ps : list f64) : list (string * gval) :=
  [("count", GZ count); ("min", g_of mn); ("max", g_of mx); ("mean", g_of me); ("stddev", g_of sd);
   ("median", GF (nth 0 ps f_zero)); ("75%", GF (nth 1 ps f_zero)); ("95%", GF (nth 2 ps f_zero));
   ("99%", GF (nth 3 ps f_zero)); ("99.9%", GF (nth 4 ps f_zero))].
Definition rate_fields (r1 r5 r15 mean : f64) : list (string * gval) :=
  [("1m.rate", GF r1); ("5m.rate", GF r5); ("15m.rate", GF r15); ("mean.rate", GF mean)].
(** registry.go:129-182: the fields of one metric.  (ps[0..4] exist: Percentiles
    returns one score per argument.) *)
Definition get_all_one (v : val) : M (list (string * gval)) :=
  match cls v with
  | CCounter => n <- counter_count v;; ret [("count", GZ n)]
  | CGauge => n <- gauge_value v;; ret [("value", GZ n)]
  | CGaugeF => x <- gaugef_value v;; ret [("value", GF x)]
  | CHealth => health_check v;; e <- health_error v;; ret [("error", GE e)]
  | CHist =>
    h <- hist_snapshot v;; ps <- hist_percentiles ps5 h;;
    n <- hist_count h;; mn <- hist_stat SMin h;; mx <- hist_stat SMax h;; me <- hist_stat SMean h;; sd <- hist_stat SStdDev h;;
    ret (dist_fields n mn mx me sd ps)
  | CMeter =>
    m <- meter_snapshot v;;
    n <- meter_count m;; r1 <- meter_rate RK1 m;; r5 <- meter_rate RK5 m;; r15 <- meter_rate RK15 m;; rm <- meter_rate RKMean m;;
    ret (("count", GZ n) :: rate_fields r1 r5 r15 rm)
  | CTimer =>
    t <- timer_snapshot v;; ps <- timer_percentiles ps5 t;;
    n <- timer_count t;; mn <- timer_stat SMin t;; mx <- timer_stat SMax t;; me <- timer_stat SMean t;; sd <- timer_stat SStdDev t;;
    r1 <- timer_rate RK1 t;; r5 <- timer_rate RK5 t;; r15 <- timer_rate RK15 t;; rm <- timer_rate RKMean t;;
    ret (dist_fields n mn mx me sd ps ++ rate_fields r1 r5 r15 rm)%list
  | _ => ret []
  end.
Fixpoint get_all_each (es : list (string * val)) : M (list (string * list (string * gval))) :=
  match es with
  | [] => ret []
  | (name, v) :: r => f <- get_all_one v;; fs <- get_all_each r;; ret ((name, f) :: fs)
  end.
Definition std_get_all (l : nat) : M (list (string * list (string * gval))) :=
  es <- std_registered l;; get_all_each es.

(** ** The Registry interface: a StandardRegistry or a PrefixedRegistry over one
    (registry.go:247-331) *)
Fixpoint reg_get (r : val) (name : string) : M val :=
  match r with
  | VReg l => std_get l name
  | VPref u p => reg_get u (p ++ name)
  | _ => throw msg_nil
  end.
Fixpoint reg_get_or_register (r : val) (name : string) (mk : M val) : M val :=
  match r with
  | VReg l => std_get_or_register l name mk
  | VPref u p => reg_get_or_register u (p ++ name) mk
  | _ => throw msg_nil
  end.
Fixpoint reg_register (r : val) (name : string) (v : val) : M (option err) :=
  match r with
  | VReg l => std_register l name v
  | VPref u p => reg_register u (p ++ name) v
  | _ => throw msg_nil
  end.
Fixpoint reg_unregister (r : val) (name : string) : M unit :=
  match r with
  | VReg l => std_unregister l name
  | VPref u p => reg_unregister u (p ++ name)
  | _ => throw msg_nil
  end.
Fixpoint reg_unregister_all (r : val) : M unit :=
  match r with VReg l => std_unregister_all l | VPref u _ => reg_unregister_all u | _ => throw msg_nil end.
Fixpoint reg_run_healthchecks (r : val) : M unit :=
  match r with VReg l => std_run_healthchecks l | VPref u _ => reg_run_healthchecks u | _ => throw msg_nil end.
Fixpoint reg_get_all (r : val) : M (list (string * list (string * gval))) :=
  match r with VReg l => std_get_all l | VPref u _ => reg_get_all u | _ => throw msg_nil end.
(** registry.go:282-290 findPrefix *)
Fixpoint find_prefix (r : val) (prefix : string) : option nat * string :=
  match r with
  | VPref u p => find_prefix u (p ++ prefix)
  | VReg l => (Some l, prefix)
  | _ => (None, "")
  end.
(** registry.go:66-72, 267-280 Each: the (name, value) pairs the callback is
    called with, in order *)
Definition reg_each (r : val) : M (list (string * val)) :=
  match r with
  | VReg l => std_registered l
  | _ =>
    match find_prefix r "" with
    | (Some l, prefix) => es <- std_registered l;; ret (filter (fun kv => String.prefix prefix (fst kv)) es)
    | (None, _) => throw msg_nil
    end
  end.

(** ** Calls *)
Inductive regk := GCounter | GGauge | GGaugeF | GHist (s : nat) | GMeter | GTimer.   (* GetOrRegisterX *)
Inductive newk :=                                                                  (* constructors; indices are arguments *)
| NCounter | NGauge | NFuncGauge (f : nat) | NGaugeF | NFuncGaugeF (f : nat) | NHealth (f : nat)
| NUniform (size : Z) | NExp (size : Z) (alpha : f64) | NHist (s : nat) | NEwma (alpha : f64)
| NMeter | NTimer | NCustomTimer (h m : nat).

Inductive op :=
| OSetNil (b : bool)                                     (* UseNilMetrics = b *)
| ONew (k : newk)
| ONewSampleSnapshot (count : Z) (slice : nat)           (* sample.go:305-310 *)
| ONewRegistry | ONewPrefixed (prefix : string) | ONewPrefixedChild (r : nat) (prefix : string)  (* registry.go:61-63, 252-264 *)
| OMakeSlice (xs : list Z) | OWriteSlice (x : nat) (i : Z) (n : Z) | OReadSlice (x : nat)        (* the user's own code *)
| OForeign (n : Z)                                       (* a value of the user's own type *)
| ORound                                                 (* the arbiter's ticker fires *)
| OInc (x : nat) (n : Z) | ODec (x : nat) (n : Z) | OClear (x : nat) | OCount (x : nat)
| OValue (x : nat) | OUpdate (x : nat) (n : Z) | OUpdateF (x : nat) (v : f64)
| OSnapshot (x : nat) | OStat (x : nat) (s : stat) | OPercentile (x : nat) (p : f64) | OPercentiles (x : nat) (ps : list f64)
| OSize (x : nat) | OValues (x : nat) | OSample (x : nat)
| OTick (x : nat) | ORate (x : nat)
| OMark (x : nat) (n : Z) | OMRate (x : nat) (k : ratek) | OStop (x : nat)
| OTimeBegin (x : nat) | OTimeEnd (x : nat) (ts : Z) | OUpdateSince (x : nat) (ts : Z)
| OCheck (x : nat) | OError (x : nat) | OHealthy (x : nat) | OUnhealthy (x : nat) (e : option err)
(* registry methods; [None] is a nil Registry argument, for which the helper
   functions use DefaultRegistry *)
| OGet (r : nat) (name : string) | OGetOrRegister (r : nat) (name : string) (x : nat)
| OGetOrRegisterFn (r : nat) (name : string) (k : newk)
| ORegister (r : nat) (name : string) (x : nat) | OMustRegister (name : string) (x : nat)
| OUnregister (r : nat) (name : string) | OUnregisterAll (r : nat)
| OEach (r : nat) | OGetAll (r : nat) | ORunHealthchecks (r : nat)
| ONewRegistered (k : newk) (name : string) (r : option nat)
| OGetOrRegisterX (k : regk) (name : string) (r : option nat).

(** the values a program holds *)
Definition env := list val.

(** arguments of constructors must have the right interface type *)
Definition arg (e : env) (c : class) (x : nat) : option val :=
  match nth_error e x with
  | Some v => match c, cls v with
              | CSample, CSample | CHist, CHist | CMeter, CMeter | CReg, CReg | CSlice, CSlice => Some v
              | _, _ => None
              end
  | None => None
  end.
Definition obind {A B} (x : option A) (f : A -> option B) : option B := match x with Some a => f a | None => None end.
Definition ctor_of (e : env) (k : newk) : option ctor :=
  match k with
  | NCounter => Some KCounter | NGauge => Some KGauge | NFuncGauge f => Some (KFuncGauge f)
  | NGaugeF => Some KGaugeF | NFuncGaugeF f => Some (KFuncGaugeF f) | NHealth f => Some (KHealth f)
  | NUniform n => Some (KUniform n) | NExp n a => Some (KExp n a)
  | NHist s => obind (arg e CSample s) (fun v => Some (KHist v))
  | NEwma a => Some (KEwma a) | NMeter => Some KMeter | NTimer => Some KTimer
  | NCustomTimer h m => obind (arg e CHist h) (fun hv => obind (arg e CMeter m) (fun mv => Some (KCustomTimer hv mv)))
  end.
Definition reg_arg (e : env) (r : option nat) : option val :=
  match r with None => Some (VReg default_reg) | Some x => arg e CReg x end.
(** NewRegisteredX exists for these (counter.go:32, gauge.go:30 and 48, gauge_float64.go:35
    and 53, histogram.go:39, meter.go:55, timer.go:56) *)
Definition has_new_registered (k : newk) : bool :=
  match k with
  | NCounter | NGauge | NFuncGauge _ | NGaugeF | NFuncGaugeF _ | NHist _ | NMeter | NTimer => true
  | _ => false
  end.
Definition regk_new (k : regk) : newk :=
  match k with GCounter => NCounter | GGauge => NGauge | GGaugeF => NGaugeF | GHist s => NHist s | GMeter => NMeter | GTimer => NTimer end.
Definition regk_class (k : regk) : class :=
  match k with GCounter => CCounter | GGauge => CGauge | GGaugeF => CGaugeF | GHist _ => CHist | GMeter => CMeter | GTimer => CTimer end.
Definition class_eqb (a b : class) : bool :=
  match a, b with
  | CCounter, CCounter | CGauge, CGauge | CGaugeF, CGaugeF | CHealth, CHealth | CSample, CSample | CHist, CHist
  | CEwma, CEwma | CMeter, CMeter | CTimer, CTimer | CReg, CReg | CSlice, CSlice | CNone, CNone => true
  | _, _ => false
  end.
(** x.(I) *)
Definition assert_class (c : class) (v : val) : M val := if class_eqb (cls v) c then ret v else throw msg_type.

Definition unit_rv (m : M unit) : M rv := m;; ret RUnit.
Definition z_rv (m : M Z) : M rv := n <- m;; ret (RZ n).
Definition f_rv (m : M f64) : M rv := x <- m;; ret (RF x).
Definition v_rv (m : M val) : M rv := v <- m;; ret (RVal v).

(** Clear, Count, ... by the interface of the receiver *)
Definition m_clear (v : val) : option (M rv) :=
  match cls v with
  | CCounter => Some (unit_rv (counter_mut v CClear))
  | CSample => Some (unit_rv (sample_clear v))
  | CHist => Some (unit_rv (hist_clear v))
  | _ => None
  end.
Definition m_count (v : val) : option (M rv) :=
  match cls v with
  | CCounter => Some (z_rv (counter_count v))
  | CSample => Some (z_rv (sample_count v))
  | CHist => Some (z_rv (hist_count v))
  | CMeter => Some (z_rv (meter_count v))
  | CTimer => Some (z_rv (timer_count v))
  | _ => None
  end.
Definition m_value (v : val) : option (M rv) :=
  match cls v with
  | CGauge => Some (z_rv (gauge_value v))
  | CGaugeF => Some (f_rv (gaugef_value v))
  | _ => None
  end.
Definition m_update (n : Z) (v : val) : option (M rv) :=
  match cls v with
  | CGauge => Some (unit_rv (gauge_update v n))
  | CSample => Some (unit_rv (sample_update n v))
  | CHist => Some (unit_rv (hist_update n v))
  | CEwma => Some (unit_rv (ewma_mut (WUpdate n) v))
  | CTimer => Some (unit_rv (timer_update n v))
  | _ => None
  end.
Definition m_snapshot (v : val) : option (M rv) :=
  match cls v with
  | CCounter => Some (v_rv (counter_snapshot v))
  | CGauge => Some (v_rv (gauge_snapshot v))
  | CGaugeF => Some (v_rv (gaugef_snapshot v))
  | CSample => Some (v_rv (sample_snapshot v))
  | CHist => Some (v_rv (hist_snapshot v))
  | CEwma => Some (v_rv (ewma_snapshot v))
  | CMeter => Some (v_rv (meter_snapshot v))
  | CTimer => Some (v_rv (timer_snapshot v))
  | _ => None
  end.
Definition m_stat (s : stat) (v : val) : option (M rv) :=
  match cls v with
  | CSample => Some (sample_stat s v)
  | CHist => Some (hist_stat s v)
  | CTimer => Some (timer_stat s v)
  | _ => None
  end.
Definition m_percentiles (ps : list f64) (v : val) : option (M (list f64)) :=
  match cls v with
  | CSample => Some (sample_percentiles ps v)
  | CHist => Some (hist_percentiles ps v)
  | CTimer => Some (timer_percentiles ps v)
  | _ => None
  end.
Definition only (c : class) (v : val) (m : M rv) : option (M rv) := if class_eqb (cls v) c then Some m else None.

(** the user's own accesses to a slice *)
Definition slice_write (v : val) (i n : Z) : M unit :=
  match v with
  | VSlice a => xs <- arr_get a;; ys <- lift (sset xs i n);; store a (OArr ys)
  | _ => throw msg_dangling
  end.
Definition slice_read (v : val) : M rv :=
  match v with VSlice a => xs <- arr_get a;; ret (RZs xs) | _ => throw msg_dangling end.

(** counter.go:32-39 and the like *)
Definition new_registered (k : ctor) (name : string) (r : val) : M val :=
  c <- construct k;; reg_register r name c;; ret c.
(** counter.go:16-21 and the like; GetOrRegisterGaugeFloat64
    (gauge_float64.go:17-22) constructs the gauge first *)
Definition get_or_register_x (k : regk) (c : ctor) (name : string) (r : val) : M val :=
  v <- (match k with
        | GGaugeF => g <- construct c;; reg_get_or_register r name (ret g)
        | _ => reg_get_or_register r name (construct c)
        end);;
  assert_class (regk_class k) v.

(** the meaning of a call; [None]: not a well-typed call *)
Definition call (e : env) (c : op) : option (M rv) :=
  let recv (x : nat) (f : val -> option (M rv)) := obind (nth_error e x) f in
  match c with
  | OSetNil b => Some (fun _ w => (MkWorld (heap w) (alive w) (ticking w) b, Ok RUnit))
  | ONew k => obind (ctor_of e k) (fun k => Some (v_rv (construct k)))
  | ONewSampleSnapshot n x =>
    obind (arg e CSlice x) (fun v =>
      match v with VSlice a => Some (v_rv (s <- alloc (OSampleSnap n a);; ret (VSampleSnap s))) | _ => None end)
  | ONewRegistry => Some (v_rv (l <- alloc (OReg []);; ret (VReg l)))
  | ONewPrefixed p => Some (v_rv (l <- alloc (OReg []);; ret (VPref (VReg l) p)))
  | ONewPrefixedChild r p => obind (arg e CReg r) (fun v => Some (v_rv (ret (VPref v p))))
  | OMakeSlice xs => Some (v_rv (a <- new_slice xs;; ret (VSlice a)))
  | OWriteSlice x i n => obind (arg e CSlice x) (fun v => Some (unit_rv (slice_write v i n)))
  | OReadSlice x => obind (arg e CSlice x) (fun v => Some (slice_read v))
  | OForeign n => Some (ret (RVal (VOther n)))
  | ORound => Some (unit_rv tick_meters)
  | OInc x n => recv x (fun v => only CCounter v (unit_rv (counter_mut v (CInc n))))
  | ODec x n => recv x (fun v => only CCounter v (unit_rv (counter_mut v (CDec n))))
  | OClear x => recv x m_clear
  | OCount x => recv x m_count
  | OValue x => recv x m_value
  | OUpdate x n => recv x (m_update n)
  | OUpdateF x f => recv x (fun v => only CGaugeF v (unit_rv (gaugef_update v f)))
  | OSnapshot x => recv x m_snapshot
  | OStat x s => recv x (m_stat s)
  | OPercentile x p => recv x (fun v => obind (m_percentiles [p] v) (fun m => Some (f_rv (bind m first_score))))
  | OPercentiles x ps => recv x (fun v => obind (m_percentiles ps v) (fun m => Some (l <- m;; ret (RFs l))))
  | OSize x => recv x (fun v => only CSample v (z_rv (sample_size v)))
  | OValues x => recv x (fun v => only CSample v (v_rv (sample_values v)))
  | OSample x => recv x (fun v => only CHist v (v_rv (hist_sample v)))
  | OTick x => recv x (fun v => only CEwma v (unit_rv (ewma_mut WTick v)))
  | ORate x => recv x (fun v => only CEwma v (f_rv (ewma_rate v)))
  | OMark x n => recv x (fun v => only CMeter v (unit_rv (meter_mark n v)))
  | OMRate x k => recv x (fun v =>
      match cls v with CMeter => Some (f_rv (meter_rate k v)) | CTimer => Some (f_rv (timer_rate k v)) | _ => None end)
  | OStop x => recv x (fun v =>
      match cls v with CMeter => Some (unit_rv (meter_stop v)) | CTimer => Some (unit_rv (timer_stop v)) | _ => None end)
  | OTimeBegin x => recv x (fun v => only CTimer v (timer_begin v))
  | OTimeEnd x ts => recv x (fun v => only CTimer v (unit_rv (timer_end ts v)))
  | OUpdateSince x ts => recv x (fun v => only CTimer v (unit_rv (timer_update_since ts v)))
  | OCheck x => recv x (fun v => only CHealth v (unit_rv (health_check v)))
  | OError x => recv x (fun v => only CHealth v (r <- health_error v;; ret (RErr r)))
  | OHealthy x => recv x (fun v => only CHealth v (unit_rv (health_set v None)))
  | OUnhealthy x er => recv x (fun v => only CHealth v (unit_rv (health_set v er)))
  | OGet r name => recv r (fun v => only CReg v (v_rv (reg_get v name)))
  | OGetOrRegister r name x => recv r (fun v => obind (nth_error e x) (fun i => only CReg v (v_rv (reg_get_or_register v name (ret i)))))
  | OGetOrRegisterFn r name k => recv r (fun v => obind (ctor_of e k) (fun c => only CReg v (v_rv (reg_get_or_register v name (construct c)))))
  | ORegister r name x => recv r (fun v => obind (nth_error e x) (fun i => only CReg v (er <- reg_register v name i;; ret (RErr er))))
  | OMustRegister name x => obind (nth_error e x) (fun i =>
      Some (er <- std_register default_reg name i;; match er with None => ret RUnit | Some _ => throw msg_user end))  (* registry.go:359-363 *)
  | OUnregister r name => recv r (fun v => only CReg v (unit_rv (reg_unregister v name)))
  | OUnregisterAll r => recv r (fun v => only CReg v (unit_rv (reg_unregister_all v)))
  | OEach r => recv r (fun v => only CReg v (l <- reg_each v;; ret (RPairs l)))
  | OGetAll r => recv r (fun v => only CReg v (l <- reg_get_all v;; ret (RAll l)))
  | ORunHealthchecks r => recv r (fun v => only CReg v (unit_rv (reg_run_healthchecks v)))
  | ONewRegistered k name r =>
    if has_new_registered k then
      obind (ctor_of e k) (fun c => obind (reg_arg e r) (fun v => Some (v_rv (new_registered c name v))))
    else None
  | OGetOrRegisterX k name r =>
    obind (ctor_of e (regk_new k)) (fun c => obind (reg_arg e r) (fun v => Some (v_rv (get_or_register_x k c name v))))
  end.

(** the values a result gives to the program *)
Definition yields (r : rv) : list val :=
  match r with RVal v => [v] | RPairs l => map snd l | _ => [] end.

Definition state : Type := world * env.
Definition state_init : state := (world_init, [VReg default_reg]).

(** one call: the new state and the result ([None] if the call is not possible) *)
Definition step (st : state) (co : op * orc) : state * option (res rv) :=
  match call (snd st) (fst co) with
  | None => (st, None)
  | Some m =>
    match m (snd co) (fst st) with
    | (w, Ok r) => ((w, snd st ++ yields r)%list, Some (Ok r))
    | (w, Panic msg) => ((w, snd st), Some (Panic msg))
    end
  end.
Definition run (st : state) (prog : list (op * orc)) : state := fold_left (fun s co => fst (step s co)) prog st.
End Exp.
