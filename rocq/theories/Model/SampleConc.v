(** UniformSample and ExpDecaySample used by several goroutines: sample.go:32-186, 397-535.

    An atomic action is a lock operation or one access to one field or slice element.
    Simplifications: a method of the heap of ExpDecaySample (Push, Pop, Clear, Values, Size)
    reads the heap in one action and writes it back in another; the sorting algorithm is
    insertion sort, as in SortRace.v; a call brings the times and random numbers it will
    draw with it. *)
From Coq Require Import ZArith List.
From Verif.Model Require Import GoInt GoFloat GoBase Conc Stats Uniform ExpDecay SortRace Mutex.
Import ListNotations.
Open Scope Z_scope.

(** ** Calls and results *)
Inductive stat := QMax | QMin | QSum | QMean | QVariance | QStdDev.
Inductive sop :=
| SUpdate (v : Z) (now : Z) (draw : Z) (rand : f64)
    (* [now]: the time; [draw], [rand]: the next results of rand.Int63n and rand.Float64 *)
| SClear (now : Z)
| SCount
| SSize
| SValues
| SSnapshot
| SStat (q : stat)
| SPercentile (p : f64)
| SPercentiles (ps : list f64).
Inductive sret :=
| VUnit
| VInt (n : Z)
| VFloat (x : f64)
| VFloats (xs : list f64)
| VValues (l : list Z)
| VSnapshot (count : Z) (l : list Z).

(** the statistics functions of sample.go:236-269, 370-395 on a slice *)
Definition statistic (q : stat) (l : list Z) : sret :=
  match q with
  | QMax => VInt (SampleMax l)
  | QMin => VInt (SampleMin l)
  | QSum => VInt (SampleSum l)
  | QMean => VFloat (SampleMean l)
  | QVariance => VFloat (SampleVariance l)
  | QStdDev => VFloat (SampleStdDev l)
  end.

(** ** Accesses *)
(** reading a field (or an element) *)
Definition get {D A R} (f : D -> A) (k : A -> code D unit R) : code D unit R := Atom always (fun s => s) silent (fun s => k (f s)).
(** writing one *)
Definition put {D R} (f : D -> D) (k : code D unit R) : code D unit R := Atom always f silent (fun _ => k).
(** an operation on the slice alone *)
Fixpoint on_values {A} (c : code (list Z) unit A) : code uniform unit A :=
  match c with
  | Ret a => Ret a
  | Atom e u l k => Atom (fun s => e (u_values s)) (fun s => MkUniform (u_count s) (u_size s) (u (u_values s))) silent (fun s => on_values (k (u_values s)))
  end.

(** ** UniformSample *)
Definition set_count (n : Z) (s : uniform) : uniform := MkUniform n (u_size s) (u_values s).
Definition set_values (l : list Z) (s : uniform) : uniform := MkUniform (u_count s) (u_size s) l.
(** reading the elements [i], [i+1], ..., [m] of them, one by one *)
Fixpoint copy_from {R} (i m : nat) (k : list Z -> code uniform unit R) : code uniform unit R :=
  match m with
  | O => k []
  | S m' => get (fun s => nth i (u_values s) 0) (fun v => copy_from (S i) m' (fun l => k (v :: l)))
  end.
(** range s.values, or copy(values, s.values) *)
Definition elements {R} (k : list Z -> code uniform unit R) : code uniform unit R :=
  get (fun s => length (u_values s)) (fun n => copy_from 0 n k).
(** sample.go:283-294: the loop over ps *)
Fixpoint scores (n : nat) (ps : list f64) (k : list f64 -> pcode (res sret)) : pcode (res sret) :=
  match ps with
  | [] => k []
  | p :: ps' => score n p (fun x => scores n ps' (fun xs => k (x :: xs)))
  end.
(** sample.go:278-297 on a slice of length [n]: sorts in place *)
Definition percentiles_body (n : nat) (ps : list f64) (k : list f64 -> sret) : pcode (res sret) :=
  match n with
  | O => Ret (Ok (k (map (fun _ => f_zero) ps)))
  | S m => insertion 1 m (scores n ps (fun xs => Ret (Ok (k xs))))
  end.
(** sample.go:384-395: one loop for the mean, one for the squares *)
Definition variance_of (m : f64) (l : list Z) : f64 :=
  fdiv (fold_left (fun sum v => let d := fsub (f_of_int v) m in fadd sum (fmul d d)) l f_zero) (f_of_int (slen l)).
Definition variance_loops {R} (k : f64 -> code uniform unit R) : code uniform unit R :=
  get (fun s => length (u_values s)) (fun n =>
    match n with O => k f_zero | S _ => elements (fun l => elements (fun l' => k (variance_of (SampleMean l) l'))) end).
(** sample.go:420-535: what the methods do while they hold the mutex *)
Definition uniform_code (o : sop) : code uniform unit (res sret) :=
  match o with
  | SUpdate v _ draw _ =>
    (* sample.go:507-519 *)
    get u_count (fun c => put (set_count (wrap64 (c + 1))) (
    get (fun s => slen (u_values s)) (fun n => get u_size (fun size =>
    if n <? size then get u_values (fun l => put (set_values (l ++ [v])) (Ret (Ok VUnit)))
    else
      get u_count (fun c' =>
      match Int63n c' draw with
      | Panic m => Ret (Panic m)
      | Ok r =>
        get (fun s => slen (u_values s)) (fun n' =>
        if r <? n' then
          get (fun s => slen (u_values s)) (fun n'' =>
          if ((r <? 0) || (n'' <=? r))%bool then Ret (Panic msg_index)
          else put (fun s => set_values (lset (u_values s) (Z.to_nat r) v) s) (Ret (Ok VUnit)))
        else Ret (Ok VUnit))
      end)))))
  | SClear _ => put (set_count 0) (put (set_values []) (Ret (Ok VUnit)))
  | SCount => get u_count (fun c => Ret (Ok (VInt c)))
  | SSize => get (fun s => slen (u_values s)) (fun n => Ret (Ok (VInt n)))
  | SValues => elements (fun l => Ret (Ok (VValues l)))
  | SSnapshot => elements (fun l => get u_count (fun c => Ret (Ok (VSnapshot c l))))
  | SStat QVariance => variance_loops (fun x => Ret (Ok (VFloat x)))
  | SStat QStdDev => variance_loops (fun x => Ret (Ok (VFloat (fsqrt x))))
  | SStat q => elements (fun l => Ret (Ok (statistic q l)))
  | SPercentile p => get (fun s => length (u_values s)) (fun n => on_values (percentiles_body n [p] (fun xs => VFloat (nth 0 xs f_zero))))
  | SPercentiles ps => get (fun s => length (u_values s)) (fun n => on_values (percentiles_body n ps VFloats))
  end.
(** the methods *)
Definition uniform_body (o : sop) : code (guarded uniform) unit (res sret) := critical (uniform_code o) (fun r => r).

(** ** ExpDecaySample *)
Definition x_set_count (n : Z) (s : expdecay) : expdecay := MkExp (x_alpha s) n (x_size s) (x_t0 s) (x_t1 s) (x_heap s).
Definition x_set_t0 (t : Z) (s : expdecay) : expdecay := MkExp (x_alpha s) (x_count s) (x_size s) t (x_t1 s) (x_heap s).
Definition x_set_t1 (t : Z) (s : expdecay) : expdecay := MkExp (x_alpha s) (x_count s) (x_size s) (x_t0 s) t (x_heap s).
Definition x_set_heap (h : heap) (s : expdecay) : expdecay := MkExp (x_alpha s) (x_count s) (x_size s) (x_t0 s) (x_t1 s) h.
(** s.values.Push(e) *)
Definition push {R} (e : entry) (k : code expdecay unit (res R)) : code expdecay unit (res R) :=
  get x_heap (fun h => match hpush h e with Ok h' => put (x_set_heap h') k | Panic m => Ret (Panic m) end).
(** sample.go:181-184: [m] iterations left, [t0] the old t0 *)
Fixpoint rescale {R} (mexp : f64 -> f64) (m i : nat) (t0 : Z) (k : code expdecay unit (res R)) : code expdecay unit (res R) :=
  match m with
  | O => k
  | S m' =>
    get (fun s => nth_error (h_arr (x_heap s)) i) (fun e =>
    match e with
    | None => Ret (Panic msg_index)
    | Some e =>
      get x_alpha (fun alpha => get x_t0 (fun t =>
      push (MkEntry (fmul (e_k e) (mexp (fmul (fneg alpha) (seconds (time_sub t t0))))) (e_v e)) (rescale mexp m' (S i) t0 k)))
    end)
  end.
(** sample.go:63-78, 109-128, 146-186: what the methods do while they hold the mutex;
    the statistics call Values and look at the copy (82-106, 131-138, 158-160) *)
Inductive xcopy := XDone (r : sret) | XCopied (l : list Z).
Definition expdecay_code (mexp : f64 -> f64) (o : sop) : code expdecay unit (res xcopy) :=
  match o with
  | SUpdate v t _ rand =>
    (* sample.go:164-186 *)
    let insert :=
      get x_t0 (fun t0 => get x_alpha (fun alpha =>
      push (MkEntry (fdiv (mexp (fmul (seconds (time_sub t t0)) alpha)) rand) v) (
      get x_t1 (fun t1 =>
      if t1 <? t then
        get (fun s => h_len (x_heap s)) (fun n => get x_t0 (fun t0 =>
        get x_heap (fun h => put (x_set_heap (hclear h)) (
        put (x_set_t0 t) (get x_t0 (fun t' => put (x_set_t1 (t' + rescaleThreshold)) (
        rescale mexp n 0 t0 (Ret (Ok (XDone VUnit))))))))))
      else Ret (Ok (XDone VUnit)))))) in
    get x_count (fun c => put (x_set_count (wrap64 (c + 1))) (
    get (fun s => hsize (x_heap s)) (fun n => get x_size (fun size =>
    if (n =? size)%nat then
      get x_heap (fun h => match hpop h with Ok (h', _) => put (x_set_heap h') insert | Panic m => Ret (Panic m) end)
    else insert))))
  | SClear now =>
    put (x_set_count 0) (put (x_set_t0 now) (get x_t0 (fun t => put (x_set_t1 (t + rescaleThreshold)) (
    get x_heap (fun h => put (x_set_heap (hclear h)) (Ret (Ok (XDone VUnit))))))))
  | SCount => get x_count (fun c => Ret (Ok (XDone (VInt c))))
  | SSize => get (fun s => hsize (x_heap s)) (fun n => Ret (Ok (XDone (VInt (Z.of_nat n)))))
  | SSnapshot => get x_heap (fun h => get x_count (fun c => Ret (Ok (XDone (VSnapshot c (map e_v (hvalues h)))))))
  | SValues | SStat _ | SPercentile _ | SPercentiles _ => get x_heap (fun h => Ret (Ok (XCopied (map e_v (hvalues h)))))
  end.
(** what they do with the copy after they have released it *)
Definition expdecay_after (o : sop) (r : res xcopy) : res sret :=
  res_bind r (fun c =>
  match c with
  | XDone v => Ok v
  | XCopied l =>
    match o with
    | SStat q => Ok (statistic q l)
    | SPercentile p => res_bind (snd (SamplePercentile l p)) (fun x => Ok (VFloat x))
    | SPercentiles ps => res_bind (snd (SamplePercentiles l ps)) (fun xs => Ok (VFloats xs))
    | _ => Ok (VValues l)
    end
  end).
Definition expdecay_body (mexp : f64 -> f64) (o : sop) : code (guarded expdecay) unit (res sret) := critical (expdecay_code mexp o) (expdecay_after o).
