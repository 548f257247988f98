(** ExpDecaySample and its heap (sample.go:32-186, 537-610).

    The mutex makes every method one indivisible operation.  Oracles: the times
    (nanoseconds on one clock, arbitrary integers), [rand.Float64] (an arbitrary
    float64 per update) and [math.Exp] (the function parameter [mexp]). *)
From Coq Require Import ZArith List String.
From Verif.Model Require Import GoInt GoFloat GoBase Stats.
Import ListNotations.
Open Scope Z_scope.

(** sample.go:538-541 *)
Record entry := MkEntry { e_k : f64; e_v : Z }.

Definition entry0 : entry := MkEntry f_zero 0.

(** sample.go:547-551: the slice h.s is the first [h_len] elements of its
    backing array [h_arr], whose length is the slice's capacity. *)
Record heap := MkHeap { h_arr : list entry; h_len : nat }.

(** sample.go:543-545: make([]expDecaySample, 0, reservoirSize) *)
Definition newHeap (reservoirSize : nat) : heap := MkHeap (repeat entry0 reservoirSize) 0.

(** h.s[i] and h.s[i], h.s[j] = h.s[j], h.s[i]: indices are checked against the
    slice length. *)
Definition hget (h : heap) (i : nat) : res entry :=
  if (i <? h_len h)%nat then
    match nth_error (h_arr h) i with Some e => Ok e | None => Panic msg_index end
  else Panic msg_index.

Definition hput (h : heap) (i : nat) (e : entry) : res heap :=
  if (i <? h_len h)%nat then Ok (MkHeap (lset (h_arr h) i e) (h_len h)) else Panic msg_index.

Definition hswap (h : heap) (i j : nat) : res heap :=
  res_bind (hget h j) (fun ej =>
  res_bind (hget h i) (fun ei =>
  res_bind (hput h i ej) (fun h1 => hput h1 j ei))).

(** h.s = h.s[0:n]: legal up to the capacity. *)
Definition hreslice (h : heap) (n : nat) : res heap :=
  if (n <=? List.length (h_arr h))%nat then Ok (MkHeap (h_arr h) n) else Panic msg_slice.

(** sample.go:553-555 *)
Definition hclear (h : heap) : heap := MkHeap (h_arr h) 0.

Definition msg_fuel : string := "model: out of fuel".

(** sample.go:583-592 up: [fuel] bounds the number of iterations; running out is
    an explicit panic that the theorems exclude.  Go's (j-1)/2 truncates toward
    zero, so it is 0 for j = 0, as is nat's. *)
Fixpoint up (fuel : nat) (h : heap) (j : nat) : res heap :=
  match fuel with
  | O => Panic msg_fuel
  | S fuel' =>
    let i := ((j - 1) / 2)%nat in
    if (i =? j)%nat then Ok h
    else
      res_bind (hget h j) (fun ej =>
      res_bind (hget h i) (fun ei =>
      if flt (e_k ej) (e_k ei) then
        res_bind (hswap h i j) (fun h' => up fuel' h' i)
      else Ok h))
  end.

(** sample.go:594-610 down.  The int overflow test (j1 < 0) is omitted: slice
    lengths are far below 2^62. *)
Fixpoint down (fuel : nat) (h : heap) (i n : nat) : res heap :=
  match fuel with
  | O => Panic msg_fuel
  | S fuel' =>
    let j1 := (2 * i + 1)%nat in
    if (n <=? j1)%nat then Ok h
    else
      let j2 := (j1 + 1)%nat in
      res_bind
        (if (j2 <? n)%nat then
           res_bind (hget h j1) (fun e1 =>
           res_bind (hget h j2) (fun e2 =>
           Ok (if flt (e_k e1) (e_k e2) then j1 else j2)))
         else Ok j1) (fun j =>
      res_bind (hget h j) (fun ej =>
      res_bind (hget h i) (fun ei =>
      if flt (e_k ej) (e_k ei) then
        res_bind (hswap h i j) (fun h' => down fuel' h' j n)
      else Ok h)))
  end.

(** sample.go:557-562 Push *)
Definition hpush (h : heap) (e : entry) : res heap :=
  let n := h_len h in
  res_bind (hreslice h (n + 1)) (fun h1 =>
  res_bind (hput h1 n e) (fun h2 => up (S n) h2 n)).

(** sample.go:564-573 Pop; on an empty heap h.s[-1] panics. *)
Definition hpop (h : heap) : res (heap * entry) :=
  match h_len h with
  | O => Panic msg_index
  | S n =>
    res_bind (hswap h 0 n) (fun h1 =>
    res_bind (down (S n) h1 0 n) (fun h2 =>
    res_bind (hget h2 (h_len h2 - 1)) (fun s =>
    res_bind (hreslice h2 (h_len h2 - 1)) (fun h3 => Ok (h3, s)))))
  end.

(** sample.go:579-581 Values: a slice sharing the heap's array; as a value, its
    current contents. *)
Definition hvalues (h : heap) : list entry := firstn (h_len h) (h_arr h).

(** sample.go:575-577 Size *)
Definition hsize (h : heap) : nat := h_len h.

(** sample.go:37-44 (mutex left out; reservoirSize as nat: a negative one makes
    the constructor panic). *)
Record expdecay := MkExp {
  x_alpha : f64; x_count : Z; x_size : nat; x_t0 : Z; x_t1 : Z; x_heap : heap }.

(** sample.go:11 time.Hour in nanoseconds *)
Definition rescaleThreshold : Z := 3600000000000.

(** time.Duration.Seconds: float64(d/1e9) + float64(d%1e9)/1e9. *)
Definition seconds (d : Z) : f64 :=
  fadd (f_of_int (Z.quot d 1000000000)) (fdiv (f_of_int (Z.rem d 1000000000)) (f_of_int 1000000000)).

(** time.Time.Sub saturates to the int64 range of a Duration. *)
Definition time_sub (t u : Z) : Z := Z.max min_int64 (Z.min max_int64 (t - u)).

(** sample.go:48-60 NewExpDecaySample at time [now] *)
Definition NewExpDecaySample (reservoirSize : nat) (alpha : f64) (now : Z) : expdecay :=
  MkExp alpha 0 reservoirSize now (now + rescaleThreshold) (newHeap reservoirSize).

(** sample.go:63-70 Clear at time [now] *)
Definition exp_clear (s : expdecay) (now : Z) : expdecay :=
  MkExp (x_alpha s) 0 (x_size s) now (now + rescaleThreshold) (hclear (x_heap s)).

(** sample.go:181-184: the loop over the old slice [values], which shares the
    backing array that Push writes to: iteration [i] reads element [i] at that
    moment. [m] is the number of iterations left, [factor] the constant
    math.Exp(-alpha*(t-t0)) (recomputed in each iteration by the code). *)
Fixpoint rescale_loop (m i : nat) (factor : f64) (h : heap) : heap * res unit :=
  match m with
  | O => (h, Ok tt)
  | S m' =>
    match nth_error (h_arr h) i with
    | None => (h, Panic msg_index)
    | Some e =>
      match hpush h (MkEntry (fmul (e_k e) factor) (e_v e)) with
      | Ok h' => rescale_loop m' (S i) factor h'
      | Panic msg => (h, Panic msg)
      end
    end
  end.

(** sample.go:164-186 update, given the two results of math.Exp. *)
Definition exp_update_raw (s : expdecay) (t : Z) (v : Z) (rand e1 e2 : f64) : expdecay * res unit :=
  let count := wrap64 (x_count s + 1) in
  let s1 := MkExp (x_alpha s) count (x_size s) (x_t0 s) (x_t1 s) (x_heap s) in
  match
    (if (hsize (x_heap s) =? x_size s)%nat
     then res_bind (hpop (x_heap s)) (fun p => Ok (fst p))
     else Ok (x_heap s))
  with
  | Panic m => (s1, Panic m)
  | Ok h1 =>
    match hpush h1 (MkEntry (fdiv e1 rand) v) with
    | Panic m => (MkExp (x_alpha s) count (x_size s) (x_t0 s) (x_t1 s) h1, Panic m)
    | Ok h2 =>
      if x_t1 s <? t then
        let '(h3, r) := rescale_loop (h_len h2) 0 e2 (hclear h2) in
        (MkExp (x_alpha s) count (x_size s) t (t + rescaleThreshold) h3, r)
      else (MkExp (x_alpha s) count (x_size s) (x_t0 s) (x_t1 s) h2, Ok tt)
    end
  end.

(** the arguments of the two calls of math.Exp (sample.go:172, 182) *)
Definition exp_arg1 (s : expdecay) (t : Z) : f64 := fmul (seconds (time_sub t (x_t0 s))) (x_alpha s).
Definition exp_arg2 (s : expdecay) (t : Z) : f64 := fmul (fneg (x_alpha s)) (seconds (time_sub t (x_t0 s))).

Definition exp_update (mexp : f64 -> f64) (s : expdecay) (t v : Z) (rand : f64) : expdecay * res unit :=
  exp_update_raw s t v rand (mexp (exp_arg1 s t)) (mexp (exp_arg2 s t)).

(** sample.go:146-155 Values, 74-78 Count, 109-113 Size *)
Definition exp_Values (s : expdecay) : list Z := map e_v (hvalues (x_heap s)).
Definition exp_Count (s : expdecay) : Z := x_count s.
Definition exp_Size (s : expdecay) : Z := Z.of_nat (hsize (x_heap s)).

(** One call: Update at a time with a draw, Clear at a time, or a read (all
    reads work on a copy of the values, sample.go:82-106, 131-138, 158-160). *)
Inductive xop :=
| XUpdate (t v : Z) (rand : f64)
| XClear (t : Z)
| XRead.

Definition exp_step (mexp : f64 -> f64) (s : expdecay) (o : xop) : expdecay * res unit :=
  match o with
  | XUpdate t v rand => exp_update mexp s t v rand
  | XClear t => (exp_clear s t, Ok tt)
  | XRead => (s, Ok tt)
  end.

Definition exp_run (mexp : f64 -> f64) (s : expdecay) (h : list xop) : expdecay :=
  fold_left (fun s o => fst (exp_step mexp s o)) h s.
