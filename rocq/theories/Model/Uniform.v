(** UniformSample (sample.go:397-535).

    The mutex makes every method one indivisible operation; the methods are
    modelled as functions on the struct's fields.  [rand.Int63n] is an oracle:
    each update is given an arbitrary integer [draw], reduced to the range of
    the generator, so every outcome of the generator is some draw. *)
From Coq Require Import ZArith List String.
From Verif.Model Require Import GoInt GoFloat GoBase Stats.
Import ListNotations.
Open Scope string_scope.
Open Scope Z_scope.

(** sample.go:400-405 (the mutex is left out). *)
Record uniform := MkUniform { u_count : Z; u_size : Z; u_values : list Z }.

Definition msg_int63n : string := "invalid argument to Int63n".
Definition msg_makeslice : string := "makeslice: cap out of range".

(** math/rand Int63n: panics unless n > 0, otherwise a number in [0,n). *)
Definition Int63n (n draw : Z) : res Z :=
  if n <=? 0 then Panic msg_int63n else Ok (draw mod n).

(** sample.go:409-417 NewUniformSample (UseNilMetrics false);
    make([]int64, 0, n) panics for a negative n.  The upper limit of make
    (memory) is not modelled. *)
Definition NewUniformSample (reservoirSize : Z) : res uniform :=
  if reservoirSize <? 0 then Panic msg_makeslice
  else Ok (MkUniform 0 reservoirSize []).

(** sample.go:420-425 Clear *)
Definition uni_clear (s : uniform) : uniform := MkUniform 0 (u_size s) [].

(** sample.go:507-519 Update.  The state is returned also when the call panics. *)
Definition uni_update (s : uniform) (v draw : Z) : uniform * res unit :=
  let count := wrap64 (u_count s + 1) in
  if slen (u_values s) <? u_size s then
    (MkUniform count (u_size s) (u_values s ++ [v]), Ok tt)
  else
    let s1 := MkUniform count (u_size s) (u_values s) in
    match Int63n count draw with
    | Panic m => (s1, Panic m)
    | Ok r =>
      if r <? slen (u_values s) then
        match sset (u_values s) r v with
        | Ok l => (MkUniform count (u_size s) l, Ok tt)
        | Panic m => (s1, Panic m)
        end
      else (s1, Ok tt)
    end.

(** sample.go:429-456, 474-504, 522-535: the reading methods. *)
Definition uni_Count (s : uniform) : Z := u_count s.
Definition uni_Size (s : uniform) : Z := slen (u_values s).
Definition uni_Values (s : uniform) : list Z := u_values s.
Definition uni_Max (s : uniform) : Z := SampleMax (u_values s).
Definition uni_Min (s : uniform) : Z := SampleMin (u_values s).
Definition uni_Sum (s : uniform) : Z := SampleSum (u_values s).
Definition uni_Mean (s : uniform) : f64 := SampleMean (u_values s).
Definition uni_Variance (s : uniform) : f64 := SampleVariance (u_values s).
Definition uni_StdDev (s : uniform) : f64 := SampleStdDev (u_values s).

(** sample.go:459-471 Percentiles (Percentile is the one-element case): sorts
    the live reservoir in place, under the lock. *)
Definition uni_percentiles (s : uniform) (ps : list f64) : uniform * res (list f64) :=
  let '(after, r) := SamplePercentiles (u_values s) ps in
  (MkUniform (u_count s) (u_size s) after, r).

(** One call on the sample; reads that do not write are [URead]. *)
Inductive uop :=
| UUpdate (v : Z)
| UClear
| UPercentiles (ps : list f64)
| URead.

Definition uni_step (s : uniform) (od : uop * Z) : uniform * res unit :=
  match fst od with
  | UUpdate v => uni_update s v (snd od)
  | UClear => (uni_clear s, Ok tt)
  | UPercentiles ps => let '(s', r) := uni_percentiles s ps in (s', res_bind r (fun _ => Ok tt))
  | URead => (s, Ok tt)
  end.

(** A history of calls (a call that panics leaves its state behind and the
    program may go on after recovering). *)
Definition uni_run (s : uniform) (h : list (uop * Z)) : uniform :=
  fold_left (fun s od => fst (uni_step s od)) h s.
