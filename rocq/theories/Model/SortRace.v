(** SampleSnapshot.Percentile called by several goroutines: sample.go:331-333, 272-297 and
    612-616.  There is no lock, so the atomic actions are the single reads and writes of the
    elements of the snapshot's slice, which [sort.Sort] sorts in place.

    Simplifications.  An element is read or written at once, and the goroutines' accesses are
    interleaved (Go's memory model promises no more for racing accesses).  The sorting
    algorithm is insertion sort, which is what [sort.Sort] does with at most six elements in
    every version of Go (up to twelve since Go 1.19). *)
From Coq Require Import ZArith List.
From Verif.Model Require Import GoInt GoFloat GoBase Conc.
Import ListNotations.
Open Scope Z_scope.

(** [B]: what the method returns *)
Definition pcode (B : Type) : Type := code (list Z) unit B.
(** p[i] *)
Definition rd {B} (i : nat) (k : Z -> pcode B) : pcode B := Atom always (fun s => s) silent (fun s => k (nth i s 0)).
(** p[i] = v *)
Definition wr {B} (i : nat) (v : Z) (k : pcode B) : pcode B := Atom always (fun s => lset s i v) silent (fun _ => k).

(** sample.go:616 Swap(i, j): p[i], p[j] = p[j], p[i] *)
Definition swap {B} (i j : nat) (k : pcode B) : pcode B := rd j (fun x => rd i (fun y => wr i x (wr j y k))).
(** package sort, insertionSort: for j := i; j > 0 && data.Less(j, j-1); j-- { data.Swap(j, j-1) };
    sample.go:615 Less(i, j): p[i] < p[j] *)
Fixpoint sink {B} (j : nat) (k : pcode B) : pcode B :=
  match j with
  | O => k
  | S j' => rd j (fun a => rd j' (fun b => if a <? b then swap j j' (sink j' k) else k))
  end.
(** for i := 1; i < n; i++; [m] more iterations *)
Fixpoint insertion {B} (i m : nat) (k : pcode B) : pcode B :=
  match m with O => k | S m' => sink i (insertion (S i) m' k) end.

(** values[i] of a slice of length [n], which panics when i is out of range *)
Definition rdz {B} (n : nat) (i : Z) (k : Z -> pcode (res B)) : pcode (res B) :=
  if ((i <? 0) || (Z.of_nat n <=? i))%bool then Ret (Panic msg_index) else rd (Z.to_nat i) k.
(** sample.go:284-293; the score goes to [k] *)
Definition score {B} (n : nat) (p : f64) (k : f64 -> pcode (res B)) : pcode (res B) :=
  let size := Z.of_nat n in
  let pos := fmul p (f_of_int (size + 1)) in
  if flt pos (f_of_int 1) then rdz n 0 (fun v => k (f_of_int v))
  else if fge pos (f_of_int size) then rdz n (size - 1) (fun v => k (f_of_int v))
  else
    rdz n (wrap64 (int_of_f pos - 1)) (fun lo =>
    rdz n (int_of_f pos) (fun up =>
      let lower := f_of_int lo in
      let upper := f_of_int up in
      k (fadd lower (fmul (fsub pos (ffloor pos)) (fsub upper lower))))).
(** sample.go:331-333, 272-274, 278-297 with one percentile, on a slice of length [n] *)
Definition percentile_body (n : nat) (p : f64) : pcode (res f64) :=
  match n with O => Ret (Ok f_zero) | S m => insertion 1 m (score n p (fun v => Ret (Ok v))) end.
