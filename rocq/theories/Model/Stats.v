(** The statistics functions of sample.go:235-395.  A slice of int64 is a list
    of [Z] (each in the int64 range in every theorem that needs it). *)
From Coq Require Import ZArith List.
From Verif.Model Require Import GoInt GoFloat GoBase.
Import ListNotations.
Open Scope Z_scope.

(** sample.go:236-247 SampleMax *)
Definition SampleMax (values : list Z) : Z :=
  match values with
  | [] => 0
  | _ => fold_left (fun max v => if max <? v then v else max) values min_int64
  end.

(** sample.go:258-269 SampleMin *)
Definition SampleMin (values : list Z) : Z :=
  match values with
  | [] => 0
  | _ => fold_left (fun min v => if v <? min then v else min) values max_int64
  end.

(** sample.go:375-381 SampleSum: int64 addition wraps. *)
Definition SampleSum (values : list Z) : Z :=
  fold_left (fun sum v => wrap64 (sum + v)) values 0.

(** sample.go:250-255 SampleMean *)
Definition SampleMean (values : list Z) : f64 :=
  match values with
  | [] => f_zero
  | _ => fdiv (f_of_int (SampleSum values)) (f_of_int (slen values))
  end.

(** sample.go:384-395 SampleVariance *)
Definition SampleVariance (values : list Z) : f64 :=
  match values with
  | [] => f_zero
  | _ =>
    let m := SampleMean values in
    let sum := fold_left (fun sum v =>
                            let d := fsub (f_of_int v) m in
                            fadd sum (fmul d d)) values f_zero in
    fdiv sum (f_of_int (slen values))
  end.

(** sample.go:370-372 SampleStdDev *)
Definition SampleStdDev (values : list Z) : f64 := fsqrt (SampleVariance values).

(** sample.go:284-293: the body of the loop over ps, on the sorted slice. *)
Definition percentile_of_sorted (values : list Z) (p : f64) : res f64 :=
  let size := slen values in
  let pos := fmul p (f_of_int (size + 1)) in
  if flt pos (f_of_int 1) then
    res_bind (sget values 0) (fun v => Ok (f_of_int v))
  else if fge pos (f_of_int size) then
    res_bind (sget values (size - 1)) (fun v => Ok (f_of_int v))
  else
    res_bind (sget values (wrap64 (int_of_f pos - 1))) (fun lo =>
    res_bind (sget values (int_of_f pos)) (fun up =>
      let lower := f_of_int lo in
      let upper := f_of_int up in
      Ok (fadd lower (fmul (fsub pos (ffloor pos)) (fsub upper lower))))).

Fixpoint percentile_loop (values : list Z) (ps : list f64) : res (list f64) :=
  match ps with
  | [] => Ok []
  | p :: ps' =>
    res_bind (percentile_of_sorted values p) (fun s =>
    res_bind (percentile_loop values ps') (fun ss => Ok (s :: ss)))
  end.

(** sample.go:278-297 SamplePercentiles.  Returns the contents of the argument
    slice afterwards (it is sorted in place) and the scores. *)
Definition SamplePercentiles (values : list Z) (ps : list f64) : list Z * res (list f64) :=
  match values with
  | [] => ([], Ok (map (fun _ => f_zero) ps))
  | _ => let sorted := sortz values in (sorted, percentile_loop sorted ps)
  end.

(** sample.go:272-274 SamplePercentile *)
Definition SamplePercentile (values : list Z) (p : f64) : list Z * res f64 :=
  let '(after, r) := SamplePercentiles values [p] in
  (after, res_bind r (fun scores => sget scores 0)).
