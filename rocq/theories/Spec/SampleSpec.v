(** Samples as sequential objects: what one call at a time does, with the sequential
    functions of Uniform.v and ExpDecay.v (the subjects of C14-C21). *)
From Coq Require Import ZArith List.
From Verif.Model Require Import GoInt GoFloat GoBase Stats Uniform ExpDecay SampleConc.
From Verif.Spec Require Import Reservoir.
Import ListNotations.
Open Scope Z_scope.

Definition done {A} (f : A -> sret) (r : res A) : res sret := res_bind r (fun a => Ok (f a)).

Definition uniform_apply (s : uniform) (o : sop) : uniform * res sret :=
  match o with
  | SUpdate v _ draw _ => (fst (uni_update s v draw), done (fun _ => VUnit) (snd (uni_update s v draw)))
  | SClear _ => (uni_clear s, Ok VUnit)
  | SCount => (s, Ok (VInt (uni_Count s)))
  | SSize => (s, Ok (VInt (uni_Size s)))
  | SValues => (s, Ok (VValues (uni_Values s)))
  | SSnapshot => (s, Ok (VSnapshot (uni_Count s) (uni_Values s)))
  | SStat QMax => (s, Ok (VInt (uni_Max s)))
  | SStat QMin => (s, Ok (VInt (uni_Min s)))
  | SStat QSum => (s, Ok (VInt (uni_Sum s)))
  | SStat QMean => (s, Ok (VFloat (uni_Mean s)))
  | SStat QVariance => (s, Ok (VFloat (uni_Variance s)))
  | SStat QStdDev => (s, Ok (VFloat (uni_StdDev s)))
  | SPercentile p => (fst (uni_percentiles s [p]), done VFloat (snd (SamplePercentile (uni_Values s) p)))
  | SPercentiles ps => (fst (uni_percentiles s ps), done VFloats (snd (uni_percentiles s ps)))
  end.
Definition expdecay_apply (mexp : f64 -> f64) (s : expdecay) (o : sop) : expdecay * res sret :=
  match o with
  | SUpdate v t _ rand => (fst (exp_update mexp s t v rand), done (fun _ => VUnit) (snd (exp_update mexp s t v rand)))
  | SClear t => (exp_clear s t, Ok VUnit)
  | SCount => (s, Ok (VInt (exp_Count s)))
  | SSize => (s, Ok (VInt (exp_Size s)))
  | SValues => (s, Ok (VValues (exp_Values s)))
  | SSnapshot => (s, Ok (VSnapshot (exp_Count s) (exp_Values s)))
  | SStat QMax => (s, Ok (VInt (SampleMax (exp_Values s))))
  | SStat QMin => (s, Ok (VInt (SampleMin (exp_Values s))))
  | SStat QSum => (s, Ok (VInt (SampleSum (exp_Values s))))
  | SStat QMean => (s, Ok (VFloat (SampleMean (exp_Values s))))
  | SStat QVariance => (s, Ok (VFloat (SampleVariance (exp_Values s))))
  | SStat QStdDev => (s, Ok (VFloat (SampleStdDev (exp_Values s))))
  | SPercentile p => (s, done VFloat (snd (SamplePercentile (exp_Values s) p)))
  | SPercentiles ps => (s, done VFloats (snd (SamplePercentiles (exp_Values s) ps)))
  end.

(** the calls as far as the recorded values are concerned *)
Definition sop_event (o : sop) : revent :=
  match o with SUpdate v _ _ _ => RecordV v | SClear _ => ResetAll | _ => NoEffect end.
