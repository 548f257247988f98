(** World.v as a sequential object: one call after the other, with results as the caller sees
    them. *)
From Coq Require Import ZArith List String.
From Verif.Model Require Import GoInt GoFloat GoBase Conc Compose World Process.
From Verif.Spec Require Import Linearizability.
Import ListNotations.
Open Scope Z_scope.

(** what a result shows: of slices and snapshots, what they hold when the call returns *)
Definition slice_in (w : world) (a : nat) : option (list Z) := match nth_error (heap w) a with Some (OArr xs) => Some xs | _ => None end.
Definition snapshot_in (w : world) (k : nat) : seen :=
  match nth_error (heap w) k with
  | Some (OSampleSnap c a) => match slice_in w a with Some xs => SeenSample c xs | None => SeenNothing end
  | _ => SeenNothing
  end.
Definition look (w : world) (r : option (res rv)) : seen :=
  match r with
  | None => SeenNothing
  | Some (Panic m) => SeenPanic m
  | Some (Ok RUnit) => SeenUnit
  | Some (Ok (RZ n)) => SeenInt n
  | Some (Ok (RF x)) => SeenFloat x
  | Some (Ok (RFs xs)) => SeenFloats xs
  | Some (Ok (RVal (VSlice a))) => match slice_in w a with Some xs => SeenSlice xs | None => SeenNothing end
  | Some (Ok (RVal (VCounterSnap n))) => SeenCounter n
  | Some (Ok (RVal (VGaugeSnap n))) => SeenGauge n
  | Some (Ok (RVal (VGaugeFSnap x))) => SeenGaugeF x
  | Some (Ok (RVal (VSampleSnap k))) => snapshot_in w k
  | Some (Ok (RVal (VHistSnap h))) => match nth_error (heap w) h with Some (OHistSnap k) => snapshot_in w k | _ => SeenNothing end
  | _ => SeenNothing
  end.
Definition world_apply (mexp : f64 -> f64) (st : state) (co : op * orc) : state * seen :=
  (fst (step mexp st co), look (fst (fst (step mexp st co))) (snd (step mexp st co))).

(** a call of a method that exists, on a metric whose concurrent use is modelled *)
Definition served (mexp : f64 -> f64) (st : state) (c : op) : Prop := target st c <> None /\ call mexp (snd st) c <> None.

(** calls and results, without the addresses of the structs *)
Definition call_only {mexp w} (o : any_op (metrics mexp w)) : op * orc := projT2 o.
Definition result_only {mexp w} (r : any_ret (metrics mexp w)) : seen := projT2 r.
Definition seen_history {mexp w} (h : list (hevent (any_op (metrics mexp w)) (any_ret (metrics mexp w)))) : list (hevent (op * orc) seen) :=
  map (fun e => match e with HInv t o => HInv t (call_only o) | HRes t r => HRes t (result_only r) end) h.
