(** Histories of a process: calls of the API, captures of runtime statistics and reports, in any
    order; and when two states differ only in the places at which the program holds its values. *)
From Coq Require Import ZArith List String Bool.
From Verif.Model Require Import GoInt GoFloat GoBase World Report Runtime Loops.
From Verif.Spec Require Import ApiSpec RegistrySpec ReadOnlySpec.
Import ListNotations.

Definition with_state (s : proc) (st : state) : proc := MkProc st (rt_done s) (rt_tab s) (rt_prev s) (dbg_done s) (dbg_tab s) (dbg_last s).
Section History.
Variable mexp : f64 -> f64.
Inductive happens : proc -> proc -> Prop :=
| e_call s co : happens s (fst (pstep mexp s co))
| e_report s runs v b o w' : In v (snd (p_state s)) -> base v = Some b -> reported runs v o (fst (p_state s)) w' -> happens s (with_state s (w', snd (p_state s))).
Inductive history : proc -> Prop :=
| h_init : history proc_init
| h_next s s' : history s -> happens s s' -> history s'.
End History.

(** the same state, but the value the program holds at [x] is at [f x] *)
Definition same_up_to (f : nat -> nat) (st st' : state) : Prop := fst st' = fst st /\ forall x, nth_error (snd st') (f x) = nth_error (snd st) x.
(** the call with its arguments at those places *)
Section Move.
Variable f : nat -> nat.
Definition move_new (k : newk) : newk :=
  match k with
  | NHist s => NHist (f s)
  | NCustomTimer h m => NCustomTimer (f h) (f m)
  | k => k
  end.
Definition move_reg (k : regk) : regk := match k with GHist s => GHist (f s) | k => k end.
Definition move (c : op) : op :=
  match c with
  | ONew k => ONew (move_new k)
  | ONewSampleSnapshot n x => ONewSampleSnapshot n (f x)
  | ONewPrefixedChild r p => ONewPrefixedChild (f r) p
  | OWriteSlice x i n => OWriteSlice (f x) i n
  | OReadSlice x => OReadSlice (f x)
  | OInc x n => OInc (f x) n
  | ODec x n => ODec (f x) n
  | OClear x => OClear (f x)
  | OCount x => OCount (f x)
  | OValue x => OValue (f x)
  | OUpdate x n => OUpdate (f x) n
  | OUpdateF x y => OUpdateF (f x) y
  | OSnapshot x => OSnapshot (f x)
  | OStat x s => OStat (f x) s
  | OPercentile x p => OPercentile (f x) p
  | OPercentiles x ps => OPercentiles (f x) ps
  | OSize x => OSize (f x)
  | OValues x => OValues (f x)
  | OSample x => OSample (f x)
  | OTick x => OTick (f x)
  | ORate x => ORate (f x)
  | OMark x n => OMark (f x) n
  | OMRate x k => OMRate (f x) k
  | OStop x => OStop (f x)
  | OTimeBegin x => OTimeBegin (f x)
  | OTimeEnd x ts => OTimeEnd (f x) ts
  | OUpdateSince x ts => OUpdateSince (f x) ts
  | OCheck x => OCheck (f x)
  | OError x => OError (f x)
  | OHealthy x => OHealthy (f x)
  | OUnhealthy x e => OUnhealthy (f x) e
  | OGet r name => OGet (f r) name
  | OGetOrRegister r name x => OGetOrRegister (f r) name (f x)
  | OGetOrRegisterFn r name k => OGetOrRegisterFn (f r) name (move_new k)
  | ORegister r name x => ORegister (f r) name (f x)
  | OMustRegister name x => OMustRegister name (f x)
  | OUnregister r name => OUnregister (f r) name
  | OUnregisterAll r => OUnregisterAll (f r)
  | OEach r => OEach (f r)
  | OGetAll r => OGetAll (f r)
  | ORunHealthchecks r => ORunHealthchecks (f r)
  | ONewRegistered k name r => ONewRegistered (move_new k) name (option_map f r)
  | OGetOrRegisterX k name r => OGetOrRegisterX (move_reg k) name (option_map f r)
  | OSetNil _ | ONewRegistry | ONewPrefixed _ | OMakeSlice _ | OForeign _ | ORound => c
  end.
End Move.

(** what a loop gave at its cue number [k] (from 0), or that it ended there *)
Definition answered {B} (k : nat) (out : proc * list B * option string) (r : res B) : Prop :=
  match r with
  | Ok b => nth_error (snd (fst out)) k = Some b
  | Panic m => List.length (snd (fst out)) = k /\ snd out = Some m
  end.
(** the loop came to its cue number [k] *)
Definition came {B} (k : nat) (out : proc * list B * option string) : Prop := (k <= List.length (snd (fst out)))%nat.
(** it left the process as it was at the cue, but for the metrics *)
Definition leaves {B} (s : proc) (out : proc * list B * option string) (w : world) : Prop := fst (fst out) = with_state s (w, snd (p_state s)).
