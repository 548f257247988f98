(** What a registry shared by goroutines should be: a finite map changed by one call at a
    time, together with the log of the values made by lazy constructors. *)
From Coq Require Import List String Arith Bool.
From Verif.Model Require Import Conc RegistryConc.
From Verif.Spec Require Import Traces.
Import ListNotations.
Local Open Scope list_scope.

Definition rq : Type := (list (string * mv) * list mv)%type.
(** the metric registered under a name *)
Definition bound (m : list (string * mv)) (n : string) : option mv :=
  option_map snd (find (fun kv => String.eqb (fst kv) n) m).
(** binding an unused name; something that is not a metric is not registered *)
Definition bind_new (m : list (string * mv)) (n : string) (v : mv) : list (string * mv) :=
  match v_kind v with KNone => m | _ => m ++ [(n, v)] end.

(** one call at a time.  (The pairs that Each passes are all pairs, in some order.) *)
Definition rapply (q : rq) (o : rop) : rq * rret :=
  let (m, made) := q in
  match o with
  | RGet n => (q, RtOpt (bound m n))
  | RRegister n v =>
    match bound m n with
    | Some _ => (q, RtErr true)
    | None => ((bind_new m n v, made), RtErr false)
    end
  | RGetOrRegister n v =>
    match bound m n with
    | Some x => (q, RtVal x)
    | None => ((bind_new m n v, made), RtVal v)
    end
  | RGetOrRegisterFn n v _ =>
    match bound m n with
    | Some x => (q, RtVal x)
    | None => ((bind_new m n v, made ++ [v]), RtVal v)
    end
  | RUnregister n => ((filter (fun kv => negb (String.eqb (fst kv) n)) m, made), RtUnit)
  | RUnregisterAll _ => (([], made), RtUnit)
  | REach ord _ => (q, RtList (ordered ord m))
  | RRunHealthchecks _ _ | RNewMeter _ | RStop _ | RTickMeters => (q, RtUnit)
  end.

(** calls whose caller code does not call the registry or the arbiter itself *)
Definition simple (o : rop) : Prop :=
  match o with
  | RGetOrRegisterFn _ _ mk => mk = CDone
  | REach _ cb => forall n v, cb n v = CDone
  | RRunHealthchecks _ chk => forall n v, chk n v = CDone
  | _ => True
  end.

(** ** caller code *)
(** the registry (not only the arbiter) is used first *)
Definition on_registry (o : rop) : Prop :=
  match o with RNewMeter _ | RStop _ | RTickMeters => False | _ => True end.
(** caller code that does not use the registry *)
Inductive off_registry : cbp -> Prop :=
| off_done : off_registry CDone
| off_do o k : ~ on_registry o -> (forall r, off_registry (k r)) -> off_registry (CDo o k).
(** constructors and health checks (also those run by callbacks of Each) do not use the
    registry; callbacks of Each may *)
Inductive polite : rop -> Prop :=
| po_get n : polite (RGet n)
| po_register n v : polite (RRegister n v)
| po_gor n v : polite (RGetOrRegister n v)
| po_gorf n v mk : off_registry mk -> polite (RGetOrRegisterFn n v mk)
| po_unreg n : polite (RUnregister n)
| po_unregall ord : polite (RUnregisterAll ord)
| po_each ord cb : (forall n v, polite_cb (cb n v)) -> polite (REach ord cb)
| po_health ord chk : (forall n v, off_registry (chk n v)) -> polite (RRunHealthchecks ord chk)
| po_newmeter v : polite (RNewMeter v)
| po_stop v : polite (RStop v)
| po_tick : polite RTickMeters
with polite_cb : cbp -> Prop :=
| po_done : polite_cb CDone
| po_do o k : polite o -> (forall r, polite_cb (k r)) -> polite_cb (CDo o k).

(** caller code that comes to use the registry whatever its calls return *)
Inductive uses_registry : cbp -> Prop :=
| ur_now o k : on_registry o -> uses_registry (CDo o k)
| ur_later o k : (forall r, uses_registry (k r)) -> uses_registry (CDo o k).
(** ... to register or unregister *)
Inductive changes_registry : cbp -> Prop :=
| cr_register n v k : changes_registry (CDo (RRegister n v) k)
| cr_unregister n k : changes_registry (CDo (RUnregister n) k)
| cr_unregister_all ord k : changes_registry (CDo (RUnregisterAll ord) k)
| cr_later o k : (forall r, changes_registry (k r)) -> changes_registry (CDo o k).

(** caller code that contains no call of Each *)
Fixpoint no_each (o : rop) : Prop :=
  match o with
  | REach _ _ => False
  | RGetOrRegisterFn _ _ mk => no_each_cb mk
  | RRunHealthchecks _ chk => forall n v, no_each_cb (chk n v)
  | _ => True
  end
with no_each_cb (p : cbp) : Prop := match p with CDone => True | CDo o k => no_each o /\ forall r, no_each_cb (k r) end.

(** ** executions *)
(** the values made by constructors *)
Definition made_in (ls : list rlabel) : list mv := flat_map (fun l => match l with LMade v => [v] | _ => [] end) ls.
(** callbacks of Each *)
Definition is_call (x : rlabel) : bool := match x with LCall _ _ => true | _ => false end.
(** calls that may unbind the name n *)
Definition unbinds (n : string) (o : rop) : Prop :=
  match o with RUnregister n' => n' = n | RUnregisterAll _ => True | _ => False end.
(** GetOrRegister of the name n with a metric, given or constructed *)
Definition gets_or_registers (n : string) (o : rop) : Prop :=
  exists v, v_kind v <> KNone /\ (o = RGetOrRegister n v \/ exists mk, o = RGetOrRegisterFn n v mk).
Notation rconfig := (config rstate rlabel rop rret).
(** goroutine t is inside a call and not blocked *)
Definition can_step (c : rconfig) (t : nat) : Prop :=
  match th c t with Idle => False | Busy _ (Ret _) => True | Busy _ (Atom e _ _ _) => e (sh c) = true end.
(** what goroutine t is about to do *)
Definition next_labels (c : rconfig) (t : nat) : list rlabel :=
  match th c t with Busy _ (Atom _ _ l _) => l (sh c) | _ => [] end.
(** with no further calls, all calls in progress return, in whatever order the goroutines
    are run *)
Inductive finishes (c : rconfig) : Prop :=
| fin_quiet : quiet c -> finishes c
| fin_step : (exists t, can_step c t) -> (forall t, can_step c t -> finishes (fst (cstep rbody c (Run t)))) -> finishes c.
