(** Registries as finite maps from names to metrics: what each call does to the
    maps, independently of how the library stores them. *)
From Coq Require Import ZArith List String Bool.
From Verif.Model Require Import GoInt GoFloat GoBase World.
Import ListNotations.
Local Open Scope nat_scope.
Local Open Scope list_scope.

(** every registry's map: [m l n] is what registry [l] has under the name [n] *)
Definition maps := nat -> string -> option val.
Definition put (m : maps) (l : nat) (n : string) (x : option val) : maps :=
  fun l' n' => if Nat.eqb l' l && String.eqb n' n then x else m l' n'.
Definition clear (m : maps) (l : nat) : maps := fun l' n' => if Nat.eqb l' l then None else m l' n'.

(** the seven kinds of metrics *)
Definition metric_kinds : list class := [CCounter; CGauge; CGaugeF; CHealth; CHist; CMeter; CTimer].
Definition metric (v : val) : bool := existsb (class_eqb (cls v)) metric_kinds.

(** the StandardRegistry under a registry value, and the prefixes on the way,
    outermost (nearest to it) first *)
Fixpoint base (v : val) : option nat :=
  match v with VReg l => Some l | VPref u _ => base u | _ => None end.
Fixpoint prefixes (v : val) : list string :=
  match v with VPref u p => prefixes u ++ [p] | _ => [] end.
Definition full (v : val) (n : string) : string := String.concat "" (prefixes v ++ [n]).

(** the map of registry value [v] at name [n] *)
Definition bound (m : maps) (v : val) (n : string) : option val :=
  match base v with Some l => m l (full v n) | None => None end.
(** add if free and a metric *)
Definition add (m : maps) (v : val) (n : string) (i : val) : maps :=
  match base v with
  | Some l => match m l (full v n) with
              | Some _ => m
              | None => if metric i then put m l (full v n) (Some i) else m
              end
  | None => m
  end.
Definition drop (m : maps) (v : val) (n : string) : maps :=
  match base v with Some l => put m l (full v n) None | None => m end.
Definition drop_all (m : maps) (v : val) : maps :=
  match base v with Some l => clear m l | None => m end.

(** the registry argument of the helper functions; nil means DefaultRegistry *)
Definition reg_or_default (e : env) (r : option nat) : option val :=
  match r with None => Some (VReg default_reg) | Some x => nth_error e x end.

(** the maps after call [c], which gave the result [r] *)
Definition after (e : env) (c : op) (r : option (res rv)) (m : maps) : maps :=
  match c with
  | ORegister x n y =>
    match nth_error e x, nth_error e y with Some v, Some i => add m v n i | _, _ => m end
  | OMustRegister n y => match nth_error e y with Some i => add m (VReg default_reg) n i | None => m end
  | OGetOrRegister x n _ | OGetOrRegisterFn x n _ =>
    match nth_error e x, r with Some v, Some (Ok (RVal i)) => add m v n i | _, _ => m end
  | ONewRegistered _ n x | OGetOrRegisterX _ n x =>
    match reg_or_default e x, r with Some v, Some (Ok (RVal i)) => add m v n i | _, _ => m end
  | OUnregister x n => match nth_error e x with Some v => drop m v n | None => m end
  | OUnregisterAll x => match nth_error e x with Some v => drop_all m v | None => m end
  | _ => m
  end.

(** the maps of a world *)
Definition registered (w : world) : maps := fun l n =>
  match nth_error (heap w) l with
  | Some (OReg es) => option_map snd (find (fun kv => String.eqb (fst kv) n) es)
  | _ => None
  end.

(** a call that takes the name [n] (of registry [l]) out *)
Definition removes (e : env) (c : op) (l : nat) (n : string) : Prop :=
  match c with
  | OUnregister x n' => exists v, nth_error e x = Some v /\ base v = Some l /\ full v n' = n
  | OUnregisterAll x => exists v, nth_error e x = Some v /\ base v = Some l
  | _ => False
  end.
(** a call that may put the name [n] in *)
Definition inserts (e : env) (c : op) (l : nat) (n : string) : Prop :=
  match c with
  | ORegister x n' _ | OGetOrRegister x n' _ | OGetOrRegisterFn x n' _ => exists v, nth_error e x = Some v /\ base v = Some l /\ full v n' = n
  | OMustRegister n' _ => l = default_reg /\ n' = n
  | ONewRegistered _ n' x | OGetOrRegisterX _ n' x => exists v, reg_or_default e x = Some v /\ base v = Some l /\ full v n' = n
  | _ => False
  end.

(** the meter a metric ticks, if it has one of its own *)
Definition meter_of (w : world) (v : val) : option nat :=
  match v with
  | VMeter k => Some k
  | VTimer l => match nth_error (heap w) l with Some (OTimer _ (VMeter k)) => Some k | _ => None end
  | _ => None
  end.

(** the value a call offers for registration: its argument, or what it returns *)
Definition offers (e : env) (c : op) (r : option (res rv)) (v : val) : Prop :=
  match c with
  | ORegister _ _ y | OMustRegister _ y => nth_error e y = Some v
  | _ => r = Some (Ok (RVal v))
  end.

(** the call stops meter [k]: Stop of it or of a timer that has it, or taking such
    a metric out of a registry *)
Definition stops_meter (e : env) (w : world) (c : op) (k : nat) : Prop :=
  match c with
  | OStop x => exists v, nth_error e x = Some v /\ meter_of w v = Some k
  | OUnregister x n => exists v i, nth_error e x = Some v /\ bound (registered w) v n = Some i /\ meter_of w i = Some k
  | OUnregisterAll x => exists v l n i, nth_error e x = Some v /\ base v = Some l /\ registered w l n = Some i /\ meter_of w i = Some k
  | _ => False
  end.
