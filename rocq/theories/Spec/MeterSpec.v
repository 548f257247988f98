(** Specification of meters and the arbiter: what the observed actions say. *)
From Coq Require Import ZArith List Permutation.
From Verif.Model Require Import GoInt GoFloat Conc Ewma Meter.
From Verif.Spec Require Import Traces EwmaSpec.
Import ListNotations.
Open Scope Z_scope.

(** ** the set of live meters, from the observed insertions and removals *)
Definition inserted (ls : list mlabel) : list nat := flat_map (fun l => match l with LInserted id => [id] | _ => [] end) ls.
Definition deleted (ls : list mlabel) : list nat := flat_map (fun l => match l with LDeleted id => [id] | _ => [] end) ls.
Definition members (ls : list mlabel) : list nat :=
  filter (fun id => if in_dec Nat.eq_dec id (deleted ls) then false else true) (inserted ls).
Definition spawns (ls : list mlabel) : nat := length (filter (fun l => match l with LSpawn => true | _ => false end) ls).
(** rounds in progress *)
Definition rounds_begun (ls : list mlabel) : nat := length (filter (fun l => match l with LRound _ => true | _ => false end) ls).
Definition rounds_ended (ls : list mlabel) : nat := length (filter (fun l => match l with LRoundEnd => true | _ => false end) ls).
(** ticks of one meter *)
Definition ticks_begun (id : nat) (ls : list mlabel) : nat :=
  length (filter (fun l => match l with LTick i => Nat.eqb i id | _ => false end) ls).
Definition ticks_ended (id : nat) (ls : list mlabel) : nat :=
  length (filter (fun l => match l with LTicked i => Nat.eqb i id | _ => false end) ls).

(** ** amounts *)
Definition marked (id : nat) (ls : list mlabel) : list Z :=
  flat_map (fun l => match l with LMarked i n => if Nat.eqb i id then [n] else [] | _ => [] end) ls.
Definition sumz (l : list Z) : Z := fold_right Z.add 0 l.
(** Stops that won the compare-and-swap *)
Definition wins (id : nat) (ls : list mlabel) : nat :=
  length (filter (fun l => match l with LCas i true => Nat.eqb i id | _ => false end) ls).
Definition removals (id : nat) (ls : list mlabel) : nat :=
  length (filter (fun l => match l with LDeleted i => Nat.eqb i id | _ => false end) ls).

Definition which_eqb (a b : which) : bool := match a, b with A1, A1 | A5, A5 | A15, A15 => true | _, _ => false end.
(** what one meter's average (id, w) went through *)
Definition ewma_labels (id : nat) (w : which) (ls : list mlabel) : list elabel :=
  flat_map (fun l => match l with LEwma i v e => if (Nat.eqb i id && which_eqb v w)%bool then [e] else [] | _ => [] end) ls.
(** amounts given to one average *)
Definition feds (id : nat) (w : which) (ls : list mlabel) : list Z :=
  flat_map (fun l => match l with EFed n => [n] | _ => [] end) (ewma_labels id w ls).
(** the time constant of an average *)
Definition minutes (w : which) : Z := match w with A1 => 1 | A5 => 5 | A15 => 15 end.
(** the rates (bits) published for it, and the mean rates *)
Definition pubs (id : nat) (w : which) (ls : list mlabel) : list Z :=
  flat_map (fun l => match l with LPub i v b => if (Nat.eqb i id && which_eqb v w)%bool then [b] else [] | _ => [] end) ls.
Definition means (id : nat) (ls : list mlabel) : list Z :=
  flat_map (fun l => match l with LMean i b => if Nat.eqb i id then [b] else [] | _ => [] end) ls.

(** an action of a tick of meter id *)
Definition tick_action (id : nat) (l : mlabel) : Prop :=
  match l with
  | LTick i | LTicked i => i = id
  | LEwma i _ (EFed _) => False
  | LEwma i _ _ => i = id
  | LRound ids => In id ids
  | _ => False
  end.

(** ** the outline of a call: which stores happened, in order *)
Inductive act :=
| AMarked (id : nat) (n : Z) | ASkipped (id : nat) (n : Z) | AFed (id : nat) (w : which) (n : Z)
| AStored (id : nat) (w : which) | APub (id : nat) (w : which) | AMean (id : nat)
| ACas (id : nat) (won : bool) | AIns (id : nat) | ADel (id : nat)
| ARound (ids : list nat) | ABegin (id : nat) | AEnd (id : nat) | ARoundEnd.
Definition act_of (l : mlabel) : list act :=
  match l with
  | LMarked id n => [AMarked id n] | LSkipped id n => [ASkipped id n]
  | LEwma id w (EFed n) => [AFed id w n]
  | LEwma id w (ERateInit _) | LEwma id w (ERateUpd _) => [AStored id w]
  | LEwma _ _ _ => []
  | LPub id w _ => [APub id w] | LMean id _ => [AMean id]
  | LCas id b => [ACas id b] | LInserted id => [AIns id] | LDeleted id => [ADel id]
  | LSpawn => []
  | LRound ids => [ARound ids] | LTick id => [ABegin id] | LTicked id => [AEnd id] | LRoundEnd => [ARoundEnd]
  end.
Definition acts (ls : list mlabel) : list act := flat_map act_of ls.

Definition publish_acts (id : nat) : list act := [APub id A1; APub id A5; APub id A15; AMean id].
Definition mark_acts (id : nat) (n : Z) : list act :=
  [AMarked id n; AFed id A1 n; AFed id A5 n; AFed id A15 n] ++ publish_acts id.
Definition tick_acts (id : nat) : list act :=
  [ABegin id; AStored id A1; AStored id A5; AStored id A15] ++ publish_acts id ++ [AEnd id].

(** what a completed call has done *)
Definition call_done (op : meter_op) (done : list act) (r : meter_ret) : Prop :=
  match op with
  | MNew => exists id, r = MHandle id /\ done = [AIns id]
  | MMark id n => r = MUnit /\ (done = [ASkipped id n] \/ done = mark_acts id n)
  | MStop id => r = MUnit /\ (done = [ACas id false] \/ done = [ACas id true; ADel id])
  | MTickAll _ => r = MUnit /\ exists ids order, Permutation order ids /\ NoDup ids /\
      done = ARound ids :: flat_map tick_acts order ++ [ARoundEnd]
  | _ => done = []
  end.

(** v is a rate (id, w) had at some moment in ls: 0, or one it stored *)
Definition was_rate (id : nat) (w : which) (ls : list mlabel) (v : f64) : Prop :=
  exists b, (b = 0 \/ In b (rate_stores (ewma_labels id w ls))) /\ v = rate_of b.

(** the goroutine of an event *)
Definition who {L Op R} (e : event L Op R) : nat := match e with EInv t _ | EStep t _ | ERes t _ => t end.
(** during its call of op in progress at the end of tr, goroutine t could see
    the value v of f at one moment *)
Definition seen {L Op R} (t : nat) (op : Op) (tr : list (event L Op R)) (f : list L -> Z) (v : Z) : Prop :=
  exists before after, tr = before ++ after /\ open_call t before = Some (op, []) /\
    (forall e, In e after -> who e <> t) /\ v = f (labels before).
Definition count_at (id : nat) (ls : list mlabel) : Z := wrap64 (sumz (marked id ls)).
Definition pub_at (id : nat) (w : which) (ls : list mlabel) : Z := last (pubs id w ls) 0.
Definition mean_at (id : nat) (ls : list mlabel) : Z := last (means id ls) 0.
(** what the reading methods may return *)
Definition read_ok (t : nat) (op : meter_op) (tr : list (event mlabel meter_op meter_ret)) (r : meter_ret) : Prop :=
  match op with
  | MCount id => exists n, r = MInt n /\ seen t op tr (count_at id) n
  | MRate id w => exists b, r = MFloat (float64frombits b) /\ seen t op tr (pub_at id w) b
  | MRateMean id => exists b, r = MFloat (float64frombits b) /\ seen t op tr (mean_at id) b
  | MSnapshot id => exists c r1 r5 r15 m, r = MSnap c r1 r5 r15 m /\ seen t op tr (count_at id) c /\
      seen t op tr (pub_at id A1) r1 /\ seen t op tr (pub_at id A5) r5 /\ seen t op tr (pub_at id A15) r15 /\
      seen t op tr (mean_at id) m
  | _ => True
  end.

(** ticks of meter id do not overlap each other or a Mark of id *)
Definition apart (id : nat) (tr : list (event mlabel meter_op meter_ret)) : Prop :=
  forall pre post, tr = pre ++ post ->
    (ticks_begun id (labels pre) <= S (ticks_ended id (labels pre)))%nat /\
    (ticks_begun id (labels pre) <> ticks_ended id (labels pre) ->
     forall t n ls, open_call t pre <> Some (MMark id n, ls)).
(** goroutine t has a call in progress that can be made: its handle exists *)
Definition valid_call (t : nat) (tr : list (event mlabel meter_op meter_ret)) : Prop :=
  match open_call t tr with
  | Some (MMark id _, _) | Some (MStop id, _) | Some (MCount id, _) | Some (MRate id _, _) | Some (MRateMean id, _) | Some (MSnapshot id, _) =>
      In id (inserted (labels tr))
  | Some _ => True
  | None => False
  end.
