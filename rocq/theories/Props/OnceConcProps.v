(** C76: the runtime's and the debug metrics are registered by several goroutines. *)
From Coq Require Import List String.
From Verif.Model Require Import Conc World Runtime OnceConc.
From Verif.Spec Require Import Traces OnceConcSpec.
From Verif.Proofs Require Import OnceConcProofs.
Import ListNotations.
Local Open Scope string_scope.
Local Open Scope list_scope.

(** ** Whatever the goroutines do, what has been created and registered is the beginning of one
    registration, with the registry of one of the calls *)
Theorem C76_once : forall g sched, let tr := snd (once_exec g sched) in
  registered tr = [] \/ exists r later, In (Register r) (calls tr) /\ plan g r = registered tr ++ later.
Proof. exact registered_prefix. Qed.
Print Assumptions C76_once.
(** ... and all of it as soon as any call of the Register function has ended, be it another one *)
Theorem C76_complete : forall g sched, let tr := snd (once_exec g sched) in register_ended tr ->
  exists r, In (Register r) (calls tr) /\ registered tr = plan g r.
Proof. exact registered_all. Qed.
Print Assumptions C76_complete.
(** a call panics only if its registry is nil, and then no other call registers anything *)
Theorem C76_panics : forall g sched t c r, let tr := snd (once_exec g sched) in
  In c (done_calls t tr) -> c_op c = Register r -> c_ret c = Panicked -> r = None /\ registered tr = map Created (creates g).
Proof.
  intros g sched t c r tr Hc Hr Hp. destruct (panics_only g sched t c r Hc Hr Hp) as (-> & E). split; [reflexivity|]. unfold tr. rewrite E. unfold plan. apply app_nil_r.
Qed.
Print Assumptions C76_panics.

(** ** A capture calls all its metrics, or panics at the first one that is nil *)
Theorem C76_capture : forall g sched t c k, In c (done_calls t (snd (once_exec g sched))) -> c_op c = Capture k ->
  (c_ret c = Returned /\ c_labels c = map Used (uses g k)) \/
  (c_ret c = Panicked /\ exists pre f post, uses g k = pre ++ f :: post /\ c_labels c = map Used pre ++ [UsedNil f]).
Proof. exact capture_outcome. Qed.
Print Assumptions C76_capture.
(** its metrics are those of the captures of Runtime.v *)
Definition target (c : op) : nat := match c with OUpdate x _ | OUpdateF x _ | OUpdateSince x _ => x | _ => 0 end.
Theorem C76_uses : forall f p r last gc t,
  map target (capture f p r t) = map f (uses RuntimeFamily (List.length (pauses (pv_numGC p) (rd_mem r)))) /\
  exists k, map target (dbg_capture f last gc t) = map f (uses DebugFamily k).
Proof.
  intros f p r last gc t. split.
  - unfold capture, uses. cbv zeta. rewrite !map_app. f_equal. f_equal. rewrite !map_map. cbn [target]. generalize (pauses (pv_numGC p) (rd_mem r)). intros l. induction l as [|x l IH]; [reflexivity|]. cbn [map List.length repeat]. now rewrite IH.
  - unfold dbg_capture. destruct (match last with Some n => _ | None => false end); [exists 0; reflexivity|]. destruct (gc_Pause gc); [exists 0|exists 1]; reflexivity.
Qed.
Print Assumptions C76_uses.
(** once a call of the Register function has ended, no capture finds a nil metric *)
Theorem C76_after : forall g sched a t f b, snd (once_exec g sched) = a ++ EStep t (UsedNil f) :: b -> ~ register_ended a.
Proof. intros g sched a t f b E (u & c & r & Hc & Hr). exact (no_nil_later g sched a t f b u c r E Hc Hr). Qed.
Print Assumptions C76_after.
(** that the call has begun is not enough: ReadMemStats and ReadGCStats are created last and used
    first *)
Definition overlapping : list (choice once_op) := [Call 1 (Register (Some 0)); Run 1; Run 1; Run 1; Run 1; Run 1; Call 2 (Capture 1); Run 2; Run 2].
Theorem C76_overlap_refuted : ~ (forall g sched a t k b c, snd (once_exec g sched) = a ++ EInv t (Capture k) :: b ->
  In (Register (Some 0)) (calls a) -> done_calls t a = [] -> In c (done_calls t (snd (once_exec g sched))) -> c_ret c = Returned).
Proof.
  intros H. specialize (H RuntimeFamily overlapping [EInv 1 (Register (Some 0)); EStep 1 (Created "Alloc"); EStep 1 (Created "BuckHashSys")] 2 1 [EStep 2 (UsedNil "ReadMemStats"); ERes 2 Panicked] (MkCall (Capture 1) [UsedNil "ReadMemStats"] Panicked)).
  discriminate H; [vm_compute; reflexivity|now left|reflexivity|vm_compute; now left].
Qed.
Print Assumptions C76_overlap_refuted.

(** ** Nobody waits for ever: as long as there is a call some goroutine can go on *)
Theorem C76_no_deadlock : forall g sched t, let c := fst (once_exec g sched) in th c t <> Idle -> exists u, can_move c u.
Proof. exact moves. Qed.
Print Assumptions C76_no_deadlock.

(** ** Two goroutines register, with different registries; the second waits for the first, and a
    capture is made while the first one has still to return *)
Definition ex76 : list (choice once_op) :=
  [Call 1 (Register (Some 0)); Call 2 (Register (Some 5)); Run 1; Run 2; Run 2; Run 1; Run 2] ++ repeat (Run 2) 13 ++ [Run 1; Run 1] ++ [Call 3 (Capture 1)] ++ repeat (Run 3) 10.
Example C76_example : let tr := snd (once_exec DebugFamily ex76) in
  register_ended tr /\ registered tr = plan DebugFamily (Some 5) /\ done_calls 1 tr = [] /\
  done_calls 3 tr = [MkCall (Capture 1) [Used "ReadGCStats"; Used "LastGC"; Used "NumGC"; Used "Pause"; Used "PauseTotal"] Returned].
Proof.
  cbv zeta. assert (D : map c_op (done_calls 2 (snd (once_exec DebugFamily ex76))) = [Register (Some 5)]) by (vm_compute; reflexivity).
  split; [|split; [vm_compute; reflexivity|split; vm_compute; reflexivity]].
  destruct (done_calls 2 (snd (once_exec DebugFamily ex76))) as [|c l] eqn:E; [discriminate D|]. exists 2, c, (Some 5). rewrite E. split; [now left|]. now injection D.
Qed.
(** with a nil registry the first call panics, and the next one does nothing *)
Example C76_nil_example : let tr := snd (once_exec DebugFamily ([Call 1 (Register None)] ++ repeat (Run 1) 12 ++ [Call 2 (Register (Some 5)); Run 2; Run 2])) in
  map c_ret (done_calls 1 tr) = [Panicked] /\ done_calls 2 tr = [MkCall (Register (Some 5)) [] Returned] /\ registered tr = map Created ["LastGC"; "NumGC"; "Pause"; "PauseTotal"; "ReadGCStats"].
Proof. vm_compute. repeat split. Qed.
