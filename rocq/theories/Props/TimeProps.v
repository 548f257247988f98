(** Property C44: Timer.Time and Timer.UpdateSince. *)
From Coq Require Import ZArith List String Bool Lia Arith.
From Verif.Model Require Import GoInt GoFloat GoBase ExpDecay World TimeCall.
From Verif.Spec Require Import TimerSpec.
From Verif.Proofs Require Import WorldBase WorldStep ExpDecayProofs TimerHistory.
From Verif.Props Require Import SnapshotProps TimerProps.
Import ListNotations.
Local Open Scope nat_scope.
Local Open Scope list_scope.

Definition outcome (r : state * option (res rv)) : state * res unit := (fst r, match snd r with Some (Panic m) => Panic m | _ => Ok tt end).
Definition elapsed (o1 o2 : orc) : Z := (o_now o2 - o_now o1)%Z.

(** Time calls f exactly once and when f returns it does, in the state f left, exactly
    what Update of the time passed between just before and just after f does.
    (The difference of two clock readings is a Duration only if it is in range;
    time.Since saturates otherwise.) *)
Theorem C44_elapsed : forall mexp p x tl (f : behaviour) o1 o2 (st' : state), let st := reach mexp p in
  nth_error (snd st) x = Some (VTimer tl) -> f st = (st', Ok tt) -> nth_error (snd st') x = Some (VTimer tl) -> is_int64 (elapsed o1 o2) ->
  time_call mexp (VTimer tl) f o1 o2 st = outcome (step mexp st' (OUpdate x (elapsed o1 o2), o2)).
Proof.
  intros mexp p x tl f o1 o2 st' st _ F E R. unfold time_call, timer_begin. unfold bind, ask, ret. rewrite <- surjective_pairing, F.
  unfold World.step. cbn [fst snd World.call]. unfold obind. rewrite E. cbn [m_update cls]. unfold timer_end. unfold bind, ask, unit_rv, ret.
  assert (T : time_sub (o_now o2) (o_now o1) = elapsed o1 o2) by (unfold time_sub, elapsed, is_int64 in *; lia). rewrite T.
  unfold bind. destruct (timer_update mexp (elapsed o1 o2) (VTimer tl) o2 (fst st')) as [w [[]|]]; unfold outcome; cbn [fst snd yields]; rewrite ?app_nil_r; reflexivity.
Qed.
(** if f panics, Time panics with the same value, and has done nothing but what f did *)
Theorem C44_panic : forall mexp p tl (f : behaviour) o1 o2 (st' : state) msg, let st := reach mexp p in
  f st = (st', Panic msg) -> time_call mexp (VTimer tl) f o1 o2 st = (st', Panic msg).
Proof. intros mexp p tl f o1 o2 st' msg st F. unfold time_call, timer_begin. unfold bind, ask, ret. rewrite <- surjective_pairing, F. reflexivity. Qed.
(** NilTimer.Time never calls f, nor does TimerSnapshot.Time, which panics *)
Theorem C44_not_called : forall mexp p (f : behaviour) o1 o2 l, let st := reach mexp p in
  time_call mexp VNilTimer f o1 o2 st = (st, Ok tt) /\ time_call mexp (VTimerSnap l) f o1 o2 st = (st, Panic msg_snapshot).
Proof. intros. split; unfold time_call; cbn [timer_begin]; unfold ret, throw; now rewrite <- surjective_pairing. Qed.
(** UpdateSince(ts) is Update of the time passed since [ts] *)
Theorem C44_since : forall mexp p x tl ts o, let st := reach mexp p in
  nth_error (snd st) x = Some (VTimer tl) -> is_int64 (o_now o - ts) ->
  step mexp st (OUpdateSince x ts, o) = step mexp st (OUpdate x (o_now o - ts)%Z, o).
Proof.
  intros mexp p x tl ts o st E R. unfold World.step. cbn [fst snd World.call]. unfold obind, only. rewrite E. cbn [m_update cls class_eqb].
  assert (T : time_sub (o_now o) ts = (o_now o - ts)%Z) by (unfold time_sub, is_int64 in *; lia).
  unfold unit_rv, timer_update_since, timer_update. unfold bind, ask. rewrite T. reflexivity.
Qed.
(** One event: for a timer made by NewTimer (C43), if f makes the calls [q] and returns,
    Time returns, and Count has grown by the events of f plus exactly one. *)
Theorem C44_one_event : forall mexp p q0 q c o tl o1 o2 o3 (f : behaviour), let st := reach mexp p in let st1 := fst (step mexp st (c, o)) in let x := List.length (snd st) in let stf := run mexp st1 q0 in
  new_timer_call mexp st c o tl -> (slen (durations mexp tl st1 (q0 ++ q)) + 1 < 2 ^ 63)%Z -> f stf = (run mexp stf q, Ok tt) -> is_int64 (elapsed o1 o2) ->
  snd (time_call mexp (VTimer tl) f o1 o2 stf) = Ok tt /\
  snd (step mexp (fst (time_call mexp (VTimer tl) f o1 o2 stf)) (OCount x, o3)) = Some (Ok (RZ (slen (durations mexp tl st1 (q0 ++ q)) + 1))).
Proof.
  intros mexp p q0 q c o tl o1 o2 o3 f st st1 x stf M B F R.
  assert (St : forall q', run mexp st1 q' = reach mexp (p ++ (c, o) :: q')) by (intros; unfold st1, st, reach; rewrite run_app; reflexivity).
  assert (Ex : forall q', nth_error (snd (run mexp st1 q')) x = Some (VTimer tl)).
  { intros q'. apply run_env. destruct M as (_ & M & _). unfold st1, x. revert M. unfold World.step. cbn [fst snd]. destruct (World.call mexp (snd st) c) as [mm|]; [|discriminate]. destruct (mm o (fst st)) as [w [r|]]; cbn [fst snd]; [|discriminate]. intros X; inversion X; subst. cbn [yields is_metric cls]. now rewrite nth_error_app2, Nat.sub_diag by lia. }
  assert (E1 : time_call mexp (VTimer tl) f o1 o2 stf = outcome (step mexp (run mexp st1 (q0 ++ q)) (OUpdate x (elapsed o1 o2), o2))).
  { pose proof (C44_elapsed mexp (p ++ (c, o) :: q0) x tl f o1 o2 (run mexp stf q)) as K. cbv zeta in K. rewrite <- St in K. fold stf in K. rewrite K; auto; [unfold stf; now rewrite run_app|unfold stf; apply Ex|unfold stf; rewrite <- run_app; apply Ex]. }
  destruct (C43_records mexp p (q0 ++ q) c o tl x 0 (elapsed o1 o2) o2 M B (Ex _) (OUpdate x (elapsed o1 o2)) (or_introl eq_refl)) as [Hr Hc].
  rewrite E1. split; [unfold outcome; cbn [snd]; fold st in Hr; fold st1 in Hr; rewrite Hr; reflexivity|]. exact (Hc o3).
Qed.
(** the clock at 5 before and 12 after; f increments a counter (and updates the timer) *)
Example C44_example : forall mexp, let at_ t := MkOrc t 0 f_zero (fun _ => 0%Z) (fun _ => f_zero) (fun _ _ => []) [] in
  let p := [(ONew NTimer, orc0); (ONew NCounter, orc0)] in let st := reach mexp p in
  let f : behaviour := fun st => (fst (step mexp st (OInc 2 1, orc0)), Ok tt) in
  let r := time_call mexp (VTimer 9) f (at_ 5%Z) (at_ 12%Z) st in
  nth_error (snd st) 1 = Some (VTimer 9) /\ snd r = Ok tt /\ elapsed (at_ 5%Z) (at_ 12%Z) = 7%Z /\
  snd (step mexp (fst r) (OStat 1 SMax, orc0)) = Some (Ok (RZ 7)) /\ snd (step mexp (fst r) (OCount 2, orc0)) = Some (Ok (RZ 1)).
Proof. intros. repeat split. Qed.
