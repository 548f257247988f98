(** Property C74: the average as one object used by several goroutines. *)
From Coq Require Import ZArith List Arith Bool Lia.
From Verif.Model Require Import GoInt GoFloat Conc Ewma.
From Verif.Spec Require Import Linearizability Traces EwmaSpec.
From Verif.Proofs Require Import IntFacts FloatFacts LinProofs PcProofs LogFacts EwmaSeq EwmaConc LinSearch EwmaLin.
From Verif.Props Require Import EwmaProps.
Import ListNotations.
Open Scope Z_scope.

(** ** if nothing but Updates overlaps a Tick, every call takes effect at one moment between its
    call and its return *)
Theorem C74_linearizable : forall alpha sched, let tr := snd (cexec ewma_body (NewEWMA alpha) sched) in
  ticks_apart tr -> linearizable (average_apply alpha) ([], 0) (history tr).
Proof. exact ewma_linearizable. Qed.
Print Assumptions C74_linearizable.

(** checking [ticks_apart] of a given trace *)
Definition event_of (e : event elabel ewma_op ewma_ret) : nat := match e with EInv t _ => t | EStep t _ => t | ERes t _ => t end.
Lemma open_none (tr : list (event elabel ewma_op ewma_ret)) t : (forall e, In e tr -> event_of e <> t) -> open_call t tr = None.
Proof.
  induction tr as [|e tr IH] using rev_ind; intros H; [reflexivity|]. specialize (IH (fun x Hx => H x (in_or_app _ _ _ (or_introl Hx)))).
  assert (N : event_of e <> t) by (apply H, in_or_app; right; now left). destruct e as [u op|u l|u r]; cbn in N; unfold open_call in *; rewrite call_log_snoc; cbn; destruct (Nat.eqb_spec u t); try congruence; exact IH.
Qed.
Definition apart_now (n : nat) (a : list (event elabel ewma_op ewma_ret)) : bool :=
  forallb (fun t => match open_call t a with
                    | Some (WTick, _) => forallb (fun u => Nat.eqb t u || match open_call u a with Some (WUpdate _, _) | None => true | _ => false end) (seq 0 n)
                    | _ => true end) (seq 0 n).
Definition apart_check (n : nat) (tr : list (event elabel ewma_op ewma_ret)) : bool :=
  forallb (fun e => Nat.ltb (event_of e) n) tr && forallb (fun k => apart_now n (firstn k tr)) (seq 0 (S (length tr))).
Lemma apart_check_ok n tr : apart_check n tr = true -> ticks_apart tr.
Proof.
  unfold apart_check. rewrite andb_true_iff, !forallb_forall. intros [Hn Hk] a b t u ls op ls' -> Ne Ot Ou.
  assert (B : forall v x, open_call v a = Some x -> (v < n)%nat).
  { intros v x H. destruct (Nat.lt_ge_cases v n) as [L|L]; [exact L|]. rewrite open_none in H; [discriminate H|]. intros e He <-. specialize (Hn e (in_or_app _ _ _ (or_introl He))). apply Nat.ltb_lt in Hn. lia. }
  specialize (Hk (length a)). rewrite firstn_app, firstn_all, Nat.sub_diag in Hk. cbn [firstn] in Hk. rewrite app_nil_r in Hk. assert (R : In (length a) (seq 0 (S (length (a ++ b))))) by (apply in_seq; rewrite app_length; lia). specialize (Hk R).
  unfold apart_now in Hk. rewrite forallb_forall in Hk. specialize (Hk t). rewrite Ot in Hk. assert (Rt : In t (seq 0 n)) by (apply in_seq; pose proof (B _ _ Ot); lia). specialize (Hk Rt). rewrite forallb_forall in Hk. specialize (Hk u).
  assert (Ru : In u (seq 0 n)) by (apply in_seq; pose proof (B _ _ Ou); lia). specialize (Hk Ru). destruct (Nat.eqb_spec t u); [contradiction|]. rewrite Ou in Hk. destruct op; cbn in Hk; try discriminate Hk. eauto.
Qed.

(* goroutine 3 adds 7 between the Tick's load and its subtraction, goroutine 2 asks before and after *)
Definition ex74 : list (choice ewma_op) :=
  [Call 3 (WUpdate 5); Run 3; Run 3; Call 2 WRate; Run 2; Run 2; Call 1 WTick; Run 1; Run 1; Run 1; Run 1; Run 1;
   Call 3 (WUpdate 7); Run 3; Run 1; Run 1; Run 1; Run 1; Run 3; Call 2 WRate; Run 2; Run 2].
Example C74_linearizable_example : let tr := snd (cexec ewma_body (NewEWMA half) ex74) in
  ticks_apart tr /\ calls tr = [WUpdate 5; WRate; WTick; WUpdate 7; WRate] /\
  map (fun c => match c_ret c with WVal v => float64bits v | _ => 0 end) (done_calls 2 tr) = [0; float64bits (f_of_int 1)].
Proof. intros tr. split; [apply (apart_check_ok 4); vm_compute; reflexivity|]. split; vm_compute; reflexivity. Qed.

(** ** a Rate that overlaps a Tick spoils this even if one goroutine does all the ticking: after an
    Update of 10, the Tick has taken 10 and not yet stored the rate when another Update of 5 and a
    Rate of 0 come and go.  The Rate says that the Tick has not happened, so it should count 15. *)
Definition overtaken : list (choice ewma_op) :=
  [Call 3 (WUpdate 10); Run 3; Run 3; Call 1 WTick; Run 1; Run 1; Run 1; Run 1; Run 1; Run 1;
   Call 3 (WUpdate 5); Run 3; Run 3; Call 2 WRate; Run 2; Run 2; Run 1; Run 1; Run 1; Call 2 WRate; Run 2; Run 2].
Fixpoint eq_zs (a b : list Z) : bool :=
  match a, b with [], [] => true | x :: a', y :: b' => (x =? y) && eq_zs a' b' | _, _ => false end.
Definition eq_q (a b : list Z * Z) : bool := eq_zs (fst a) (fst b) && (snd a =? snd b).
Definition eq_op (a b : ewma_op) : bool :=
  match a, b with WUpdate n, WUpdate m => n =? m | WTick, WTick | WRate, WRate | WSnapshot, WSnapshot => true | _, _ => false end.
Definition eq_ret (a b : ewma_ret) : bool :=
  match a, b with WNone, WNone => true | WVal v, WVal w | WSnap v, WSnap w => float64bits v =? float64bits w | _, _ => false end.
Lemma eq_q_ok a b : eq_q a b = true -> a = b.
Proof.
  destruct a as [l n], b as [m k]. unfold eq_q. cbn [fst snd]. rewrite andb_true_iff, Z.eqb_eq. intros [H ->]. f_equal. revert m H. induction l as [|x l IH]; intros [|y m] H; try discriminate H; [reflexivity|].
  cbn in H. apply andb_prop in H. destruct H as [H1 H2]. apply Z.eqb_eq in H1. f_equal; auto.
Qed.
Lemma eq_op_ok a b : eq_op a b = true -> a = b.
Proof. destruct a, b; intros H; try discriminate H; try reflexivity. cbn in H. apply Z.eqb_eq in H. now subst. Qed.
Lemma eq_ret_ok a b : eq_ret a b = true -> a = b.
Proof. destruct a, b; intros H; try discriminate H; try reflexivity; cbn in H; apply Z.eqb_eq in H; f_equal; now apply f64_eq_bits. Qed.
Lemma eq_ret_refl a : eq_ret a a = true.
Proof. destruct a; cbn; auto using Z.eqb_refl. Qed.
Theorem C74_single_ticker_refuted : ~ (forall alpha t0 sched, let tr := snd (cexec ewma_body (NewEWMA alpha) sched) in
  single_ticker t0 tr -> sane_feeds (labels tr) -> linearizable (average_apply alpha) ([], 0) (history tr)).
Proof.
  intros H. specialize (H half 1%nat overtaken). cbv zeta in H. revert H.
  assert (Sg : single_ticker 1 (snd (cexec ewma_body (NewEWMA half) overtaken))) by (apply single_check; vm_compute; reflexivity).
  assert (Sn : sane_feeds (labels (snd (cexec ewma_body (NewEWMA half) overtaken)))) by (apply sane_check; vm_compute; reflexivity).
  intros H. specialize (H Sg Sn). revert H. apply (not_linearizable (average_apply half) eq_q eq_op eq_ret eq_q_ok eq_op_ok eq_ret_ok eq_ret_refl 4 6). vm_compute. reflexivity.
Qed.
Print Assumptions C74_single_ticker_refuted.
Example C74_single_ticker_example : let tr := snd (cexec ewma_body (NewEWMA half) overtaken) in
  calls tr = [WUpdate 10; WTick; WUpdate 5; WRate; WRate] /\
  map (fun c => match c_ret c with WVal v => float64bits v | _ => 0 end) (done_calls 2 tr) = [0; float64bits (f_of_int 2)].
Proof. split; vm_compute; reflexivity. Qed.

(** ** what still holds with one ticking goroutine: at some moment of the call the answer was the
    average after k ticks, no fewer than had returned and no more than had been called *)
Theorem C74_rate : forall alpha t0 sched t j c v, let tr := snd (cexec ewma_body (NewEWMA alpha) sched) in
  single_ticker t0 tr -> sane_feeds (labels tr) ->
  nth_error (done_calls t tr) j = Some c -> c_ret c = WVal v \/ c_ret c = WSnap v -> rate_during alpha t0 t j tr v.
Proof. exact rates_during. Qed.
Print Assumptions C74_rate.
Example C74_rate_example : let tr := snd (cexec ewma_body (NewEWMA half) overtaken) in
  single_ticker 1 tr /\ sane_feeds (labels tr) /\
  exists c v, nth_error (done_calls 2 tr) 0 = Some c /\ c_ret c = WVal v /\ rate_during half 1 2 0 tr v.
Proof.
  intros tr. assert (Sg : single_ticker 1 tr) by (apply single_check; vm_compute; reflexivity).
  assert (Sn : sane_feeds (labels tr)) by (apply sane_check; vm_compute; reflexivity).
  split; [exact Sg|]. split; [exact Sn|].
  assert (E : match nth_error (done_calls 2 tr) 0 with Some c => match c_ret c with WVal _ => true | _ => false end | None => false end = true) by (vm_compute; reflexivity).
  destruct (nth_error (done_calls 2 tr) 0) as [c|] eqn:Hc; [|discriminate E]. destruct (c_ret c) as [|v|v] eqn:Hv; try discriminate E.
  exists c, v. split; [reflexivity|]. split; [exact Hv|]. apply (C74_rate half 1 overtaken 2 0 c v Sg Sn Hc). now left.
Qed.
