(** C33, C34 and C35: a registry shared by goroutines. *)
From Coq Require Import List String Arith Bool Lia Permutation.
From Verif.Model Require Import Conc Meter RegistryConc.
From Verif.Spec Require Import Linearizability Traces RegistryConcSpec.
From Verif.Proofs Require Import LinProofs PcProofs LogFacts LockDisc RegistryCert RegistryOps RegistryMain LinSegments.
Import ListNotations.
Local Open Scope list_scope.
Local Open Scope nat_scope.

(** executions that start with the map m *)
Definition rexec (m : entries) (sched : list (choice rop)) := cexec rbody (rstate_of m) sched.

Lemma free0 m : reg_lock (rstate_of m) = lock_init /\ arb_lock (rstate_of m) = lock_init.
Proof. split; reflexivity. Qed.

Lemma lin_inv m sched : NoDup (map fst m) -> Forall simple (calls (snd (rexec m sched))) ->
  exists G ts, ginv true true lin_post (rstate_of m) sched (fst (rexec m sched)) (snd (rexec m sched)) G ts.
Proof. intros W H. apply (ginv_exec true true lin_post (rstate_of m) simple (free0 m) W); auto. apply lin_cert. Qed.
Lemma gen_inv m sched : NoDup (map fst m) ->
  exists G ts, ginv false false gen_post (rstate_of m) sched (fst (rexec m sched)) (snd (rexec m sched)) G ts.
Proof. intros W. apply (ginv_exec false false gen_post (rstate_of m) (fun _ => True) (free0 m) W); [intros; apply gen_cert|]. apply Forall_forall. auto. Qed.
Lemma strict_inv m sched : NoDup (map fst m) -> Forall polite (calls (snd (rexec m sched))) ->
  exists G ts, ginv true false (fun _ _ => True) (rstate_of m) sched (fst (rexec m sched)) (snd (rexec m sched)) G ts.
Proof. intros W H. apply (ginv_exec true false (fun _ _ => True) (rstate_of m) polite (free0 m) W); auto. apply strict_cert. Qed.

(** ** C33 *)
(** Every history is linearizable to the finite map with its log of constructed values,
    and once all calls have returned that is what the registry contains. *)
Theorem C33_linearizable : forall (m : list (string * mv)) (sched : list (choice rop)),
  NoDup (map fst m) -> Forall simple (calls (snd (rexec m sched))) ->
  exists l q f, erase l = history (snd (rexec m sched)) /\ valid rapply (m, []) (fun _ => TIdle) l q f /\
    (quiet (fst (rexec m sched)) -> q = (metrics (sh (fst (rexec m sched))), made (sh (fst (rexec m sched))))).
Proof.
  intros m sched W H. destruct (lin_inv m sched W H) as (G & ts & I). destruct (gi_lin _ _ _ _ _ _ _ _ _ I eq_refl) as (l & f & q & E1 & E2 & E3 & E4 & E5).
  exists l, q, f. split; [exact E1|]. split; [exact E2|]. intros Q. apply E4.
  destruct (held (reg_lock (sh (fst (rexec m sched))))) eqn:Hh; auto. exfalso.
  destruct (held_writer RegL _ _ _ (gi_locks _ _ _ _ _ _ _ _ _ I RegL) Hh) as (t & _ & Wt). pose proof (gi_cert _ _ _ _ _ _ _ _ _ I t) as C. rewrite (Q t) in C. rewrite C in Wt. discriminate.
Qed.
Corollary C33_linearizable' m sched : NoDup (map fst m) -> Forall simple (calls (snd (rexec m sched))) ->
  linearizable rapply (m, []) (history (snd (rexec m sched))).
Proof. intros W H. destruct (C33_linearizable m sched W H) as (l & q & f & E & V & _). exists l, q, f. auto. Qed.

Lemma bound_app m n v k : bound (m ++ [(k, v)]) n = match bound m n with Some x => Some x | None => if String.eqb k n then Some v else None end.
Proof.
  unfold bound. induction m as [|[k' v'] m IH]; cbn; [destruct (String.eqb k n); reflexivity|]. destruct (String.eqb k' n); [reflexivity|exact IH].
Qed.
Lemma bound_new m n v k : bound (bind_new m k v) n = match bound m n with Some x => Some x | None => if String.eqb k n then match v_kind v with KNone => None | _ => Some v end else None end.
Proof.
  unfold bind_new. destruct (v_kind v) eqn:E; rewrite ?bound_app; destruct (bound m n); auto; now destruct (String.eqb k n).
Qed.
Lemma bound_remove m n k : k <> n -> bound (filter (fun kv => negb (String.eqb (fst kv) k)) m) n = bound m n.
Proof.
  intros N. unfold bound. induction m as [|[k' v'] m IH]; [reflexivity|]. cbn. destruct (String.eqb_spec k' k) as [->|N'].
  - cbn. destruct (String.eqb_spec k n); [congruence|]. exact IH.
  - cbn. destruct (String.eqb k' n); [reflexivity|exact IH].
Qed.

(** All calls of GetOrRegister for one name that begin and end within a stretch of an
    execution in which nobody unregisters the name return the same metric. *)
Theorem C33_one_winner : forall m sched n tr1 tr2 tr3,
  NoDup (map fst m) -> Forall simple (calls (snd (rexec m sched))) ->
  snd (rexec m sched) = tr1 ++ tr2 ++ tr3 ->
  (forall t op ls, open_call t tr1 = Some (op, ls) -> ~ unbinds n op) ->
  (forall t op, In (EInv t op) tr2 -> ~ unbinds n op) ->
  exists w, forall t c, In c (done_calls t tr2) -> gets_or_registers n (c_op c) -> c_ret c = RtVal w.
Proof.
  intros m sched n tr1 tr2 tr3 W H E Ho Hi. pose proof (C33_linearizable' m sched W H) as L. rewrite E in L.
  set (good := fun (q : rq) (op : rop) (r : rret) => gets_or_registers n op -> exists x, bound (fst q) n = Some x /\ r = RtVal x).
  destruct (middle_calls rapply (unbinds n) good) with (q0 := (m, [] : list mv)) (tr1 := tr1) (tr2 := tr2) (tr3 := tr3) as (q & Hq); auto.
  - intros [m0 d] op q' r _ A (v & Hv & [->|(mk & ->)]); cbn in A.
    + destruct (bound m0 n) as [x|] eqn:Eb; injection A as <- <-; [exists x; auto|]. exists v. cbn. rewrite bound_new, Eb, String.eqb_refl. destruct (v_kind v); auto. congruence.
    + destruct (bound m0 n) as [x|] eqn:Eb; injection A as <- <-; [exists x; auto|]. exists v. cbn. rewrite bound_new, Eb, String.eqb_refl. destruct (v_kind v); auto. congruence.
  - intros [m0 d] op q' r op' r' Nb A G Hg. destruct (G Hg) as (x & Ex & ->). exists x. split; auto. cbn in Ex.
    destruct op as [k|k v|k v|k v mk|k|ord|ord cb|ord chk|v|v|]; cbn in A; try (injection A as <- <-; exact Ex).
    + destruct (bound m0 k); injection A as <- <-; auto. cbn. now rewrite bound_new, Ex.
    + destruct (bound m0 k); injection A as <- <-; auto. cbn. now rewrite bound_new, Ex.
    + destruct (bound m0 k); injection A as <- <-; auto. cbn. now rewrite bound_new, Ex.
    + injection A as <- <-. cbn. rewrite bound_remove; auto.
    + destruct (Nb I).
  - destruct (bound (fst q) n) as [w|] eqn:Eb.
    + exists w. intros t c Hc Hg. destruct (Hq t c Hc Hg) as (x & Ex & ->). congruence.
    + exists (MkV 0 KNone). intros t c Hc Hg. destruct (Hq t c Hc Hg) as (x & Ex & _). congruence.
Qed.

(** The constructors that have run are those logged; a call runs its own constructor at
    most once, and returns what it made. *)
Theorem C33_constructor : forall m sched,
  NoDup (map fst m) -> Forall simple (calls (snd (rexec m sched))) ->
  made (sh (fst (rexec m sched))) = made_in (labels (snd (rexec m sched))) /\
  forall t c, In c (done_calls t (snd (rexec m sched))) ->
    made_in (c_labels c) = [] \/ exists n v mk, c_op c = RGetOrRegisterFn n v mk /\ made_in (c_labels c) = [v] /\ c_ret c = RtVal v.
Proof.
  intros m sched W H. split.
  - clear H. induction sched as [|ch sched IH] using rev_ind; [reflexivity|].
    destruct (gen_inv m sched W) as (G & ts & I). unfold rexec in *. rewrite cexec_snoc. destruct (cexec rbody (rstate_of m) sched) as [c tr]. cbn [fst snd] in *.
    unfold cstep. destruct ch as [t op|t].
    + destruct (th c t); cbn [fst snd sh]; rewrite ?app_nil_r; auto. now rewrite labels_app, made_in_app, IH, app_nil_r.
    + pose proof (gi_cert _ _ _ _ _ _ _ _ _ I t) as C. destruct (th c t) as [|op [r|e u l k]]; cbn [fst snd sh]; rewrite ?app_nil_r; auto.
      * now rewrite labels_app, made_in_app, IH, app_nil_r.
      * destruct C as [(a & -> & -> & -> & La & _) _]. destruct (en a (sh c)); cbn [fst snd sh]; rewrite ?app_nil_r; auto. rewrite labels_app, made_in_app, labels_steps, <- IH.
        destruct a as [l0|l0|l0|l0|l0| | | | | |l0|]; try destruct l0; cbn; rewrite ?app_nil_r; try reflexivity. destruct La.
  - intros t c Hc. destruct (lin_inv m sched W H) as (G & ts & I). apply In_nth_error in Hc. destruct Hc as (j & Hj).
    destruct (gi_done _ _ _ _ _ _ _ _ _ I t j c Hj) as (g & A1 & A2 & A3 & _). unfold lin_post in A3. rewrite A1, A2 in A3. destruct (c_op c); auto. destruct A3 as [A3|[A3 A4]]; auto. right. exists n, v, mk. auto.
Qed.

(** ** C34 *)
(** The list that the j-th call of t returns as iterated over, when it is a call of Each:
    it is the whole map, in some order, at an instant when that call was in progress.  The
    callback is called for its pairs, in that order, and nothing else (calls of Each made by
    the callbacks log their own pairs, so those are excluded here).  The callbacks of this
    and of all other calls may do anything. *)
Theorem C34_snapshot : forall m sched t j c ord cb,
  NoDup (map fst m) ->
  nth_error (done_calls t (snd (rexec m sched))) j = Some c -> c_op c = REach ord cb ->
  exists l p1 p2, c_ret c = RtList l /\
    sched = p1 ++ p2 /\ Permutation l (metrics (sh (fst (rexec m p1)))) /\
    List.length (done_calls t (snd (rexec m p1))) = j /\ (exists ls, open_call t (snd (rexec m p1)) = Some (REach ord cb, ls)) /\
    ((forall n v, no_each_cb (cb n v)) -> filter is_call (c_labels c) = map (fun kv => LCall (fst kv) (snd kv)) l).
Proof.
  intros m sched t j c ord cb W Hc Eop. destruct (gen_inv m sched W) as (G & ts & I).
  destruct (gi_done _ _ _ _ _ _ _ _ _ I t j c Hc) as (g & A1 & A2 & A3 & A4). unfold gen_post in A3. rewrite A1, Eop in A3.
  destruct A3 as (mm & ms & l & B1 & B2 & B3 & B4). rewrite B1 in A4. inversion A4 as [|x y In1 In2]; subst. destruct In1 as (p1 & p2 & C1 & C2 & C3 & C4).
  exists l, p1, p2. rewrite Eop in C4. rewrite A2 in B4. fold (rexec m p1) in *. rewrite C2. repeat match goal with |- _ /\ _ => split end; auto.
Qed.

Lemma sumf_zero f G ts : (forall t, f (G t) = 0) -> sumf f G ts = 0.
Proof. intros H. induction ts as [|x ts IH]; cbn; [reflexivity|]. fold (sumf f G ts). now rewrite H, IH. Qed.
Lemma lock_ok_free l s G ts : lock_ok l s G ts -> (forall t, hof l (G t) = hfree) -> lock_of l s = lock_init.
Proof.
  intros (H1 & H2 & H3 & H4 & H5) F. rewrite !sumf_zero in * by (intros; rewrite F; reflexivity).
  destruct (lock_of l s) as [a h r]. cbn in *. unfold lock_init. f_equal; [destruct a|destruct h|]; cbn in *; congruence.
Qed.
(** No lock is held when the callback is called: when only this goroutine is in a call, the
    locks are as they were initially. *)
Theorem C34_no_lock : forall m sched t n v,
  NoDup (map fst m) -> Forall polite (calls (snd (rexec m sched))) ->
  In (LCall n v) (next_labels (fst (rexec m sched)) t) ->
  (forall u, u <> t -> th (fst (rexec m sched)) u = Idle) ->
  reg_lock (sh (fst (rexec m sched))) = lock_init /\ arb_lock (sh (fst (rexec m sched))) = lock_init.
Proof.
  intros m sched t n v W H Hl Ho. destruct (strict_inv m sched W H) as (G & ts & I). unfold next_labels in Hl.
  pose proof (gi_cert _ _ _ _ _ _ _ _ _ I t) as C. destruct (th _ t) as [|op [r|e u l k]]; try easy. destruct C as [(a & -> & -> & -> & La & _) _].
  destruct a; cbn in Hl; try (destruct Hl as [Hl|[]]; try discriminate); try easy. subst l. cbn in La. specialize (La eq_refl).
  assert (F : forall l t', hof l (G t') = hfree).
  { intros l t'. destruct (Nat.eq_dec t' t) as [->|N]; [destruct La, l; auto|]. pose proof (gi_cert _ _ _ _ _ _ _ _ _ I t') as C. rewrite (Ho t' N) in C. rewrite C. now destruct l. }
  split; [apply (lock_ok_free RegL _ G ts)|apply (lock_ok_free ArbL _ G ts)]; auto; apply (gi_locks _ _ _ _ _ _ _ _ _ I).
Qed.

(** ** C35 *)
(** No goroutine touches the map while another writes it; the same for the arbiter's set. *)
Theorem C35_race_free : forall m sched t u w,
  NoDup (map fst m) -> t <> u ->
  (In (LMap true) (next_labels (fst (rexec m sched)) t) -> ~ In (LMap w) (next_labels (fst (rexec m sched)) u)) /\
  (In (LArb true) (next_labels (fst (rexec m sched)) t) -> ~ In (LArb w) (next_labels (fst (rexec m sched)) u)).
Proof.
  intros m sched t u w W N. destruct (gen_inv m sched W) as (G & ts & I). unfold next_labels.
  pose proof (gi_cert _ _ _ _ _ _ _ _ _ I t) as Ct. pose proof (gi_cert _ _ _ _ _ _ _ _ _ I u) as Cu.
  assert (Ht : th (fst (rexec m sched)) t <> Idle -> In t ts). { intros X. destruct (in_dec Nat.eq_dec t ts); auto. destruct X. now apply (gi_out _ _ _ _ _ _ _ _ _ I). }
  assert (Hu : th (fst (rexec m sched)) u <> Idle -> In u ts). { intros X. destruct (in_dec Nat.eq_dec u ts); auto. destruct X. now apply (gi_out _ _ _ _ _ _ _ _ _ I). }
  destruct (th _ t) as [|op [r|e up l k]]; try (split; easy). destruct (th _ u) as [|op' [r'|e' up' l' k']]; try (split; easy).
  destruct Ct as [(a & -> & -> & -> & La & _) _]. destruct Cu as [(b & -> & -> & -> & Lb & _) _]. specialize (Ht ltac:(discriminate)). specialize (Hu ltac:(discriminate)).
  split; intros X Y.
  - destruct a; cbn in X; try (destruct X as [X|[]]; try discriminate); try easy; [|subst l; destruct La].
    destruct La as [Wt _]. pose proof (writer_alone RegL _ _ _ t u (gi_nd _ _ _ _ _ _ _ _ _ I) Ht Hu N (gi_locks _ _ _ _ _ _ _ _ _ I RegL) Wt) as Z. cbn in Z.
    destruct b; cbn in Y; try (destruct Y as [Y|[]]; try discriminate); try easy; [| |subst l; destruct Lb]; cbn in Lb; unfold holds_map in Lb; rewrite Z in Lb; cbn in Lb; [destruct Lb as [Lb|Lb]; try discriminate; lia|destruct Lb; discriminate].
  - destruct a; cbn in X; try (destruct X as [X|[]]; try discriminate); try easy; [|subst l; destruct La].
    cbn in La. pose proof (writer_alone ArbL _ _ _ t u (gi_nd _ _ _ _ _ _ _ _ _ I) Ht Hu N (gi_locks _ _ _ _ _ _ _ _ _ I ArbL) La) as Z. cbn in Z.
    destruct b; cbn in Y; try (destruct Y as [Y|[]]; try discriminate); try easy; [| |subst l; destruct Lb]; cbn in Lb; rewrite Z in Lb; cbn in Lb; [destruct Lb as [Lb|Lb]; try discriminate; lia|discriminate].
Qed.

(** All calls return, however the goroutines are scheduled, as long as constructors and
    health checks do not use the registry. *)
Theorem C35_finishes : forall m sched,
  NoDup (map fst m) -> Forall polite (calls (snd (rexec m sched))) -> finishes (fst (rexec m sched)).
Proof.
  intros m sched W H. destruct (strict_inv m sched W H) as (G & ts & I). apply (finish (rstate_of m) (fun _ _ => True) (free0 m) _ sched G ts eq_refl I).
Qed.

(** A lazy constructor that uses the registry never returns: no completed call has run one. *)
Theorem C35_constructor_deadlock : forall m sched t c n v mk,
  NoDup (map fst m) -> In c (done_calls t (snd (rexec m sched))) ->
  c_op c = RGetOrRegisterFn n v mk -> uses_registry mk -> ~ In (LMade v) (c_labels c).
Proof.
  intros m sched t c n v mk W Hc Eop U. destruct (gen_inv m sched W) as (G & ts & I). apply In_nth_error in Hc. destruct Hc as (j & Hj).
  destruct (gi_done _ _ _ _ _ _ _ _ _ I t j c Hj) as (g & A1 & A2 & A3 & _). unfold gen_post in A3. rewrite A1, A2, Eop in A3. auto.
Qed.
(** Nor does a health check that registers or unregisters. *)
Theorem C35_health_deadlock : forall m sched t c ord chk n v,
  NoDup (map fst m) -> In c (done_calls t (snd (rexec m sched))) ->
  c_op c = RRunHealthchecks ord chk -> (forall n v, chk n v = CDone \/ changes_registry (chk n v)) ->
  In (LCheck n v) (c_labels c) -> chk n v = CDone.
Proof.
  intros m sched t c ord chk n v W Hc Eop U L. destruct (gen_inv m sched W) as (G & ts & I). apply In_nth_error in Hc. destruct Hc as (j & Hj).
  destruct (gi_done _ _ _ _ _ _ _ _ _ I t j c Hj) as (g & A1 & A2 & A3 & _). unfold gen_post in A3. rewrite A1, A2, Eop in A3. eauto.
Qed.

(** ** examples *)
Definition x1 := MkV 1 KStop.
Definition x2 := MkV 2 KPlain.
Definition h3 := MkV 3 KHealth.
Definition runs (t n : nat) : list (choice rop) := repeat (Run t) n.

(** Two goroutines that both find the name free; the one that gets the lock second returns
    the winner's metric and its constructor is not run. *)
Definition duel : list (choice rop) :=
  [Call 1 (RGetOrRegisterFn "a" x1 CDone); Call 2 (RGetOrRegisterFn "a" x2 CDone)] ++ runs 1 3 ++ runs 2 3 ++ runs 2 8 ++ runs 1 5.
Example duel_both :
  quiet (fst (rexec [] duel)) /\ Forall simple (calls (snd (rexec [] duel))) /\
  map c_ret (done_calls 1 (snd (rexec [] duel))) = [RtVal x2] /\ map c_ret (done_calls 2 (snd (rexec [] duel))) = [RtVal x2] /\
  metrics (sh (fst (rexec [] duel))) = [("a"%string, x2)] /\ made (sh (fst (rexec [] duel))) = [x2].
Proof.
  split; [apply (quiet_check rbody (rstate_of []) duel); vm_compute; reflexivity|].
  split; [replace (calls (snd (rexec [] duel))) with [RGetOrRegisterFn "a" x1 CDone; RGetOrRegisterFn "a" x2 CDone] by (vm_compute; reflexivity); repeat constructor|].
  repeat match goal with |- _ /\ _ => split end; vm_compute; reflexivity.
Qed.
Example duel_winner : exists w, forall t c, In c (done_calls t (snd (rexec [] duel))) -> gets_or_registers "a" (c_op c) -> c_ret c = RtVal w.
Proof.
  assert (E : forall X : list (event rlabel rop rret), X = [] ++ X ++ []) by (intros X; now rewrite app_nil_r).
  apply (C33_one_winner [] duel "a" [] (snd (rexec [] duel)) [] (NoDup_nil _) (proj1 (proj2 duel_both)) (E _)).
  - intros t op ls. discriminate.
  - intros t op Hin U. assert (F : forallb (fun e => match e with EInv _ (RUnregister _) | EInv _ (RUnregisterAll _) => false | _ => true end) (snd (rexec [] duel)) = true) by (vm_compute; reflexivity).
    rewrite forallb_forall in F. specialize (F _ Hin). destruct op; cbn in U; try destruct U; discriminate F.
Qed.
(** An unregistration in between ends the stretch. *)
Example duel_over :
  let sched := duel ++ [Call 1 (RUnregister "a")] ++ runs 1 6 ++ [Call 1 (RGetOrRegister "a" x1)] ++ runs 1 10 in
  map c_ret (done_calls 1 (snd (rexec [] sched))) = [RtVal x2; RtUnit; RtVal x1] /\ quiet (fst (rexec [] sched)).
Proof. intros sched. split; [vm_compute; reflexivity|]. apply (quiet_check rbody (rstate_of []) sched). vm_compute. reflexivity. Qed.

(** Each over two entries; the first callback empties the registry, the second registers
    another metric, and meanwhile another goroutine registers one too. *)
Definition sweep : rop := REach [1; 0] (fun n v => if String.eqb n "b" then CDo (RUnregisterAll []) (fun _ => CDone) else CDo (RRegister "c" x2) (fun _ => CDone)).
Definition sweeping : list (choice rop) :=
  [Call 7 sweep] ++ runs 7 5 ++ [Call 8 (RRegister "d" x1)] ++ runs 8 6 ++ runs 7 40.
Definition two : entries := [("a"%string, x1); ("b"%string, h3)].
Lemma sweep_polite : polite sweep.
Proof. constructor. intros n v. destruct (String.eqb n "b"); repeat constructor. Qed.
Example sweeping_all :
  quiet (fst (rexec two sweeping)) /\ Forall polite (calls (snd (rexec two sweeping))) /\
  map c_ret (done_calls 7 (snd (rexec two sweeping))) = [RtList [("b"%string, h3); ("a"%string, x1)]] /\
  map (fun c => filter is_call (c_labels c)) (done_calls 7 (snd (rexec two sweeping))) = [[LCall "b" h3; LCall "a" x1]] /\
  metrics (sh (fst (rexec two sweeping))) = [("c"%string, x2)].
Proof.
  split; [apply (quiet_check rbody (rstate_of two) sweeping); vm_compute; reflexivity|].
  split.
  - replace (calls (snd (rexec two sweeping))) with [sweep; RRegister "d" x1] by (vm_compute; reflexivity). constructor; [apply sweep_polite|repeat constructor].
  - repeat match goal with |- _ /\ _ => split end; vm_compute; reflexivity.
Qed.
(** ... and a state of that execution in which the callback is about to be called *)
Example sweeping_free :
  In (LCall "b" h3) (next_labels (fst (rexec two ([Call 7 sweep] ++ runs 7 5))) 7) /\
  (forall u, u <> 7 -> th (fst (rexec two ([Call 7 sweep] ++ runs 7 5))) u = Idle).
Proof.
  split; [vm_compute; auto|]. intros u N. apply (never_called_idle rbody (rstate_of two)). cbn. intuition congruence.
Qed.
(** A state in which two goroutines are in the registry and one is about to write the map. *)
Example write_alone :
  let c := fst (rexec two ([Call 1 (RRegister "z" x2); Call 2 (RGet "a")] ++ runs 1 3)) in
  next_labels c 1 = [LMap true] /\ next_labels c 2 = [] /\ ~ can_step c 2.
Proof. intros c. repeat match goal with |- _ /\ _ => split end; [vm_compute; reflexivity|vm_compute; reflexivity|]. intro H. apply can_step_ok in H. vm_compute in H. discriminate. Qed.

(** nobody can make a step *)
Lemma stuck_check sched m : forallb (fun t => negb (can_step_b (fst (rexec m sched)) t)) (callers sched) = true -> forall t, ~ can_step (fst (rexec m sched)) t.
Proof.
  intros H t Ht. rewrite forallb_forall in H. destruct (in_dec Nat.eq_dec t (callers sched)) as [Hin|N].
  - specialize (H t Hin). apply can_step_ok in Ht. now rewrite Ht in H.
  - unfold can_step in Ht. unfold rexec in Ht. now rewrite (never_called_idle rbody (rstate_of m) sched t N) in Ht.
Qed.
(** A constructor that gets another metric from the registry: the goroutine waits for
    itself, and so does everyone else after it. *)
Definition nested : list (choice rop) :=
  [Call 1 (RGetOrRegisterFn "a" x1 (CDo (RGet "b") (fun _ => CDone)))] ++ runs 1 7 ++ [Call 2 (RGet "b")].
Example nested_stuck : forall t, ~ can_step (fst (rexec [] nested)) t.
Proof. apply stuck_check. vm_compute. reflexivity. Qed.
Example nested_made : exists ls, open_call 1 (snd (rexec [] nested)) = Some (RGetOrRegisterFn "a" x1 (CDo (RGet "b") (fun _ => CDone)), ls) /\ In (LMade x1) ls.
Proof. eexists. split; [vm_compute; reflexivity|]. cbn. auto. Qed.
Example nested_uses : uses_registry (CDo (RGet "b") (fun _ => CDone)). Proof. repeat constructor. Qed.
(** A health check that unregisters itself. *)
Definition suicidal : list (choice rop) :=
  [Call 1 (RRunHealthchecks [] (fun n _ => CDo (RUnregister n) (fun _ => CDone)))] ++ runs 1 20.
Example suicidal_stuck : forall t, ~ can_step (fst (rexec two suicidal)) t.
Proof. apply stuck_check. vm_compute. reflexivity. Qed.
Example suicidal_checked : exists op ls, open_call 1 (snd (rexec two suicidal)) = Some (op, ls) /\ In (LCheck "b" h3) ls.
Proof. eexists _, _. split; [vm_compute; reflexivity|]. cbn. auto 10. Qed.
(** A health check that only reads the registry finishes when alone ... *)
Definition reading (n : string) (v : mv) : cbp := CDo (RGet "a") (fun _ => CDone).
Example reading_ends : quiet (fst (rexec two ([Call 1 (RRunHealthchecks [] reading)] ++ runs 1 12))).
Proof. apply (quiet_check rbody (rstate_of two) ([Call 1 (RRunHealthchecks [] reading)] ++ runs 1 12)). vm_compute. reflexivity. Qed.
(** ... but not when another goroutine has come to wait for the write lock meanwhile. *)
Definition reading_late : list (choice rop) :=
  [Call 1 (RRunHealthchecks [] reading)] ++ runs 1 5 ++ [Call 2 (RRegister "z" x2)] ++ runs 2 1.
Example reading_stuck : forall t, ~ can_step (fst (rexec two reading_late)) t.
Proof. apply stuck_check. vm_compute. reflexivity. Qed.

Print Assumptions C33_linearizable.
Print Assumptions C33_one_winner.
Print Assumptions C33_constructor.
Print Assumptions C34_snapshot.
Print Assumptions C34_no_lock.
Print Assumptions C35_race_free.
Print Assumptions C35_finishes.
Print Assumptions C35_constructor_deadlock.
Print Assumptions C35_health_deadlock.
