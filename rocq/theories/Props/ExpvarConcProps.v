(** Property C65: requests which the handlers of package exp serve at the same time.  An
    execution starts from any variables [t0] and is any interleaving of any requests. *)
From Coq Require Import ZArith List String Bool Lia Arith.
From Verif.Model Require Import GoInt GoFloat GoBase World Conc Ewma Expvar ExpvarConc.
From Verif.Spec Require Import Traces ExpvarSpec MutexSpec ExpvarConcSpec.
From Verif.Proofs Require Import LinProofs LogFacts ExpvarProofs ExpvarConcProofs ExpvarLostProofs.
Import ListNotations.
Local Open Scope string_scope.
Local Open Scope list_scope.
Local Open Scope nat_scope.

Lemma reached t0 sched : one_type t0 sched -> one_handler t0 sched ->
  exists A, core t0 (asked sched) (fst (expvar_exec t0 sched)) A /\ logs t0 (asked sched) A (tbl (sh (fst (expvar_exec t0 sched)))) (snd (expvar_exec t0 sched)).
Proof.
  intros (T0 & T1) H. apply (good_exec t0 (asked sched)); [exact T0|exact T1|exact H|]. intros r Hr. apply (proj1 (exec_asked t0 sched) r Hr).
Qed.

(** If the requests agree on the types of variables and on which handler sets a variable that is
    not there yet, then no request panics: every request that has returned has set its variables,
    in order; every variable has the value some request has set last, and is the one from before
    (or a new one of a request, being zero still) if none has set it. *)
Theorem C65_requests (t0 : list (string * evar)) (sched : list (choice request)) :
  one_type t0 sched -> one_handler t0 sched ->
  let c := fst (expvar_exec t0 sched) in let tr := snd (expvar_exec t0 sched) in
  (forall t d, In d (done_calls t tr) -> c_ret d = Done /\ c_labels d = sets (c_op d)) /\
  (forall name x, last_set name (labels tr) = Some x -> published (tbl (sh c)) name = Some x) /\
  (forall name, last_set name (labels tr) = None -> published (tbl (sh c)) name = published t0 name \/ published t0 name = None /\ exists x, published (tbl (sh c)) name = Some x /\ blank x /\
     exists r v, asked sched r /\ In (name, v) (sets r) /\ type_of x = type_of v).
Proof.
  intros T H c tr. destruct (reached t0 sched T H) as (A & _ & L). fold c tr in L. clearbody c tr. destruct L as (L1 & L2 & L3). split; [|split].
  - intros t d Hd. destruct (L2 t d Hd). auto.
  - intros name x E. specialize (L3 name). rewrite E in L3. exact L3.
  - intros name E. specialize (L3 name). rewrite E in L3. exact L3.
Qed.

(** ... and all requests return, however the goroutines are scheduled *)
Theorem C65_all_return (t0 : list (string * evar)) (sched : list (choice request)) :
  one_type t0 sched -> one_handler t0 sched -> all_return request_body (fst (expvar_exec t0 sched)).
Proof.
  intros T H. destruct (reached t0 sched T H) as (A & C & _). destruct T as (T0 & T1). apply (core_returns t0 (asked sched) T0 T1 H (flat_map caller sched) (total A (flat_map caller sched)) _ A C); [|apply le_n].
  intros t Nt. pose proof (proj2 (exec_asked t0 sched) t Nt) as E. destruct C as (C0 & _). rewrite C0 in E. destruct (A t); [discriminate|reflexivity].
Qed.

(** A request that is served alone does what the handler of C48 does. *)
Theorem C65_alone (h : nat) (l : list (string * evar)) (s : exps) :
  held s h = false -> Forall (fun nx => type_of (snd nx) <> TOther) l ->
  exists s' r, cseq (request_body (Req h l)) s = Some (s', r) /\ publish l (MkExp (tbl s) false) = (MkExp (tbl s') (held s' h), r) /\
    forall h', h' <> h -> held s' h' = held s h'.
Proof.
  unfold request_body. cbn [handler sets]. intros Hh Hl. revert s Hh. induction Hl as [|[n x] l Tx _ IH]; intros s Hh; [exists s, Done; rewrite <- Hh; auto|].
  cbn [snd] in Tx. cbn [c_sync c_one cseq publish]. rewrite Hh. cbn [negb]. unfold c_get. cbn [cseq always]. unfold hold at 1. cbn [tbl].
  assert (Fin : forall s1, held s1 h = true -> exists s' r, cseq (c_unlock h n x (c_sync h l)) s1 = Some (s', r) /\ publish l (MkExp (var_put n x (tbl s1)) false) = (MkExp (tbl s') (held s' h), r) /\ forall h', h' <> h -> held s' h' = held s1 h').
  { intros s1 H1. cbn [c_unlock c_set cseq always]. destruct (IH (store n x (hold h false s1))) as (s' & r & E1 & E2 & E3); [cbn; now rewrite Nat.eqb_refl|]. exists s', r. split; [exact E1|]. split; [exact E2|]. intros h' N. rewrite (E3 h' N). cbn. destruct (Nat.eqb_spec h' h); congruence. }
  assert (K : held (hold h true s) h = true) by (cbn; now rewrite Nat.eqb_refl).
  assert (N' : forall h', h' <> h -> held (hold h true s) h' = held s h') by (intros h' N; cbn; destruct (Nat.eqb_spec h' h); congruence).
  destruct (var_get n (tbl s)) as [y|] eqn:Ey.
  - destruct (same_type y x) eqn:Es.
    + destruct (Fin (hold h true s) K) as (s' & r & E1 & E2 & E3). exists s', r. split; [exact E1|]. split; [|intros h' N; rewrite E3 by exact N; auto].
      destruct x as [nx|fx|]; [| |now elim Tx]; destruct y; try discriminate Es; cbn [publish_one]; unfold get_int, get_float, expvar_get; cbn [locked lock_ pub]; rewrite Ey; cbn [expvar_put lock_ pub locked]; exact E2.
    + exists (hold h true s), (Panicked msg_assert). split; [reflexivity|]. split; [|exact N']. rewrite K. cbn [hold tbl].
      destruct x as [nx|fx|]; [| |now elim Tx]; destruct y; try discriminate Es; cbn [publish_one]; unfold get_int, get_float, expvar_get; cbn [locked lock_ pub]; rewrite Ey; reflexivity.
  - unfold c_publish. cbn [cseq always tbl]. unfold hold at 1 2. cbn [tbl]. rewrite Ey. destruct (Fin (store n (zero_of x) (hold h true s))) as (s' & r & E1 & E2 & E3); [exact K|]. exists s', r. split; [exact E1|]. split; [|intros h' N; rewrite E3 by exact N; exact (N' h' N)].
    assert (P2 : forall z, var_put n x (var_put n z (tbl s)) = var_put n x (tbl s)).
    { intros z. clear. induction (tbl s) as [|[k v] q IHq]; cbn [var_put]; [now rewrite String.eqb_refl|]. destruct (String.eqb k n) eqn:Ek; cbn [var_put]; rewrite Ek; [reflexivity|]. now rewrite IHq. }
    cbn [store hold tbl] in E2. rewrite P2 in E2. destruct x as [nx|fx|]; [| |now elim Tx]; cbn [publish_one]; unfold get_int, get_float, expvar_get; cbn [locked lock_ pub]; rewrite Ey; unfold expvar_put, lock_; cbn [pub locked]; rewrite P2; exact E2.
Qed.

(** Two handlers (each call of ExpHandler makes one, with a mutex of its own) which export the
    same new variable can both find it missing; the one that publishes it second panics. *)
Definition race : list (choice request) :=
  let r h := Req h [("hits", EInt 1)] in
  [Call 0 (r 0); Call 1 (r 1); Run 0; Run 0; Run 1; Run 1; Run 0; Run 1; Run 1].
Lemma race_types : one_type [] race.
Proof.
  assert (A : forall r, asked race r -> sets r = [("hits", EInt 1)]). { intros r (t & H). cbn in H. repeat (destruct H as [H|H]; [try discriminate H; injection H as _ <-; reflexivity|]). destruct H. }
  split.
  - intros r name x Hr Hx. rewrite (A r Hr) in Hx. destruct Hx as [[= <- <-]|[]]. split; [discriminate|]. intros y Hy. discriminate Hy.
  - intros r r' name x x' Hr Hr' Hx Hx'. rewrite (A r Hr) in Hx. rewrite (A r' Hr') in Hx'. destruct Hx as [[= <- <-]|[]], Hx' as [[= <-]|[]]. reflexivity.
Qed.
Theorem C65_two_handlers_refuted :
  ~ forall (t0 : list (string * evar)) (sched : list (choice request)), one_type t0 sched ->
      forall t d, In d (done_calls t (snd (expvar_exec t0 sched))) -> c_ret d = Done.
Proof.
  intros H. assert (D : done_calls 1 (snd (expvar_exec [] race)) = [MkCall (Req 1 [("hits", EInt 1)]) [] (Panicked msg_reuse)]) by (vm_compute; reflexivity).
  specialize (H [] race race_types 1%nat _ ltac:(rewrite D; left; reflexivity)). discriminate H.
Qed.

(** When a request to a handler has panicked, in whatever execution, then every later request to
    this handler that has a variable to set waits for the mutex for ever. *)
Theorem C65_stuck (t0 : list (string * evar)) (sched later : list (choice request)) (u t : nat) (d : call_rec (string * evar) request Expvar.outcome) (m : string) (r : request) :
  In d (done_calls u (snd (expvar_exec t0 sched))) -> c_ret d = Panicked m ->
  th (fst (expvar_exec t0 sched)) t = Idle -> handler r = handler (c_op d) -> sets r <> [] ->
  th (fst (expvar_exec t0 (sched ++ Call t r :: later))) t = Busy r (request_body r).
Proof.
  intros Hd Hm Ht Hh Hs. destruct (lost_exec t0 sched) as (W & dead & Inv). unfold expvar_exec, cexec in *. rewrite crun_app. destruct (crun request_body (cstart (MkExps t0 (fun _ => false))) [] sched) as [c tr]. cbn [fst snd] in *.
  pose proof Inv as (_ & _ & _ & _ & _ & _ & I7). pose proof (I7 u d m Hd Hm) as D. rewrite <- Hh in D. destruct (lost_step c tr W dead (Call t r) Inv) as (W' & dead' & Inv' & Mono).
  cbn [crun]. destruct (cstep request_body c (Call t r)) as [c' ev] eqn:Es. cbn [fst snd] in Inv'. apply (lost_waits later c' (tr ++ ev) W' dead' t r Inv'); auto.
  cbn [cstep] in Es. rewrite Ht in Es. injection Es as <- _. cbn [th]. apply tset_same.
Qed.

(** the hypotheses are met: two requests to one handler overlap, both export a variable that is
    new; a third one goes to another handler, whose variable is there *)
Definition busy_server : list (choice request) :=
  [Call 0 (Req 0 [("hits", EInt 1); ("size", EInt 10)]); Call 1 (Req 0 [("hits", EInt 2); ("size", EInt 20)]); Call 2 (Req 1 [("old", EInt 7)])]
  ++ flat_map (fun _ => [Run 1; Run 0; Run 2]) (seq 0 10) ++ [Call 2 (Req 1 [("old", EInt 8)]); Run 2].
Lemma busy_asked r : asked busy_server r -> r = Req 0 [("hits", EInt 1); ("size", EInt 10)] \/ r = Req 0 [("hits", EInt 2); ("size", EInt 20)] \/ r = Req 1 [("old", EInt 7)] \/ r = Req 1 [("old", EInt 8)].
Proof. intros (t & H). cbn in H. repeat (destruct H as [H|H]; [first [discriminate H|injection H as _ <-; tauto]|]). destruct H. Qed.
Example busy_types : one_type [("old", EInt 3)] busy_server.
Proof.
  split.
  - intros r name x Hr Hx. apply busy_asked in Hr. destruct Hr as [->|[->|[->| ->]]]; cbn in Hx; repeat destruct Hx as [[= <- <-]|Hx]; try destruct Hx; (split; [discriminate|]); intros y Hy; vm_compute in Hy; try discriminate Hy; injection Hy as <-; reflexivity.
  - intros r r' name x x' Hr Hr' Hx Hx'. apply busy_asked in Hr. apply busy_asked in Hr'.
    assert (X : forall q nm z, (q = Req 0 [("hits", EInt 1); ("size", EInt 10)] \/ q = Req 0 [("hits", EInt 2); ("size", EInt 20)] \/ q = Req 1 [("old", EInt 7)] \/ q = Req 1 [("old", EInt 8)]) -> In (nm, z) (sets q) -> type_of z = TInt).
    { intros q nm z [->|[->|[->| ->]]] Hz; cbn in Hz; repeat destruct Hz as [[= <- <-]|Hz]; try destruct Hz; reflexivity. }
    rewrite (X r name x Hr Hx), (X r' name x' Hr' Hx'). reflexivity.
Qed.
Example busy_handlers : one_handler [("old", EInt 3)] busy_server.
Proof.
  intros r r' name x x' Hr Hr' Hx Hx' Hn. apply busy_asked in Hr. apply busy_asked in Hr'. destruct Hr as [->|[->|[->| ->]]], Hr' as [->|[->|[->| ->]]]; try reflexivity; cbn in Hx, Hx';
    repeat destruct Hx as [[= <- <-]|Hx]; try destruct Hx; repeat destruct Hx' as [[= <-]|Hx']; try destruct Hx'; discriminate.
Qed.
(** in the end goroutine 1 has published size but not set it, and goroutine 0 waits for it *)
Example busy_runs :
  let e := expvar_exec [("old", EInt 3)] busy_server in
  labels (snd e) = [("old", EInt 7); ("hits", EInt 2); ("hits", EInt 1)] /\
  tbl (sh (fst e)) = [("old", EInt 7); ("hits", EInt 1); ("size", EInt 0)].
Proof. vm_compute. auto. Qed.
(** after the race the handler 1 is stuck: 0 serves requests still *)
Example race_stuck later : th (fst (expvar_exec [] (race ++ Call 5 (Req 1 [("hits", EInt 9)]) :: later))) 5 = Busy (Req 1 [("hits", EInt 9)]) (request_body (Req 1 [("hits", EInt 9)])).
Proof.
  apply (C65_stuck [] race later 1 5 (MkCall (Req 1 [("hits", EInt 1)]) [] (Panicked msg_reuse)) msg_reuse); try reflexivity; [|discriminate].
  assert (D : done_calls 1 (snd (expvar_exec [] race)) = [MkCall (Req 1 [("hits", EInt 1)]) [] (Panicked msg_reuse)]) by (vm_compute; reflexivity). rewrite D. now left.
Qed.
