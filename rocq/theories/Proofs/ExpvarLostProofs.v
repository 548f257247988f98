(** A handler whose lock was lost: any executions, also those in which requests panic. *)
From Coq Require Import ZArith List String Bool Lia Arith.
From Verif.Model Require Import GoInt GoFloat GoBase World Conc Expvar ExpvarConc.
From Verif.Spec Require Import Traces ExpvarSpec MutexSpec ExpvarConcSpec.
From Verif.Proofs Require Import LinProofs LogFacts ExpvarProofs ExpvarConcProofs.
Import ListNotations.
Local Open Scope nat_scope.
Local Open Scope list_scope.

(** a goroutine is idle, inside a request, or about to end with a panic *)
Inductive where_ := WIdle | WIn (a : ab) | WPanic (r : request) (m : string).
Definition wstatus (w : where_) : status exps (string * evar) request Expvar.outcome :=
  match w with WIdle => Idle | WIn a => status_of (Some a) | WPanic r m => Busy r (Ret (Panicked m)) end.
Definition winside (h : nat) (w : where_) : Prop := match w with WIn a => inside h (Some a) | _ => False end.
Definition wreq (w : where_) : option request := match w with WIdle => None | WIn a => Some (a_req a) | WPanic r _ => Some r end.
Definition wupd (W : nat -> where_) (t : nat) (x : where_) (u : nat) : where_ := if Nat.eqb u t then x else W u.
Lemma wupd_same W t x : wupd W t x t = x. Proof. unfold wupd. now rewrite Nat.eqb_refl. Qed.
Lemma wupd_other W t x u : u <> t -> wupd W t x u = W u. Proof. unfold wupd. intros H. destruct (Nat.eqb_spec u t); congruence. Qed.

Definition lost_inv (c : conf) (tr : trace) (W : nat -> where_) (dead : nat -> Prop) : Prop :=
  (forall t, th c t = wstatus (W t)) /\ (forall t h, winside h (W t) -> held (sh c) h = true) /\ (forall t u h, winside h (W t) -> winside h (W u) -> t = u) /\
  (forall h, dead h -> held (sh c) h = true /\ forall t, ~ winside h (W t)) /\ (forall t r m, W t = WPanic r m -> dead (handler r)) /\
  (forall t, option_map fst (open_call t tr) = wreq (W t)) /\ (forall t d m, In d (done_calls t tr) -> c_ret d = Panicked m -> dead (handler (c_op d))).

(** the step of a goroutine inside a request *)
Lemma lost_code (c : conf) a op e u l k : Busy op (Atom e u l k) = status_of (Some a) -> e (sh c) = true ->
  op = a_req a /\
  ((exists a', Busy op (k (sh c)) = status_of (Some a') /\ a_req a' = a_req a /\
     ((insb a = insb a' /\ forall h, held (u (sh c)) h = held (sh c) h) \/
      (insb a = false /\ insb a' = true /\ held (sh c) (handler op) = false /\ forall h, held (u (sh c)) h = if Nat.eqb h (handler op) then true else held (sh c) h) \/
      (insb a = true /\ insb a' = false /\ forall h, held (u (sh c)) h = if Nat.eqb h (handler op) then false else held (sh c) h))) \/
   exists m, k (sh c) = Ret (Panicked m) /\ insb a = true /\ forall h, held (u (sh c)) h = held (sh c) h).
Proof.
  intros E En. destruct a as [r d todo p]. cbn [status_of a_req a_todo a_pc] in E. injection E as -> E. destruct todo as [|[n x] td]; [discriminate E|]. split; [reflexivity|]. cbn [code_of] in E. destruct p.
  - unfold c_one in E. injection E as -> -> -> ->. apply negb_true_iff in En. left. exists (Ab r d ((n, x) :: td) PGet). repeat split. right. left. repeat split. exact En.
  - unfold c_get in E. injection E as -> -> -> ->. cbn beta. destruct (var_get n (tbl (sh c))) as [y|]; [destruct (same_type y x)|].
    + left. exists (Ab r d ((n, x) :: td) PUnl). repeat split. left. repeat split.
    + right. eexists. repeat split.
    + left. exists (Ab r d ((n, x) :: td) PPub). repeat split. left. repeat split.
  - unfold c_publish in E. injection E as -> -> -> ->. cbn beta. destruct (var_get n (tbl (sh c))) as [y|].
    + right. eexists. repeat split.
    + left. exists (Ab r d ((n, x) :: td) PUnl). repeat split. left. repeat split.
  - unfold c_unlock in E. injection E as -> -> -> ->. left. exists (Ab r d ((n, x) :: td) PSet). repeat split. right. right. repeat split.
  - unfold c_set in E. injection E as -> -> -> ->. left. exists (Ab r (d ++ [(n, x)]) td PLock). cbn [status_of a_req a_todo a_pc]. rewrite <- sync_code. repeat split. left. unfold insb. cbn [a_todo a_pc]. split; [now destruct td|reflexivity].
Qed.

Lemma open_fst t u tr (ls : list (string * evar)) : option_map fst (open_call u (tr ++ map (@EStep _ request Expvar.outcome t) ls)) = option_map fst (open_call u tr).
Proof. rewrite open_steps. destruct (Nat.eqb t u); [|reflexivity]. destruct (open_call u tr) as [[op l0]|]; reflexivity. Qed.

(** a move of goroutine [t] from [W t] to [w], after which the locks are [hd] *)
Lemma lost_move (c c' : conf) (tr tr' : trace) W dead t w :
  lost_inv c tr W dead -> (forall u, th c' u = wstatus (wupd W t w u)) ->
  (forall u, option_map fst (open_call u tr') = wreq (wupd W t w u)) ->
  (forall u d m, In d (done_calls u tr') -> c_ret d = Panicked m -> dead (handler (c_op d)) \/ In d (done_calls u tr)) ->
  (forall r m, w <> WPanic r m) ->
  (forall h, held (sh c') h = held (sh c) h /\ (winside h w <-> winside h (W t)) \/
             held (sh c) h = false /\ held (sh c') h = true \/ winside h (W t) /\ ~ winside h w) ->
  (forall h, winside h w -> held (sh c') h = true) -> (forall h, winside h w -> winside h (W t) \/ held (sh c) h = false) ->
  lost_inv c' tr' (wupd W t w) dead.
Proof.
  intros (I1 & I2 & I3 & I4 & I5 & I6 & I7) H0 HO HD NP HH HW HN. split; [exact H0|]. split; [|split; [|split; [|split; [|split]]]].
  - intros u h. destruct (Nat.eq_dec u t) as [->|N]; [rewrite wupd_same; apply HW|]. rewrite wupd_other by exact N. intros Iu. destruct (HH h) as [(E & _)|[(Hf & E)|(It & _)]].
    + rewrite E. eapply I2; eauto.
    + exact E.
    + elim N. eapply I3; eauto.
  - intros u v h. destruct (Nat.eq_dec u t) as [->|Nu], (Nat.eq_dec v t) as [->|Nv]; rewrite ?wupd_same, ?wupd_other by assumption; auto.
    + intros Iw Iv. destruct (HN h Iw) as [It|Hf]; [eapply I3; eauto|]. rewrite (I2 v h Iv) in Hf. discriminate.
    + intros Iu Iw. destruct (HN h Iw) as [It|Hf]; [eapply I3; eauto|]. rewrite (I2 u h Iu) in Hf. discriminate.
    + apply I3.
  - intros h D. destruct (I4 h D) as (Hh & Nh). split.
    + destruct (HH h) as [(E & _)|[(Hf & E)|(It & _)]]; [congruence|exact E|]. elim (Nh t It).
    + intros u. destruct (Nat.eq_dec u t) as [->|N]; [rewrite wupd_same|rewrite wupd_other by exact N; apply Nh]. intros Iw. destruct (HN h Iw) as [It|Hf]; [elim (Nh t It)|congruence].
  - intros u r m. destruct (Nat.eq_dec u t) as [->|N]; [rewrite wupd_same; intros E; now elim (NP r m)|]. rewrite wupd_other by exact N. apply I5.
  - exact HO.
  - intros u d m Hd Hm. destruct (HD u d m Hd Hm) as [X|X]; [exact X|eapply I7; eauto].
Qed.

Lemma lost_step (c : conf) tr W dead ch : lost_inv c tr W dead -> exists W' dead', lost_inv (fst (cstep request_body c ch)) (tr ++ snd (cstep request_body c ch)) W' dead' /\ forall h, dead h -> dead' h.
Proof.
  intros Inv. pose proof Inv as (I1 & I2 & I3 & I4 & I5 & I6 & I7). assert (Same : lost_inv c (tr ++ []) W dead) by now rewrite app_nil_r.
  destruct ch as [t op|t]; cbn [cstep].
  - destruct (th c t) as [|? ?] eqn:Et; cbn [fst snd]; [|eauto]. assert (Ew : W t = WIdle). { specialize (I1 t). rewrite Et in I1. destruct (W t); [reflexivity|discriminate I1|discriminate I1]. }
    exists (wupd W t (WIn (Ab op [] (sets op) PLock))), dead. split; [|auto]. assert (X : forall h, ~ winside h (WIn (Ab op [] (sets op) PLock))) by (intros h (_ & Z); unfold insb in Z; cbn in Z; destruct (sets op); discriminate).
    eapply lost_move; [exact Inv| | | | | | |].
    + intros u. cbn [th]. destruct (Nat.eq_dec u t) as [->|N]; [|rewrite tset_other, wupd_other by exact N; apply I1]. rewrite tset_same, wupd_same. cbn [wstatus status_of a_req a_todo a_pc]. unfold request_body. now rewrite sync_code.
    + intros u. rewrite open_inv. destruct (Nat.eqb_spec t u) as [->|N]; [now rewrite wupd_same|]. rewrite wupd_other by congruence. apply I6.
    + intros u d m. rewrite done_inv. auto.
    + discriminate.
    + intros h. left. split; [reflexivity|]. rewrite Ew. split; [intros Z; elim (X h Z)|intros []].
    + intros h Z. elim (X h Z).
    + intros h Z. elim (X h Z).
  - destruct (th c t) as [|op [r|e u l k]] eqn:Et; cbn [fst snd]; [eauto| |].
    + exists (wupd W t WIdle), dead. split; [|auto]. pose proof (I1 t) as It. rewrite Et in It.
      assert (X : forall h, ~ winside h (W t)). { intros h Z. destruct (W t) as [|a|]; [destruct Z| |destruct Z]. destruct Z as (_ & Z). cbn [wstatus status_of] in It. injection It as _ It. unfold insb in Z. destruct (a_todo a) as [|[n x] td]; [discriminate|]. cbn [code_of] in It. destruct (a_pc a); discriminate. }
      eapply lost_move; [exact Inv| | | | | | |].
      * intros v. cbn [th]. destruct (Nat.eq_dec v t) as [->|N]; [now rewrite tset_same, wupd_same|]. rewrite tset_other, wupd_other by exact N. apply I1.
      * intros v. rewrite open_res. destruct (Nat.eqb_spec t v) as [->|N]; [now rewrite wupd_same|]. rewrite wupd_other by congruence. apply I6.
      * intros v d m. rewrite done_res. destruct (Nat.eqb_spec t v) as [<-|N]; [|auto]. pose proof (I6 t) as Io. destruct (open_call t tr) as [[op' ls]|]; [|auto]. intros Hd Hm. apply in_app_or in Hd. destruct Hd as [Hd|[<-|[]]]; [auto|]. left. cbn [c_op c_ret] in *. subst r. cbn [option_map fst] in Io.
        destruct (W t) as [|a|r' m'] eqn:Ew; [discriminate It| |].
        -- exfalso. cbn [wstatus status_of] in It. injection It as _ It. destruct (a_todo a) as [|[n x] td]; [discriminate|]. cbn [code_of] in It. destruct (a_pc a); discriminate.
        -- cbn [wreq] in Io. injection Io as ->. eapply I5; eauto.
      * discriminate.
      * intros h. left. split; [reflexivity|]. split; [intros []|]. intros Z. elim (X h Z).
      * intros h [].
      * intros h [].
    + destruct (e (sh c)) eqn:En; cbn [fst snd]; [|eauto]. pose proof (I1 t) as It. rewrite Et in It. destruct (W t) as [|a|r m] eqn:Ew; [discriminate It| |discriminate It]. cbn [wstatus] in It.
      destruct (lost_code c a op e u l k It En) as (-> & [(a' & Ea' & Er & K)|(m & Em & Ia & Eh)]).
      * exists (wupd W t (WIn a')), dead. split; [|auto]. eapply lost_move; [exact Inv| | | | | | |]; rewrite ?Ew.
        -- intros v. cbn [th]. destruct (Nat.eq_dec v t) as [->|N]; [rewrite tset_same, wupd_same; exact Ea'|]. rewrite tset_other, wupd_other by exact N. apply I1.
        -- intros v. rewrite open_fst, I6. destruct (Nat.eq_dec v t) as [->|N]; [rewrite wupd_same, Ew; cbn [wreq]; now rewrite Er|]. now rewrite wupd_other by exact N.
        -- intros v d m. rewrite done_steps. auto.
        -- discriminate.
        -- intros h. cbn [sh winside inside]. rewrite Er. destruct K as [(Ei & Eh)|[(Ia & Ia' & Hf & Eh)|(Ia & Ia' & Eh)]]; rewrite Eh.
           ++ left. rewrite Ei. tauto.
           ++ destruct (Nat.eqb_spec h (handler (a_req a))) as [->|N]; [right; left; auto|]. left. split; [reflexivity|]. split; intros (X & _); congruence.
           ++ destruct (Nat.eqb_spec h (handler (a_req a))) as [->|N]; [right; right; rewrite Ia, Ia'; split; [auto|intros (_ & Z); discriminate]|]. left. split; [reflexivity|]. split; intros (X & _); congruence.
        -- intros h (Eh' & Ih). cbn [sh]. rewrite Er in Eh'. destruct K as [(Ei & Eh)|[(Ia & Ia' & Hf & Eh)|(Ia & Ia' & Eh)]]; [| |congruence].
           ++ rewrite Eh. apply (I2 t h). rewrite Ew. split; [exact Eh'|congruence].
           ++ rewrite Eh, Eh', Nat.eqb_refl. reflexivity.
        -- intros h (Eh' & Ih). rewrite Er in Eh'. destruct K as [(Ei & Eh)|[(Ia & Ia' & Hf & Eh)|(Ia & Ia' & Eh)]]; [left; split; [exact Eh'|congruence]|right; congruence|congruence].
      * (* it panics, the lock stays *)
        assert (It' : winside (handler (a_req a)) (W t)) by (rewrite Ew; split; auto).
        exists (wupd W t (WPanic (a_req a) m)), (fun h => dead h \/ h = handler (a_req a)). split; [|auto].
        assert (Z : forall v h, winside h (wupd W t (WPanic (a_req a) m) v) -> v <> t /\ winside h (W v)) by (intros v h; destruct (Nat.eq_dec v t) as [->|N]; [rewrite wupd_same; intros []|rewrite wupd_other by exact N; auto]).
        split; [|split; [|split; [|split; [|split; [|split]]]]]; cbn [sh th].
        -- intros v. destruct (Nat.eq_dec v t) as [->|N]; [rewrite tset_same, wupd_same, Em; reflexivity|]. rewrite tset_other, wupd_other by exact N. apply I1.
        -- intros v h Iv. apply Z in Iv. rewrite Eh. eapply I2, Iv.
        -- intros v w h Iv Iw. apply Z in Iv. apply Z in Iw. eapply I3; [apply Iv|apply Iw].
        -- intros h D. rewrite Eh. destruct D as [D| ->].
           ++ destruct (I4 h D) as (Hh & Nh). split; [exact Hh|]. intros v Iv. apply Z in Iv. now apply (Nh v).
           ++ split; [eapply I2; eauto|]. intros v Iv. apply Z in Iv. destruct Iv as (N & Iv). apply N. eapply I3; eauto.
        -- intros v r m'. destruct (Nat.eq_dec v t) as [->|N]; [rewrite wupd_same; intros [= <- <-]; now right|]. rewrite wupd_other by exact N. intros Hv. left. eapply I5; eauto.
        -- intros v. rewrite open_fst, I6. destruct (Nat.eq_dec v t) as [->|N]; [now rewrite wupd_same, Ew|]. now rewrite wupd_other by exact N.
        -- intros v d m'. rewrite done_steps. intros Hd Hm. left. eapply I7; eauto.
Qed.
Lemma lost_exec t1 sched : exists W dead, lost_inv (fst (expvar_exec t1 sched)) (snd (expvar_exec t1 sched)) W dead.
Proof.
  unfold expvar_exec. revert sched. apply (cexec_ind request_body (MkExps t1 (fun _ => false)) (fun c tr => exists W dead, lost_inv c tr W dead)).
  - exists (fun _ => WIdle), (fun _ => False). repeat split; auto; try contradiction; try discriminate.
  - intros c tr ch (W & dead & Inv). destruct (lost_step c tr W dead ch Inv) as (W' & dead' & H & _). eauto.
Qed.
(** a request that waits for a lost lock keeps waiting *)
Lemma lost_waits sched : forall (c : conf) tr W dead t r, lost_inv c tr W dead -> th c t = Busy r (request_body r) -> dead (handler r) -> sets r <> [] ->
  th (fst (crun request_body c tr sched)) t = Busy r (request_body r).
Proof.
  induction sched as [|ch sched IH]; intros c tr W dead t r Inv Et D Ns; [exact Et|]. cbn [crun]. destruct (lost_step c tr W dead ch Inv) as (W' & dead' & Inv' & Mono).
  destruct (cstep request_body c ch) as [c' ev] eqn:Es. cbn [fst snd] in Inv'. apply (IH c' (tr ++ ev) W' dead' t r Inv'); auto.
  pose proof Inv as (_ & _ & _ & I4 & _). destruct (I4 _ D) as (Hh & _). destruct ch as [u op|u]; cbn [cstep] in Es.
  - destruct (th c u) as [|? ?] eqn:Eu; injection Es as <- _; [|exact Et]. cbn [th]. rewrite tset_other; [exact Et|]. intros ->. congruence.
  - destruct (Nat.eq_dec u t) as [->|N].
    + rewrite Et in Es. unfold request_body in Es at 1. destruct (sets r) as [|[n x] l] eqn:El; [congruence|]. cbn [c_sync] in Es. unfold c_one in Es. rewrite Hh in Es. cbn [negb] in Es. injection Es as <- _. exact Et.
    + destruct (th c u) as [|op [q|e v l k]] eqn:Eu; [injection Es as <- _; exact Et| |].
      * injection Es as <- _. cbn [th]. rewrite tset_other by congruence. exact Et.
      * destruct (e (sh c)); injection Es as <- _; [cbn [th]; rewrite tset_other by congruence|]; exact Et.
Qed.
