(** Proofs about Compose.v: an execution of many objects restricted to one of them is an execution
    of that one, and histories that are linearizable object by object are linearizable. *)
From Coq Require Import List Arith Bool Lia Eqdep_dec.
From Verif.Model Require Import Conc Compose.
From Verif.Spec Require Import Linearizability Traces ComposeSpec.
From Verif.Proofs Require Import LinProofs.
Import ListNotations.
Local Open Scope nat_scope.

Lemma put_same {A : nat -> Type} (f : forall i, A i) i x : put f i x i = x.
Proof. unfold put. destruct (Nat.eq_dec i i) as [e|n]; [|now destruct n]. now rewrite (UIP_dec Nat.eq_dec e eq_refl). Qed.
Lemma put_other {A : nat -> Type} (f : forall i, A i) i x j : i <> j -> put f i x j = f j.
Proof. intros N. unfold put. destruct (Nat.eq_dec i j); [contradiction|reflexivity]. Qed.
Lemma pair2 {A : nat -> Type} i (x y : A i) : existT A i x = existT A i y -> x = y.
Proof. apply inj_pair2_eq_dec, Nat.eq_dec. Qed.

Section Objects.
Variable O : nat -> object.
Notation St i := (o_state (O i)). Notation Lb i := (o_label (O i)). Notation Op i := (o_op (O i)). Notation Rt i := (o_ret (O i)).

Lemma only_op_same i (a : Op i) : only_op O i (existT _ i a) = [a].
Proof. unfold only_op. cbn [projT1 projT2]. destruct (Nat.eq_dec i i) as [e|n]; [|now destruct n]. now rewrite (UIP_dec Nat.eq_dec e eq_refl). Qed.
Lemma only_op_other i j (a : Op j) : j <> i -> only_op O i (existT _ j a) = [].
Proof. intros N. unfold only_op. cbn [projT1]. destruct (Nat.eq_dec j i); [contradiction|reflexivity]. Qed.
Lemma only_ret_same i (a : Rt i) : only_ret O i (existT _ i a) = [a].
Proof. unfold only_ret. cbn [projT1 projT2]. destruct (Nat.eq_dec i i) as [e|n]; [|now destruct n]. now rewrite (UIP_dec Nat.eq_dec e eq_refl). Qed.
Lemma only_ret_other i j (a : Rt j) : j <> i -> only_ret O i (existT _ j a) = [].
Proof. intros N. unfold only_ret. cbn [projT1]. destruct (Nat.eq_dec j i); [contradiction|reflexivity]. Qed.
Lemma only_app i a b : only O i (a ++ b) = only O i a ++ only O i b.
Proof. apply flat_map_app. Qed.

(** ** executions of one object *)
(** a goroutine: idle, or in a call of the object [i] *)
Inductive place := GIdle | GBusy (i : nat) (a : Op i) (k : code (St i) (Lb i) (Rt i)).
Definition whole (g : place) : status (all_states O) (any_label O) (any_op O) (any_ret O) :=
  match g with GIdle => Idle | GBusy i a k => Busy (existT _ i a) (at_object O i k) end.
Definition part (i : nat) (g : place) : status (St i) (Lb i) (Op i) (Rt i) :=
  match g with
  | GIdle => Idle
  | GBusy j a k => match Nat.eq_dec j i with left e => eq_rect j (fun j => status (St j) (Lb j) (Op j) (Rt j)) (Busy a k) i e | right _ => Idle end
  end.
Lemma part_same i a k : part i (GBusy i a k) = Busy a k.
Proof. unfold part. destruct (Nat.eq_dec i i) as [e|n]; [|now destruct n]. now rewrite (UIP_dec Nat.eq_dec e eq_refl). Qed.
Lemma part_other i j a k : j <> i -> part i (GBusy j a k) = Idle.
Proof. intros N. unfold part. destruct (Nat.eq_dec j i); [contradiction|reflexivity]. Qed.
Definition gset (G : nat -> place) (t : nat) (g : place) : nat -> place := fun u => if Nat.eqb u t then g else G u.
Definition shadow (c : config (all_states O) (any_label O) (any_op O) (any_ret O)) (tr : list (event (any_label O) (any_op O) (any_ret O))) : Prop :=
  exists G, (forall t, th c t = whole (G t)) /\
  forall i, exists sched, let r := cexec (o_body (O i)) (o_start (O i)) sched in
    sh (fst r) = sh c i /\ only O i (history tr) = history (snd r) /\ forall t, th (fst r) t = part i (G t).
Lemma whole_set (c : config (all_states O) (any_label O) (any_op O) (any_ret O)) G t g : (forall t, th c t = whole (G t)) -> forall u, tset (th c) t (whole g) u = whole (gset G t g u).
Proof. intros H u. unfold tset, gset. destruct (Nat.eqb u t); [reflexivity|apply H]. Qed.
Lemma part_set i (f : nat -> status (St i) (Lb i) (Op i) (Rt i)) G t g : (forall t, f t = part i (G t)) -> forall u, tset f t (part i g) u = part i (gset G t g u).
Proof. intros H u. unfold tset, gset. destruct (Nat.eqb u t); [reflexivity|apply H]. Qed.
Lemma part_keep i (f : nat -> status (St i) (Lb i) (Op i) (Rt i)) G t g : (forall t, f t = part i (G t)) -> part i (G t) = part i g -> forall u, f u = part i (gset G t g u).
Proof. intros H E u. unfold gset. destruct (Nat.eqb_spec u t) as [->|]; [rewrite H; exact E|apply H]. Qed.

Lemma shadow_call c tr t op : shadow c tr -> th c t = Idle -> shadow (MkConfig (sh c) (tset (th c) t (Busy op (objects_body O op)))) (tr ++ [EInv t op]).
Proof.
  intros (G & W & H) E. destruct op as [j a]. assert (Gt : G t = GIdle) by (rewrite W in E; destruct (G t); [reflexivity|discriminate]).
  exists (gset G t (GBusy j a (o_body (O j) a))). split; [intros u; cbn [th]; exact (whole_set c G t (GBusy j a (o_body (O j) a)) W u)|].
  intros i. destruct (H i) as (sched & S & Hi & T). pose proof (T t) as Tt. rewrite Gt in Tt.
  destruct (Nat.eq_dec j i) as [->|N].
  - exists (sched ++ [Call t a]). rewrite cexec_snoc. destruct (cexec (o_body (O i)) (o_start (O i)) sched) as [ci tri]. cbn [fst snd] in *. cbn [cstep]. rewrite Tt. cbn [part fst snd sh th].
    split; [exact S|]. split.
    + rewrite !history_app, only_app, Hi. cbn [history flat_map app only]. rewrite only_op_same. reflexivity.
    + rewrite <- part_same. now apply part_set.
  - exists sched. cbn [sh th]. split; [exact S|]. split.
    + rewrite history_app, only_app, Hi. cbn [history flat_map app only]. rewrite only_op_other by exact N. cbn. now rewrite app_nil_r.
    + apply part_keep; [exact T|]. rewrite Gt, part_other by exact N. reflexivity.
Qed.
Lemma shadow_ret c tr t op r : shadow c tr -> th c t = Busy op (Ret r) -> shadow (MkConfig (sh c) (tset (th c) t Idle)) (tr ++ [ERes t r]).
Proof.
  intros (G & W & H) E. rewrite W in E. destruct (G t) as [|j a k] eqn:Gt; [discriminate|]. cbn [whole] in E. destruct k as [b|]; [|discriminate]. cbn [at_object] in E. injection E as <- <-.
  exists (gset G t GIdle). split; [intros u; cbn [th]; exact (whole_set c G t GIdle W u)|].
  intros i. destruct (H i) as (sched & S & Hi & T). pose proof (T t) as Tt. rewrite Gt in Tt.
  destruct (Nat.eq_dec j i) as [->|N].
  - rewrite part_same in Tt. exists (sched ++ [Run t]). rewrite cexec_snoc. destruct (cexec (o_body (O i)) (o_start (O i)) sched) as [ci tri]. cbn [fst snd] in *. cbn [cstep]. rewrite Tt. cbn [fst snd sh th].
    split; [exact S|]. split.
    + rewrite !history_app, only_app, Hi. cbn [history flat_map app only]. rewrite only_ret_same. reflexivity.
    + exact (part_set i (th ci) G t GIdle T).
  - exists sched. cbn [sh th]. split; [exact S|]. split.
    + rewrite history_app, only_app, Hi. cbn [history flat_map app only]. rewrite only_ret_other by exact N. cbn. now rewrite app_nil_r.
    + apply part_keep; [exact T|]. rewrite Gt, part_other by exact N. reflexivity.
Qed.
Lemma shadow_act c tr t op e u l k : shadow c tr -> th c t = Busy op (Atom e u l k) -> e (sh c) = true ->
  shadow (MkConfig (u (sh c)) (tset (th c) t (Busy op (k (sh c))))) (tr ++ map (EStep t) (l (sh c))).
Proof.
  intros (G & W & H) E En. rewrite W in E. destruct (G t) as [|j a c0] eqn:Gt; [discriminate|]. cbn [whole] in E. destruct c0 as [b|e0 u0 l0 k0]; [discriminate|]. cbn [at_object] in E. injection E as <- <- <- <- <-.
  exists (gset G t (GBusy j a (k0 (sh c j)))). split; [intros v; cbn [th]; exact (whole_set c G t (GBusy j a (k0 (sh c j))) W v)|].
  intros i. destruct (H i) as (sched & S & Hi & T). pose proof (T t) as Tt. rewrite Gt in Tt.
  destruct (Nat.eq_dec j i) as [->|N].
  - rewrite part_same in Tt. exists (sched ++ [Run t]). rewrite cexec_snoc. destruct (cexec (o_body (O i)) (o_start (O i)) sched) as [ci tri]. cbn [fst snd] in *. cbn [cstep]. rewrite Tt, S, En. cbn [fst snd sh th].
    rewrite put_same. split; [reflexivity|]. split.
    + rewrite !history_app, only_app, !history_steps, Hi. reflexivity.
    + rewrite <- part_same. now apply part_set.
  - exists sched. cbn [sh th]. rewrite put_other by exact N. split; [exact S|]. split.
    + rewrite history_app, history_steps, app_nil_r. exact Hi.
    + apply part_keep; [exact T|]. rewrite Gt, !part_other by exact N. reflexivity.
Qed.
Lemma shadows sched : shadow (fst (objects_exec O sched)) (snd (objects_exec O sched)).
Proof.
  revert sched. apply (cexec_ind' (objects_body O) (objects_start O) shadow).
  - exists (fun _ => GIdle). split; [reflexivity|]. intros i. exists []. cbn. split; [reflexivity|]. split; [reflexivity|]. reflexivity.
  - intros. now apply shadow_call.
  - intros. eapply shadow_ret; eauto.
  - intros. eapply shadow_act; eauto.
Qed.

(** ** goroutines make one call at a time *)
Definition busy {X Y} (t : nat) (h : list (hevent X Y)) : bool :=
  fold_left (fun b e => match e with HInv u _ => if Nat.eqb u t then true else b | HRes u _ => if Nat.eqb u t then false else b end) h false.
Inductive orderly {X Y} : list (hevent X Y) -> Prop :=
| ord_nil : orderly []
| ord_inv h t op : orderly h -> busy t h = false -> orderly (h ++ [HInv t op])
| ord_res h t r : orderly h -> orderly (h ++ [HRes t r]).
Lemma busy_app {X Y} t (h : list (hevent X Y)) e : busy t (h ++ [e]) = match e with HInv u _ => if Nat.eqb u t then true else busy t h | HRes u _ => if Nat.eqb u t then false else busy t h end.
Proof. unfold busy. rewrite fold_left_app. reflexivity. Qed.
Lemma machine_orderly {S L X Y} (body : X -> code S L Y) s0 sched : orderly (history (snd (cexec body s0 sched))).
Proof.
  assert (P : (forall t, th (fst (cexec body s0 sched)) t = Idle -> busy t (history (snd (cexec body s0 sched))) = false) /\ orderly (history (snd (cexec body s0 sched)))); [|apply P].
  revert sched. apply (cexec_ind' body s0 (fun c tr => (forall t, th c t = Idle -> busy t (history tr) = false) /\ orderly (history tr))).
  - split; [reflexivity|constructor].
  - intros c tr t op (B & H) E. rewrite history_app. cbn [history flat_map app]. split; [|constructor; auto]. intros u. cbn [th]. rewrite busy_app. destruct (Nat.eqb_spec t u) as [->|N]; [rewrite tset_same; discriminate|]. rewrite tset_other by congruence. apply B.
  - intros c tr t op r (B & H) E. rewrite history_app. cbn [history flat_map app]. split; [|constructor; auto]. intros u. cbn [th]. rewrite busy_app. destruct (Nat.eqb_spec t u) as [->|N]; [reflexivity|]. rewrite tset_other by congruence. apply B.
  - intros c tr t op e u l k (B & H) E En. rewrite history_app, history_steps, app_nil_r. split; [|exact H]. intros v. cbn [th]. destruct (Nat.eq_dec v t) as [->|N]; [rewrite tset_same; discriminate|]. rewrite tset_other by exact N. apply B.
Qed.

(** ** extended histories *)
Section Valid.
Context {Q X Y : Type}.
Variable apply : Q -> X -> Q * Y.
Notation valid := (valid apply).
Lemma snoc_case {A} (l : list A) : l = [] \/ exists l' x, l = l' ++ [x].
Proof. destruct l as [|a l] using rev_ind; [now left|right; eauto]. Qed.
Lemma valid_nil_inv q f q' f' : valid q f [] q' f' -> q' = q /\ f' = f.
Proof. intros V. remember [] as l eqn:E. destruct V; [auto|..]; now apply app_eq_nil in E as [_ ?]. Qed.
Lemma valid_split q f l q' f' : valid q f l q' f' -> forall a b, l = a ++ b -> exists qm fm, valid q f a qm fm /\ valid qm fm b q' f'.
Proof.
  induction 1 as [q f|q f l q' f' t op V IH E|q f l q' f' t op q'' r V IH E A|q f l q' f' t r V IH E]; intros a b Hl.
  - symmetry in Hl. apply app_eq_nil in Hl. destruct Hl as [-> ->]. exists q, f. split; constructor.
  - destruct (snoc_case b) as [->|(b' & x & ->)].
    + rewrite app_nil_r in Hl. subst a. eexists _, _. split; [eapply valid_inv; eauto|constructor].
    + rewrite app_assoc in Hl. apply app_inj_tail in Hl. destruct Hl as [Hl <-]. destruct (IH a b' Hl) as (qm & fm & V1 & V2). exists qm, fm. split; [exact V1|eapply valid_inv; eauto].
  - destruct (snoc_case b) as [->|(b' & x & ->)].
    + rewrite app_nil_r in Hl. subst a. eexists _, _. split; [eapply valid_lin; eauto|constructor].
    + rewrite app_assoc in Hl. apply app_inj_tail in Hl. destruct Hl as [Hl <-]. destruct (IH a b' Hl) as (qm & fm & V1 & V2). exists qm, fm. split; [exact V1|eapply valid_lin; eauto].
  - destruct (snoc_case b) as [->|(b' & x & ->)].
    + rewrite app_nil_r in Hl. subst a. eexists _, _. split; [eapply valid_res; eauto|constructor].
    + rewrite app_assoc in Hl. apply app_inj_tail in Hl. destruct Hl as [Hl <-]. destruct (IH a b' Hl) as (qm & fm & V1 & V2). exists qm, fm. split; [exact V1|eapply valid_res; eauto].
Qed.
Lemma valid_silent q l q' f' : valid q (fun _ => TIdle) l q' f' -> erase l = [] -> l = [] /\ q' = q /\ f' = (fun _ => TIdle).
Proof.
  intros V. remember (fun _ : nat => @TIdle X Y) as f0 eqn:E0. induction V as [q f|q f l q' f' t op V IH E|q f l q' f' t op q'' r V IH E A|q f l q' f' t r V IH E]; intros H; [auto|..];
    rewrite erase_app in H; apply app_eq_nil in H; destruct H as [H1 H2]; try discriminate H2.
  destruct (IH E0 H1) as (_ & _ & ->). subst f. discriminate E.
Qed.
Lemma valid_busy q l q' f' t : valid q (fun _ => TIdle) l q' f' -> (f' t = TIdle <-> busy t (erase l) = false).
Proof.
  intros V. remember (fun _ : nat => @TIdle X Y) as f0 eqn:E0. induction V as [q f|q f l q' f' u op V IH E|q f l q' f' u op q'' r V IH E A|q f l q' f' u r V IH E]; rewrite ?erase_app; cbn [erase flat_map app].
  - subst f. cbn. tauto.
  - rewrite busy_app. unfold tupd. rewrite (Nat.eqb_sym t u). destruct (Nat.eqb u t); [split; discriminate|apply IH, E0].
  - rewrite app_nil_r. unfold tupd. destruct (Nat.eqb_spec t u) as [->|]; [|apply IH, E0]. rewrite <- (IH E0), E. split; discriminate.
  - rewrite busy_app. unfold tupd. rewrite (Nat.eqb_sym t u). destruct (Nat.eqb u t); [tauto|apply IH, E0].
Qed.
Definition event_of (e : hevent X Y) : xevent X Y := match e with HInv t op => XInv t op | HRes t r => XRes t r end.
Lemma erase_split (l : list (xevent X Y)) h e : erase l = h ++ [e] -> exists l1 l2, l = l1 ++ event_of e :: l2 /\ erase l1 = h /\ erase l2 = [].
Proof.
  induction l as [|x l IH] using rev_ind; intros H; [now apply app_cons_not_nil in H|]. rewrite erase_app in H. destruct x as [t op|t|t r]; cbn [erase flat_map app] in H.
  - apply app_inj_tail in H. destruct H as [H <-]. exists l, []. auto.
  - rewrite app_nil_r in H. destruct (IH H) as (l1 & l2 & -> & E1 & E2). exists l1, (l2 ++ [XLin t]). rewrite <- app_assoc. split; [reflexivity|]. split; [exact E1|]. rewrite erase_app, E2. reflexivity.
  - apply app_inj_tail in H. destruct H as [H <-]. exists l, []. auto.
Qed.
Lemma valid_event q f e q' f' : valid q f [event_of e] q' f' -> q' = q /\
  match e with HInv t op => f t = TIdle /\ f' = tupd f t (TPending op) | HRes t r => f t = TDone r /\ f' = tupd f t TIdle end.
Proof.
  intros V. remember [event_of e] as l eqn:El. destruct V as [q f|q f l q' f' t op V E|q f l q' f' t op q'' r V E A|q f l q' f' t r V E]; [discriminate|..]; change [event_of e] with ([] ++ [event_of e]) in El; apply app_inj_tail in El; destruct El as [-> El];
    apply valid_nil_inv in V; destruct V as [-> ->]; destruct e; try discriminate El; injection El as <- <-; auto.
Qed.
End Valid.

(** ** putting the objects' histories together *)
Section Merge.
Variable Q : nat -> Type.
Variable apply : forall i, Q i -> Op i -> Q i * Rt i.
Variable q0 : forall i, Q i.
Definition up (i : nat) (x : @tstat (Op i) (Rt i)) : @tstat (any_op O) (any_ret O) :=
  match x with TIdle => TIdle | TPending a => TPending (existT _ i a) | TDone r => TDone (existT _ i r) end.
Definition agree (F : nat -> @tstat (any_op O) (any_ret O)) (fs : forall i, nat -> @tstat (Op i) (Rt i)) : Prop := forall t i, fs i t <> TIdle -> F t = up i (fs i t).
Notation pvalid := (valid (apply_at O Q apply) q0 (fun _ => TIdle)).
Lemma up_same i j x y : x <> TIdle -> up i x = up j y -> i = j.
Proof. destruct x, y; cbn; intros N H; try congruence; now injection H. Qed.
Lemma agree_set F fs i t x fs' : agree F fs -> (F t = TIdle \/ F t = up i (fs i t) /\ fs i t <> TIdle) ->
  fs' i t = x -> (forall u, u <> t -> fs' i u = fs i u) -> (forall j u, j <> i -> fs' j u = fs j u) -> agree (tupd F t (up i x)) fs'.
Proof.
  intros A Ft E1 E2 E3 u j N. destruct (Nat.eq_dec u t) as [->|M].
  - rewrite tupd_same. destruct (Nat.eq_dec j i) as [->|Nj]; [now rewrite E1|]. rewrite E3 in N by exact Nj. specialize (A t j N). exfalso. destruct Ft as [Ft|[Ft Ni]].
    + rewrite Ft in A. destruct (fs j t); [now apply N|discriminate|discriminate].
    + rewrite Ft in A. apply Nj. symmetry. now apply up_same in A.
  - rewrite tupd_other by exact M. destruct (Nat.eq_dec j i) as [->|Nj]; [rewrite E2 in * by exact M|rewrite E3 in * by exact Nj]; apply A, N.
Qed.
Lemma agree_ext F fs fs' : agree F fs -> (forall i t, fs' i t = fs i t) -> agree F fs'.
Proof. intros A E t i N. rewrite E in *. now apply A. Qed.
(** instants without events *)
Lemma merge_instants i q f l q' f' : valid (apply i) q f l q' f' -> erase l = [] -> forall L Qs F fs,
  pvalid L Qs F -> Qs i = q -> agree F fs -> (forall t, fs i t = f t) ->
  exists L' Qs' F', erase L' = erase L /\ pvalid L' Qs' F' /\ Qs' i = q' /\ (forall j, j <> i -> Qs' j = Qs j) /\
    forall fs', (forall t, fs' i t = f' t) -> (forall j t, j <> i -> fs' j t = fs j t) -> agree F' fs'.
Proof.
  induction 1 as [q f|q f l q' f' t op V IH E|q f l q' f' t op q'' r V IH E A|q f l q' f' t r V IH E]; intros Hl L Qs F fs P EQ Ag Ef.
  - exists L, Qs, F. split; [reflexivity|]. split; [exact P|]. split; [exact EQ|]. split; [reflexivity|]. intros fs' E1 E2. apply (agree_ext F fs); [exact Ag|]. intros j t. destruct (Nat.eq_dec j i) as [->|N]; [now rewrite E1, Ef|now apply E2].
  - rewrite erase_app in Hl. apply app_eq_nil in Hl. now destruct Hl as [_ ?].
  - rewrite erase_app in Hl. apply app_eq_nil in Hl. destruct Hl as [Hl _]. destruct (IH Hl L Qs F fs P EQ Ag Ef) as (L' & Qs' & F' & EL & P' & EQ' & EO & Ag').
    set (fm := put fs i f' : forall j, nat -> @tstat (Op j) (Rt j)).
    assert (Am : agree F' fm) by (apply Ag'; [intros u; unfold fm; now rewrite put_same|intros j u N; unfold fm; now rewrite put_other by congruence]).
    assert (Ft : F' t = TPending (existT _ i op)) by (rewrite (Am t i); unfold fm; rewrite put_same, E; [reflexivity|discriminate]).
    exists (L' ++ [XLin t]), (put Qs' i q''), (tupd F' t (TDone (existT _ i r))). split; [rewrite erase_app, EL; cbn; now rewrite app_nil_r|]. split.
    { apply (valid_lin _ _ _ _ Qs' F' t (existT _ i op)); [exact P'|exact Ft|]. unfold apply_at. rewrite EQ', A. reflexivity. }
    split; [apply put_same|]. split; [intros j N; rewrite put_other by congruence; now apply EO|].
    intros fs' E1 E2. apply (agree_set F' fm i t (TDone r) fs'); [exact Am|right; unfold fm; rewrite put_same, E, Ft; split; [reflexivity|discriminate]|rewrite E1; apply tupd_same|..].
    + intros u N. rewrite E1, tupd_other by exact N. unfold fm. now rewrite put_same.
    + intros j u N. unfold fm. rewrite put_other by congruence. now apply E2.
  - rewrite erase_app in Hl. apply app_eq_nil in Hl. now destruct Hl as [_ ?].
Qed.
Lemma merge : forall h, orderly h -> forall (fam : forall i, list (xevent (Op i) (Rt i))) qs (fs : forall i, nat -> @tstat (Op i) (Rt i)),
  (forall i, erase (fam i) = only O i h /\ valid (apply i) (q0 i) (fun _ => TIdle) (fam i) (qs i) (fs i)) ->
  exists L Qs F, erase L = h /\ pvalid L Qs F /\ (forall i, Qs i = qs i) /\ agree F fs.
Proof.
  (* one more event [e], of the object [i], that is [ei] there *)
  assert (Step : forall h i t e ei, match e, ei with
      | HInv u (existT _ j a), HInv v b => u = t /\ v = t /\ busy t h = false /\ existT (fun j => Op j) j a = existT _ i b
      | HRes u (existT _ j a), HRes v b => u = t /\ v = t /\ existT (fun j => Rt j) j a = existT _ i b
      | _, _ => False end ->
    (forall fam qs fs, (forall i, erase (fam i) = only O i h /\ valid (apply i) (q0 i) (fun _ => TIdle) (fam i) (qs i) (fs i)) ->
      exists L Qs F, erase L = h /\ pvalid L Qs F /\ (forall i, Qs i = qs i) /\ agree F fs) ->
    (forall j, only O j (h ++ [e]) = only O j h ++ match Nat.eq_dec i j with left E => [eq_rect i (fun j => hevent (Op j) (Rt j)) ei j E] | right _ => [] end) ->
    forall fam qs fs, (forall i, erase (fam i) = only O i (h ++ [e]) /\ valid (apply i) (q0 i) (fun _ => TIdle) (fam i) (qs i) (fs i)) ->
      exists L Qs F, erase L = h ++ [e] /\ pvalid L Qs F /\ (forall i, Qs i = qs i) /\ agree F fs).
  { intros h i t e ei Me IH Hon fam qs fs H. destruct (H i) as (Ei & Vi). rewrite Hon in Ei. destruct (Nat.eq_dec i i) as [e0|n]; [|now destruct n]. rewrite (UIP_dec Nat.eq_dec e0 eq_refl) in Ei. cbn [eq_rect] in Ei. clear e0.
    destruct (erase_split _ _ _ Ei) as (l1 & l2 & El & E1 & E2). destruct (valid_split _ _ _ _ _ _ Vi l1 (event_of ei :: l2) El) as (qm & fm & V1 & V2).
    destruct (valid_split _ _ _ _ _ _ V2 [event_of ei] l2 eq_refl) as (q1 & f1 & V3 & V4). apply valid_event in V3. destruct V3 as (-> & Hf).
    destruct (IH (put fam i l1) (put qs i qm) (put fs i fm : forall j, nat -> @tstat (Op j) (Rt j))) as (L & Qs & F & EL & P & EQ & Ag).
    { intros j. destruct (Nat.eq_dec i j) as [<-|N]; [rewrite !put_same; auto|]. rewrite !put_other by exact N. destruct (H j) as (Ej & Vj). rewrite Hon in Ej. destruct (Nat.eq_dec i j); [contradiction|]. rewrite app_nil_r in Ej. auto. }
    assert (P1 : exists F1, pvalid (L ++ [event_of e]) Qs F1 /\ agree F1 (put fs i f1 : forall j, nat -> @tstat (Op j) (Rt j))).
    { destruct e as [u [j a]|u [j a]], ei as [v b|v b]; try contradiction; cbn [event_of] in *.
      - destruct Me as (-> & -> & B & Eab). destruct Hf as (Hf & ->). exists (tupd F t (TPending (existT _ j a))). split.
        + apply valid_inv; [exact P|]. apply (proj2 (valid_busy _ _ _ _ _ t P)). now rewrite EL.
        + rewrite Eab. apply (agree_set F _ i t (TPending b) _ Ag); [left; apply (proj2 (valid_busy _ _ _ _ _ t P)); now rewrite EL|rewrite put_same; apply tupd_same|..].
          * intros u N. rewrite !put_same. now apply tupd_other.
          * intros k u N. now rewrite !put_other by congruence.
      - destruct Me as (-> & -> & Eab). destruct Hf as (Hf & ->). assert (Ft : F t = TDone (existT _ i b)) by (rewrite (Ag t i); rewrite put_same, Hf; [reflexivity|discriminate]).
        exists (tupd F t TIdle). split; [rewrite Eab; now apply valid_res|].
        apply (agree_set F _ i t TIdle _ Ag); [right; rewrite put_same, Hf; split; [exact Ft|discriminate]|rewrite put_same; apply tupd_same|..].
        * intros u N. rewrite !put_same. now apply tupd_other.
        * intros k u N. now rewrite !put_other by congruence. }
    destruct P1 as (F1 & P1 & A1).
    destruct (merge_instants i _ _ _ _ _ V4 E2 _ _ _ (put fs i f1 : forall j, nat -> @tstat (Op j) (Rt j)) P1) as (L' & Qs' & F' & EL' & P' & EQi & EQo & Ag'); [now rewrite EQ, put_same|exact A1|now rewrite put_same|].
    exists L', Qs', F'. split; [rewrite EL', erase_app, EL; destruct e; reflexivity|]. split; [exact P'|]. split.
    - intros j. destruct (Nat.eq_dec j i) as [->|N]; [exact EQi|]. rewrite EQo by exact N. rewrite EQ. now rewrite put_other by congruence.
    - apply Ag'; [reflexivity|]. intros j u N. now rewrite put_other by congruence. }
  induction 1 as [|h t [i a] O1 IH B|h t [i r] O1 IH].
  - intros fam qs fs H. exists [], q0, (fun _ => TIdle). split; [reflexivity|]. split; [constructor|]. split.
    + intros i. destruct (H i) as (E & V). destruct (valid_silent _ _ _ _ _ V E) as (_ & -> & _). reflexivity.
    + intros t i N. destruct (H i) as (E & V). destruct (valid_silent _ _ _ _ _ V E) as (_ & _ & E3). rewrite E3 in N. now destruct N.
  - apply (Step h i t _ (HInv t a)); [auto|exact IH|]. intros j. rewrite only_app. f_equal. cbn [only flat_map app]. rewrite app_nil_r. destruct (Nat.eq_dec i j) as [<-|N]; [rewrite only_op_same; reflexivity|now rewrite only_op_other].
  - apply (Step h i t _ (HRes t r)); [auto|exact IH|]. intros j. rewrite only_app. f_equal. cbn [only flat_map app]. rewrite app_nil_r. destruct (Nat.eq_dec i j) as [<-|N]; [rewrite only_ret_same; reflexivity|now rewrite only_ret_other].
Qed.

(** only finitely many objects occur *)
Lemma finite_choice (A : nat -> Type) (P : forall i, A i -> Prop) (d : forall i, A i) n : (forall i, exists x, P i x) -> exists f : forall i, A i, forall i, i < n -> P i (f i).
Proof.
  intros H. induction n as [|n (f & IH)]; [exists d; intros; lia|]. destruct (H n) as (x & Hx). exists (put f n x). intros i L. destruct (Nat.eq_dec n i) as [<-|N]; [now rewrite put_same|]. rewrite put_other by exact N. apply IH. lia.
Qed.
Lemma occurring h : exists n, forall i, n <= i -> only O i h = [].
Proof.
  induction h as [|e h (n & IH)] using rev_ind; [exists 0; reflexivity|]. set (j := match e with HInv _ op => projT1 op | HRes _ r => projT1 r end). exists (Nat.max n (S j)). intros i L. rewrite only_app, IH by lia.
  destruct e as [t [k a]|t [k r]]; cbn in j; subst j; cbn [only flat_map app]; [rewrite only_op_other by lia|rewrite only_ret_other by lia]; reflexivity.
Qed.
Lemma locality h : orderly h -> (forall i, linearizable (apply i) (q0 i) (only O i h)) -> linearizable (apply_at O Q apply) q0 h.
Proof.
  intros Oh H. destruct (occurring h) as (n & Hn).
  set (A := fun i => (list (xevent (Op i) (Rt i)) * Q i * (nat -> @tstat (Op i) (Rt i)))%type).
  set (P := fun i (x : A i) => erase (fst (fst x)) = only O i h /\ valid (apply i) (q0 i) (fun _ => TIdle) (fst (fst x)) (snd (fst x)) (snd x)).
  destruct (finite_choice A P (fun i => ([], q0 i, fun _ => TIdle)) n) as (f & Hf).
  { intros i. destruct (H i) as (l & q & f & E & V). exists (l, q, f). split; assumption. }
  set (g := fun i => if i <? n then f i else ([], q0 i, fun _ => TIdle) : A i).
  assert (G : forall i, P i (g i)). { intros i. unfold g. destruct (Nat.ltb_spec i n) as [L|L]; [now apply Hf|]. split; cbn; [now rewrite Hn|constructor]. }
  destruct (merge h Oh (fun i => fst (fst (g i))) (fun i => snd (fst (g i))) (fun i => snd (g i)) G) as (L & Qs & F & E & V & _). exists L, Qs, F. auto.
Qed.
(** objects that are linearizable are linearizable together *)
Lemma objects_linearizable sched : (forall i sched, linearizable (apply i) (q0 i) (history (snd (cexec (o_body (O i)) (o_start (O i)) sched)))) ->
  linearizable (apply_at O Q apply) q0 (history (snd (objects_exec O sched))).
Proof.
  intros H. apply locality; [apply machine_orderly|]. intros i. destruct (shadows sched) as (G & _ & S). destruct (S i) as (sched_i & _ & E & _). rewrite E. apply H.
Qed.
End Merge.
End Objects.
