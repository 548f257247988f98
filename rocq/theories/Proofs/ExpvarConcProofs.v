(** Requests served at the same time: the invariant. *)
From Coq Require Import ZArith List String Bool Lia Arith.
From Verif.Model Require Import GoInt GoFloat GoBase World Conc Expvar ExpvarConc.
From Verif.Spec Require Import Traces ExpvarSpec MutexSpec ExpvarConcSpec.
From Verif.Proofs Require Import LinProofs LogFacts ExpvarProofs.
Import ListNotations.
Local Open Scope nat_scope.
Local Open Scope list_scope.

Notation conf := (config exps (string * evar) request Expvar.outcome).
Notation trace := (list (event (string * evar) request Expvar.outcome)).

(** ** where a goroutine is *)
Inductive pc := PLock | PGet | PPub | PUnl | PSet.
Record ab := Ab { a_req : request; a_done : list (string * evar); a_todo : list (string * evar); a_pc : pc }.
Definition code_of (h : nat) (todo : list (string * evar)) (p : pc) : xcode :=
  match todo with
  | [] => Ret Done
  | (n, x) :: l => match p with PLock => c_one h n x (c_sync h l) | PGet => c_get h n x (c_sync h l) | PPub => c_publish h n x (c_sync h l) | PUnl => c_unlock h n x (c_sync h l) | PSet => c_set n x (c_sync h l) end
  end.
Definition status_of (a : option ab) : status exps (string * evar) request Expvar.outcome :=
  match a with None => Idle | Some a => Busy (a_req a) (code_of (handler (a_req a)) (a_todo a) (a_pc a)) end.
Lemma sync_code h l : c_sync h l = code_of h l PLock.
Proof. destruct l as [|[n x] l]; reflexivity. Qed.
Definition insb (a : ab) : bool := match a_todo a, a_pc a with _ :: _, PGet | _ :: _, PPub | _ :: _, PUnl => true | _, _ => false end.
Definition inside (h : nat) (a : option ab) : Prop := match a with Some a => handler (a_req a) = h /\ insb a = true | None => False end.
Definition aupd (A : nat -> option ab) (t : nat) (x : option ab) (u : nat) : option ab := if Nat.eqb u t then x else A u.
Lemma aupd_same A t x : aupd A t x t = x. Proof. unfold aupd. now rewrite Nat.eqb_refl. Qed.
Lemma aupd_other A t x u : u <> t -> aupd A t x u = A u. Proof. unfold aupd. intros H. destruct (Nat.eqb_spec u t); congruence. Qed.

Lemma same_type_eq x y : same_type x y = true <-> type_of x = type_of y /\ type_of y <> TOther.
Proof. destruct x, y; cbn; split; intros H; try discriminate; try (destruct H; congruence); try (split; [reflexivity|discriminate]); reflexivity. Qed.
Lemma zero_type x : type_of (zero_of x) = type_of x. Proof. destruct x; reflexivity. Qed.

Section Inv.
Variable t0 : list (string * evar).
Variable Q : request -> Prop.
Hypothesis Ty0 : forall r name x, Q r -> In (name, x) (sets r) -> type_of x <> TOther /\ forall y, published t0 name = Some y -> type_of y = type_of x.
Hypothesis Ty : forall r r' name x x', Q r -> Q r' -> In (name, x) (sets r) -> In (name, x') (sets r') -> type_of x = type_of x'.
Hypothesis Own : forall r r' name x x', Q r -> Q r' -> In (name, x) (sets r) -> In (name, x') (sets r') -> published t0 name = None -> handler r = handler r'.

(** what a goroutine relies on *)
Definition relies (tb : list (string * evar)) (a : ab) : Prop :=
  Q (a_req a) /\ sets (a_req a) = a_done a ++ a_todo a /\ (a_todo a = [] -> a_pc a = PLock) /\
  forall n x l, a_todo a = (n, x) :: l ->
    match a_pc a with PPub => published tb n = None | PUnl | PSet => exists y, published tb n = Some y | _ => True end.
Definition table_ok (tb : list (string * evar)) : Prop :=
  (forall n y r x, published tb n = Some y -> Q r -> In (n, x) (sets r) -> type_of y = type_of x) /\
  (forall n, published t0 n <> None -> published tb n <> None).
Definition core (c : conf) (A : nat -> option ab) : Prop :=
  (forall t, th c t = status_of (A t)) /\ (forall t a, A t = Some a -> relies (tbl (sh c)) a) /\ table_ok (tbl (sh c)) /\
  (forall t u h, inside h (A t) -> inside h (A u) -> t = u) /\ (forall h, held (sh c) h = true <-> exists t, inside h (A t)).

(** the step of a goroutine, and what is observed of it *)
Definition anext (tb : list (string * evar)) (a : ab) : ab :=
  match a_todo a with
  | [] => a
  | (n, x) :: l => match a_pc a with
    | PLock => Ab (a_req a) (a_done a) (a_todo a) PGet
    | PGet => Ab (a_req a) (a_done a) (a_todo a) (match published tb n with Some _ => PUnl | None => PPub end)
    | PPub => Ab (a_req a) (a_done a) (a_todo a) PUnl
    | PUnl => Ab (a_req a) (a_done a) (a_todo a) PSet
    | PSet => Ab (a_req a) (a_done a ++ [(n, x)]) l PLock
    end
  end.
Definition alab (a : ab) : list (string * evar) := match a_todo a, a_pc a with kx :: _, PSet => [kx] | _, _ => [] end.
Definition atbl (tb : list (string * evar)) (a : ab) : list (string * evar) :=
  match a_todo a with
  | [] => tb
  | (n, x) :: _ => match a_pc a with PPub => var_put n (zero_of x) tb | PSet => var_put n x tb | _ => tb end
  end.
Definition aheld (hd : nat -> bool) (a : ab) (h : nat) : bool :=
  match a_todo a with
  | [] => hd h
  | _ => match a_pc a with PLock => if Nat.eqb h (handler (a_req a)) then true else hd h | PUnl => if Nat.eqb h (handler (a_req a)) then false else hd h | _ => hd h end
  end.
Definition aready (hd : nat -> bool) (a : ab) : bool := match a_todo a, a_pc a with _ :: _, PLock => negb (hd (handler (a_req a))) | _, _ => true end.

Lemma step_code (c : conf) a op e u l k : Busy op (Atom e u l k) = status_of (Some a) -> relies (tbl (sh c)) a -> table_ok (tbl (sh c)) ->
  op = a_req a /\ a_todo a <> [] /\ e (sh c) = aready (held (sh c)) a /\ l (sh c) = alab a /\ Busy op (k (sh c)) = status_of (Some (anext (tbl (sh c)) a)) /\
  tbl (u (sh c)) = atbl (tbl (sh c)) a /\ forall h, held (u (sh c)) h = aheld (held (sh c)) a h.
Proof.
  intros E (Qa & Es & _ & Re) (T1 & _). cbn [status_of] in E. injection E as -> E. unfold aready, alab, anext, atbl, aheld, status_of. destruct a as [r d todo p]. cbn [a_req a_done a_todo a_pc] in *.
  destruct todo as [|[n x] td]; [discriminate E|]. specialize (Re n x td eq_refl). split; [reflexivity|]. split; [discriminate|]. cbn [code_of] in E. destruct p.
  - unfold c_one in E. injection E as -> -> -> ->. repeat split; reflexivity.
  - unfold c_get in E. injection E as -> -> -> ->. split; [reflexivity|]. split; [reflexivity|]. split; [|split; [reflexivity|reflexivity]]. cbn [a_req a_todo a_pc code_of]. rewrite published_get. destruct (var_get n (tbl (sh c))) as [y|] eqn:G; [|reflexivity].
    assert (X : same_type y x = true). { apply same_type_eq. assert (I : In (n, x) (sets r)) by (rewrite Es; apply in_or_app; right; now left). split; [|now apply (Ty0 r n)]. apply (T1 n y r x); [now rewrite published_get|exact Qa|exact I]. } now rewrite X.
  - unfold c_publish in E. injection E as -> -> -> ->. rewrite published_get in Re. rewrite Re. repeat split; reflexivity.
  - unfold c_unlock in E. injection E as -> -> -> ->. repeat split; reflexivity.
  - unfold c_set in E. injection E as -> -> -> ->. split; [reflexivity|]. split; [reflexivity|]. split; [|split; reflexivity]. cbn [a_req a_todo a_pc]. now rewrite <- sync_code.
Qed.

(** other goroutines *)
Lemma put_published tb n x m : published (var_put n x tb) m = if String.eqb m n then Some x else published tb m.
Proof. apply put_get. Qed.
Lemma table_step tb a : relies tb a -> table_ok tb -> table_ok (atbl tb a).
Proof.
  intros (Qa & Es & _ & _) (T1 & T2). unfold atbl. destruct (a_todo a) as [|[n x] l] eqn:Et; [split; assumption|].
  assert (I : In (n, x) (sets (a_req a))) by (rewrite Es; apply in_or_app; right; now left).
  destruct (a_pc a); try (split; assumption); (split; [|intros m Hm; rewrite put_published; destruct (String.eqb m n); [discriminate|auto]]);
    intros m y r z; rewrite put_published; (destruct (String.eqb_spec m n) as [->|]; [|now apply T1]); intros [= <-] Qr Hz; rewrite ?zero_type; now apply (Ty (a_req a) r n).
Qed.
Lemma others_step tb a b : relies tb a -> relies tb b -> table_ok tb -> (forall h, inside h (Some a) -> ~ inside h (Some b)) -> relies (atbl tb a) b.
Proof.
  intros (Qa & Esa & _ & Ra) (Qb & Esb & Eb & Rb) (T1 & T2) Ex. split; [exact Qb|]. split; [exact Esb|]. split; [exact Eb|]. intros n x l Hn. specialize (Rb n x l Hn). unfold atbl. destruct (a_todo a) as [|[m z] la] eqn:Ea; [exact Rb|]. specialize (Ra m z la eq_refl).
  assert (Ib : In (n, x) (sets (a_req b))) by (rewrite Esb, Hn; apply in_or_app; right; now left).
  assert (Ia : In (m, z) (sets (a_req a))) by (rewrite Esa; apply in_or_app; right; now left).
  destruct (a_pc a) eqn:Pa; try exact Rb; destruct (a_pc b) eqn:Pb; auto; rewrite put_published; destruct (String.eqb_spec n m) as [->|]; eauto.
  - exfalso. assert (N0 : published t0 m = None) by (destruct (published t0 m) eqn:X; [|reflexivity]; exfalso; apply (T2 m); congruence).
    pose proof (Own _ _ m z x Qa Qb Ia Ib N0) as Hh. apply (Ex (handler (a_req a))); cbn [inside].
    + split; [reflexivity|]. unfold insb. now rewrite Ea, Pa.
    + split; [now symmetry|]. unfold insb. now rewrite Hn, Pb.
  - exfalso. destruct Ra as (y & Hy). congruence.
Qed.
Lemma self_step tb a : relies tb a -> relies (atbl tb a) (anext tb a).
Proof.
  intros (Qa & Es & Ea & Ra). unfold atbl, anext. destruct (a_todo a) as [|[n x] l] eqn:Et; [repeat split; auto; rewrite ?Et; auto; discriminate|]. specialize (Ra n x l eq_refl).
  destruct (a_pc a); (split; [exact Qa|]); cbn [a_req a_done a_todo a_pc]; (split; [first [now rewrite Es, <- app_assoc|exact Es]|]); (split; [try discriminate; try reflexivity|]); try (intros m y l' [= <- <- <-]); try exact Logic.I.
  - destruct (published tb n) eqn:G; [eauto|reflexivity].
  - exists (zero_of x). rewrite put_published, String.eqb_refl. reflexivity.
  - exact Ra.
  - intros m y l' _. exact Logic.I.
Qed.
Lemma next_req tb a : a_req (anext tb a) = a_req a.
Proof. unfold anext. destruct (a_todo a) as [|[n x] l]; [reflexivity|]. destruct (a_pc a); reflexivity. Qed.
Lemma inside_next tb hd a : aready hd a = true -> a_todo a <> [] ->
  (forall h, aheld hd a h = if Nat.eqb h (handler (a_req a)) then if Bool.eqb (insb a) (insb (anext tb a)) then hd h else insb (anext tb a) else hd h) /\
  (insb a = false -> insb (anext tb a) = true -> hd (handler (a_req a)) = false).
Proof.
  unfold aready, aheld, anext, insb. destruct (a_todo a) as [|[n x] l] eqn:Et; [congruence|]. intros R _. destruct (a_pc a) eqn:Pa; cbn [a_todo a_pc]; rewrite ?Et.
  - apply negb_true_iff in R. split; [intros h; destruct (Nat.eqb_spec h (handler (a_req a))); reflexivity|auto].
  - destruct (published tb n); (split; [intros h; now destruct (Nat.eqb h (handler (a_req a)))|discriminate]).
  - split; [intros h; now destruct (Nat.eqb h (handler (a_req a)))|discriminate].
  - split; [intros h; now destruct (Nat.eqb h (handler (a_req a)))|discriminate].
  - split; [intros h; destruct l; now destruct (Nat.eqb h (handler (a_req a)))|destruct l; discriminate].
Qed.

Lemma core_step (c : conf) A t op e u l k : core c A -> th c t = Busy op (Atom e u l k) -> e (sh c) = true ->
  exists a, A t = Some a /\ op = a_req a /\ a_todo a <> [] /\ l (sh c) = alab a /\ tbl (u (sh c)) = atbl (tbl (sh c)) a /\
    core (MkConfig (u (sh c)) (tset (th c) t (Busy op (k (sh c))))) (aupd A t (Some (anext (tbl (sh c)) a))).
Proof.
  intros (C0 & C1 & C2 & C3 & C4) Et En. pose proof (C0 t) as Ct. rewrite Et in Ct. destruct (A t) as [a|] eqn:Ea; [|discriminate Ct].
  destruct (step_code c a op e u l k Ct (C1 t a Ea) C2) as (Eo & Tn & Ee & El & Ek & Eu & Eh). exists a. split; [reflexivity|]. split; [exact Eo|]. split; [exact Tn|]. split; [exact El|]. split; [exact Eu|].
  rewrite Ee in En.
  assert (Hd : forall h, inside h (Some a) -> held (sh c) h = true) by (intros h H; apply C4; exists t; now rewrite Ea).
  destruct (inside_next (tbl (sh c)) (held (sh c)) a En Tn) as (H1 & H2). pose proof (next_req (tbl (sh c)) a) as Hr. set (a' := anext (tbl (sh c)) a) in *.
  assert (X : forall v h, v <> t -> inside h (Some a') -> inside h (A v) -> False).
  { intros v h N (E1 & I1) Iv. rewrite Hr in E1. destruct (insb a) eqn:Ia; [apply N, (C3 v t h Iv); rewrite Ea; split; auto|].
    specialize (H2 eq_refl I1). rewrite E1 in H2. assert (held (sh c) h = true) by (apply C4; eauto). congruence. }
  split; [|split; [|split; [|split]]].
  - intros v. cbn [th]. destruct (Nat.eq_dec v t) as [->|N]; [rewrite tset_same, aupd_same; exact Ek|]. rewrite tset_other, aupd_other by exact N. apply C0.
  - intros v b. cbn [sh]. rewrite Eu. destruct (Nat.eq_dec v t) as [->|N].
    + rewrite aupd_same. intros [= <-]. apply self_step. exact (C1 t a Ea).
    + rewrite aupd_other by exact N. intros Eb. apply others_step; [exact (C1 t a Ea)|exact (C1 v b Eb)|exact C2|]. intros h I1 I2. apply N. apply (C3 v t h); [now rewrite Eb|now rewrite Ea].
  - cbn [sh]. rewrite Eu. apply table_step; [exact (C1 t a Ea)|exact C2].
  - intros v w h. destruct (Nat.eq_dec v t) as [->|Nv], (Nat.eq_dec w t) as [->|Nw]; rewrite ?aupd_same, ?aupd_other by assumption; auto.
    + intros I1 I2. exfalso. eauto.
    + intros I1 I2. exfalso. eauto.
    + apply C3.
  - intros h. cbn [sh]. rewrite Eh, H1. destruct (Nat.eqb_spec h (handler (a_req a))) as [->|Nh].
    + assert (O : forall v, v <> t -> inside (handler (a_req a)) (A v) -> insb a = false /\ insb a' = false).
      { intros v N Iv. split.
        - destruct (insb a) eqn:Ia; [|reflexivity]. elim N. apply (C3 v t _ Iv). rewrite Ea. split; auto.
        - destruct (insb a') eqn:Ia; [|reflexivity]. exfalso. apply (X v _ N (conj (f_equal handler Hr) Ia) Iv). }
      destruct (insb a') eqn:Ia'.
      * split; [|intros _; destruct (insb a) eqn:Ia; [apply Hd; split; auto|reflexivity]]. intros _. exists t. rewrite aupd_same. split; [now rewrite Hr|exact Ia'].
      * destruct (insb a) eqn:Ia; cbn [Bool.eqb]; (split; [|intros (v & Iv); destruct (Nat.eq_dec v t) as [->|N]; [rewrite aupd_same in Iv; destruct Iv; congruence|]; rewrite aupd_other in Iv by exact N; destruct (O v N Iv); try discriminate; apply C4; eauto]).
        -- discriminate.
        -- intros Hh. apply C4 in Hh. destruct Hh as (v & Iv). exists v. destruct (Nat.eq_dec v t) as [->|N]; [rewrite Ea in Iv; destruct Iv; congruence|now rewrite aupd_other].
    + rewrite C4. split; intros (v & Iv); exists v; destruct (Nat.eq_dec v t) as [->|N]; rewrite ?aupd_same, ?aupd_other in * by exact N; auto.
      * rewrite Ea in Iv. destruct Iv. congruence.
      * destruct Iv. congruence.
Qed.

Lemma core_call (c : conf) A t op : core c A -> th c t = Idle -> Q op -> core (MkConfig (sh c) (tset (th c) t (Busy op (request_body op)))) (aupd A t (Some (Ab op [] (sets op) PLock))).
Proof.
  intros (C0 & C1 & C2 & C3 & C4) Et Qo. pose proof (C0 t) as Ct. rewrite Et in Ct. assert (Ea : A t = None) by (destruct (A t); [discriminate Ct|reflexivity]).
  assert (X : forall h, ~ inside h (Some (Ab op [] (sets op) PLock))) by (intros h (_ & I1); unfold insb in I1; cbn in I1; destruct (sets op); discriminate).
  split; [|split; [|split; [|split]]].
  - intros v. cbn [th]. destruct (Nat.eq_dec v t) as [->|N]; [|rewrite tset_other, aupd_other by exact N; apply C0]. rewrite tset_same, aupd_same. cbn [status_of a_req a_todo a_pc]. unfold request_body. now rewrite sync_code.
  - intros v b. destruct (Nat.eq_dec v t) as [->|N]; [|rewrite aupd_other by exact N; apply C1]. rewrite aupd_same. intros [= <-]. split; [exact Qo|]. split; [reflexivity|]. split; [reflexivity|]. intros; exact Logic.I.
  - exact C2.
  - intros v w h. destruct (Nat.eq_dec v t) as [->|Nv], (Nat.eq_dec w t) as [->|Nw]; rewrite ?aupd_same, ?aupd_other by assumption; auto; try (intros I1 I2; exfalso; now apply (X h)). apply C3.
  - intros h. cbn [sh]. rewrite C4. split; intros (v & Iv); exists v; destruct (Nat.eq_dec v t) as [->|N]; rewrite ?aupd_same, ?aupd_other in * by exact N; auto.
    + rewrite Ea in Iv. destruct Iv.
    + elim (X h Iv).
Qed.
Lemma core_return (c : conf) A t op r : core c A -> th c t = Busy op (Ret r) -> exists a, A t = Some a /\ op = a_req a /\ a_todo a = [] /\ r = Done /\ core (MkConfig (sh c) (tset (th c) t Idle)) (aupd A t None).
Proof.
  intros (C0 & C1 & C2 & C3 & C4) Et. pose proof (C0 t) as Ct. rewrite Et in Ct. destruct (A t) as [a|] eqn:Ea; [|discriminate Ct]. cbn [status_of] in Ct. injection Ct as Eo Ec. exists a. split; [reflexivity|]. split; [exact Eo|].
  destruct (a_todo a) as [|[n x] l] eqn:Ed; [|exfalso; cbn [code_of] in Ec; destruct (a_pc a); discriminate Ec]. split; [reflexivity|]. cbn [code_of] in Ec. injection Ec as ->. split; [reflexivity|].
  assert (X : forall h, ~ inside h (Some a)) by (intros h (_ & I1); unfold insb in I1; rewrite Ed in I1; discriminate).
  split; [|split; [|split; [|split]]].
  - intros v. cbn [th]. destruct (Nat.eq_dec v t) as [->|N]; [now rewrite tset_same, aupd_same|]. rewrite tset_other, aupd_other by exact N. apply C0.
  - intros v b. destruct (Nat.eq_dec v t) as [->|N]; [rewrite aupd_same; discriminate|]. rewrite aupd_other by exact N. apply C1.
  - exact C2.
  - intros v w h. destruct (Nat.eq_dec v t) as [->|Nv], (Nat.eq_dec w t) as [->|Nw]; rewrite ?aupd_same, ?aupd_other by assumption; auto; try (intros I1 I2; now destruct I1 || now destruct I2). apply C3.
  - intros h. cbn [sh]. rewrite C4. split; intros (v & Iv); exists v; destruct (Nat.eq_dec v t) as [->|N]; rewrite ?aupd_same, ?aupd_other in * by exact N; auto.
    + rewrite Ea in Iv. elim (X h Iv).
    + destruct Iv.
Qed.

(** ** what was observed *)
Definition logs (A : nat -> option ab) (tb : list (string * evar)) (tr : trace) : Prop :=
  (forall t, open_call t tr = match A t with None => None | Some a => Some (a_req a, a_done a) end) /\
  (forall t d, In d (done_calls t tr) -> c_labels d = sets (c_op d) /\ c_ret d = Done) /\
  (forall n, match last_set n (labels tr) with
             | Some x => published tb n = Some x
             | None => published tb n = published t0 n \/ published t0 n = None /\ exists y, published tb n = Some y /\ blank y /\ exists r x, Q r /\ In (n, x) (sets r) /\ type_of y = type_of x
             end).
Lemma last_snoc n l kx : last_set n (l ++ [kx]) = if String.eqb n (fst kx) then Some (snd kx) else last_set n l.
Proof. unfold last_set. now rewrite fold_left_app. Qed.
Lemma blank_zero x : type_of x <> TOther -> blank (zero_of x).
Proof. destruct x; cbn [zero_of type_of]; intros H; [now left|right; eauto|congruence]. Qed.
Definition good (c : conf) (tr : trace) : Prop := (forall r, In r (calls tr) -> Q r) -> exists A, core c A /\ logs A (tbl (sh c)) tr.
Lemma good_exec sched : good (fst (expvar_exec t0 sched)) (snd (expvar_exec t0 sched)).
Proof.
  unfold expvar_exec. revert sched. apply (cexec_ind' request_body (MkExps t0 (fun _ => false)) good).
  - intros _. exists (fun _ => None). split.
    + split; [reflexivity|]. split; [discriminate|]. split; [|split; [intros t u h []|]]; cbn [sh cstart tbl held].
      * split; [|auto]. intros n y r x Hn Qr Hx. now apply (proj2 (Ty0 r n x Qr Hx)).
      * intros h. split; [discriminate|intros (t & [])].
    + split; [reflexivity|]. split; [intros t d []|]. intros n. cbn. now left.
  - intros c tr t op G Et HQ. rewrite calls_app in HQ. destruct G as (A & C & L1 & L2 & L3); [intros r Hr; apply HQ, in_or_app; now left|].
    exists (aupd A t (Some (Ab op [] (sets op) PLock))). split; [apply core_call; auto; apply HQ, in_or_app; right; now left|]. split; [|split].
    + intros v. rewrite open_inv. destruct (Nat.eqb_spec t v) as [->|N]; [now rewrite aupd_same|]. now rewrite aupd_other by congruence.
    + intros v d. rewrite done_inv. apply L2.
    + intros n. rewrite labels_app. cbn [labels flat_map]. rewrite app_nil_r. apply L3.
  - intros c tr t op r G Et HQ. rewrite calls_app in HQ. destruct G as (A & C & L1 & L2 & L3); [intros q Hq; apply HQ, in_or_app; now left|].
    destruct (core_return c A t op r C Et) as (a & Ea & -> & Ed & -> & C'). exists (aupd A t None). split; [exact C'|]. split; [|split].
    + intros v. rewrite open_res. destruct (Nat.eqb_spec t v) as [->|N]; [now rewrite aupd_same|]. now rewrite aupd_other by congruence.
    + intros v d. rewrite done_res. destruct (Nat.eqb_spec t v) as [->|N]; [|apply L2]. rewrite (L1 v), Ea. intros H. apply in_app_or in H. destruct H as [H|[<-|[]]]; [now apply (L2 v)|]. cbn [c_labels c_op c_ret].
      destruct C as (_ & C1 & _). destruct (C1 v a Ea) as (_ & Es & _). rewrite Es, Ed, app_nil_r. auto.
    + intros n. rewrite labels_app. cbn [labels flat_map]. rewrite app_nil_r. apply L3.
  - intros c tr t op e u l k G Et En HQ. rewrite calls_app, calls_steps, app_nil_r in HQ. destruct (G HQ) as (A & C & L1 & L2 & L3).
    destruct (core_step c A t op e u l k C Et En) as (a & Ea & -> & Tn & El & Eu & C'). exists (aupd A t (Some (anext (tbl (sh c)) a))). split; [exact C'|]. rewrite El. split; [|split].
    + intros v. rewrite open_steps. destruct (Nat.eqb_spec t v) as [->|N]; [|now rewrite aupd_other by congruence]. rewrite aupd_same, (L1 v), Ea, next_req. f_equal. f_equal. unfold alab, anext. destruct (a_todo a) as [|[n x] td]; [congruence|]. destruct (a_pc a); cbn [a_done]; rewrite ?app_nil_r; reflexivity.
    + intros v d. rewrite done_steps. apply L2.
    + intros n. rewrite labels_app, labels_steps. cbn [sh]. rewrite Eu. specialize (L3 n). destruct C as (_ & C1 & _). destruct (C1 t a Ea) as (Qa & Es & _ & Ra). unfold alab, atbl. destruct (a_todo a) as [|[m x] td] eqn:Ed; [congruence|]. specialize (Ra m x td eq_refl).
      destruct (a_pc a); rewrite ?app_nil_r; try exact L3.
      * rewrite put_published. destruct (String.eqb_spec n m) as [->|N]; [|exact L3]. destruct (last_set m (labels tr)); [congruence|]. right. destruct L3 as [L3|(_ & y & Hy & _)]; [|congruence]. split; [congruence|]. assert (Im : In (m, x) (sets (a_req a))) by (rewrite Es; apply in_or_app; right; now left). eexists. split; [reflexivity|]. split; [apply blank_zero, (Ty0 (a_req a) m x Qa Im)|]. exists (a_req a), x. split; [exact Qa|]. split; [exact Im|apply zero_type].
      * rewrite last_snoc, put_published. cbn [fst snd]. destruct (String.eqb n m); [reflexivity|exact L3].
Qed.

(** ** all requests return *)
Definition left_ (a : option ab) : nat :=
  match a with None => 0 | Some a => 1 + 5 * List.length (a_todo a) + match a_pc a with PLock => 4 | PGet => 3 | PPub => 2 | PUnl => 1 | PSet => 0 end end.
Definition total (A : nat -> option ab) (ts : list nat) : nat := list_sum (map (fun t => left_ (A t)) ts).
Lemma total_less A t x ts : left_ x < left_ (A t) -> In t ts -> total (aupd A t x) ts < total A ts.
Proof.
  intros H. unfold total. induction ts as [|u ts IH]; intros I1; [destruct I1|]. cbn [map list_sum fold_right] in *. change (fold_right Nat.add 0) with list_sum in *.
  assert (M : list_sum (map (fun v => left_ (aupd A t x v)) ts) <= list_sum (map (fun v => left_ (A v)) ts)).
  { clear - H. induction ts as [|v ts IH]; cbn [map list_sum fold_right]; [lia|]. change (fold_right Nat.add 0) with list_sum in *. destruct (Nat.eq_dec v t) as [->|N]; [rewrite aupd_same|rewrite aupd_other by exact N]; lia. }
  destruct (Nat.eq_dec u t) as [->|N]; [rewrite aupd_same; lia|]. rewrite aupd_other by exact N. destruct I1 as [->|I1]; [congruence|]. specialize (IH I1). lia.
Qed.
Lemma next_less tb a : a_todo a <> [] -> left_ (Some (anext tb a)) < left_ (Some a).
Proof.
  unfold anext, left_. destruct (a_todo a) as [|[n x] l] eqn:E; [congruence|]. intros _. destruct (a_pc a) eqn:P; cbn [a_todo a_pc]; rewrite ?E; cbn [List.length]; try lia. destruct (published tb n); lia.
Qed.
Lemma core_returns ts : forall m c A, core c A -> (forall t, ~ In t ts -> A t = None) -> total A ts <= m -> all_return request_body c.
Proof.
  induction m as [m IH] using lt_wf_ind. intros c A C Out Hm.
  assert (Out' : forall t a, A t = Some a -> In t ts) by (intros t a E; destruct (in_dec Nat.eq_dec t ts) as [I1|I1]; [exact I1|rewrite (Out t I1) in E; discriminate]).
  destruct (existsb (fun t => match A t with Some _ => true | None => false end) ts) eqn:X.
  - apply ret_step.
    + apply existsb_exists in X. destruct X as (t & It & X). destruct (A t) as [a|] eqn:Ea; [|discriminate]. pose proof C as (C0 & C1 & C2 & C3 & C4).
      assert (Y : forall u b, A u = Some b -> aready (held (sh c)) b = true -> can_run c u).
      { intros u b Eb Rb. unfold can_run. rewrite (C0 u), Eb. cbn [status_of]. destruct (code_of (handler (a_req b)) (a_todo b) (a_pc b)) as [r|e v l k] eqn:Ec; [exact Logic.I|].
        assert (Es : Busy (a_req b) (Atom e v l k) = status_of (Some b)) by (cbn [status_of]; now rewrite Ec). destruct (step_code c b _ e v l k Es (C1 u b Eb) C2) as (_ & _ & Ee & _). now rewrite Ee. }
      destruct (aready (held (sh c)) a) eqn:Ra; [exists t; eapply Y; eauto|]. unfold aready in Ra. destruct (a_todo a) as [|kx l]; [discriminate|]. destruct (a_pc a); try discriminate. apply negb_false_iff in Ra. apply C4 in Ra. destruct Ra as (u & Iu). destruct (A u) as [b|] eqn:Eb; [|destruct Iu].
      exists u. eapply Y; [exact Eb|]. destruct Iu as (_ & Ib). unfold insb in Ib. unfold aready. destruct (a_todo b); [discriminate|]. destruct (a_pc b); try discriminate; reflexivity.
    + intros t Ct. unfold can_run in Ct. cbn [cstep]. destruct (th c t) as [|op [r|e u l k]] eqn:Et; [destruct Ct| |].
      * cbn [fst]. destruct (core_return c A t op r C Et) as (a & Ea & _ & _ & _ & C'). assert (T : total (aupd A t None) ts < total A ts) by (apply total_less; [rewrite Ea; cbn; lia|eapply Out'; eauto]).
        eapply (IH (total (aupd A t None) ts)); [lia|exact C'| |lia]. intros v Nv. destruct (Nat.eq_dec v t) as [->|N]; [apply aupd_same|]. rewrite aupd_other by exact N. auto.
      * rewrite Ct. cbn [fst]. destruct (core_step c A t op e u l k C Et Ct) as (a & Ea & _ & Tn & _ & _ & C'). assert (T : total (aupd A t (Some (anext (tbl (sh c)) a))) ts < total A ts) by (apply total_less; [rewrite Ea; now apply next_less|eapply Out'; eauto]).
        eapply (IH (total (aupd A t (Some (anext (tbl (sh c)) a))) ts)); [lia|exact C'| |lia]. intros v Nv. destruct (Nat.eq_dec v t) as [->|N]; [elim Nv; eapply Out'; eauto|]. rewrite aupd_other by exact N. auto.
  - apply ret_quiet. intros t. destruct C as (C0 & _). rewrite C0. destruct (A t) as [a|] eqn:Ea; [|reflexivity]. exfalso.
    assert (Y : existsb (fun t => match A t with Some _ => true | None => false end) ts = true) by (apply existsb_exists; exists t; split; [eapply Out'; eauto|now rewrite Ea]). congruence.
Qed.
End Inv.

(** the calls of an execution are those of its schedule; only goroutines that were called are busy *)
Definition caller (ch : choice request) : list nat := match ch with Call t _ => [t] | Run _ => [] end.
Lemma exec_asked t1 sched : (forall r, In r (calls (snd (expvar_exec t1 sched))) -> asked sched r) /\ forall t, ~ In t (flat_map caller sched) -> th (fst (expvar_exec t1 sched)) t = Idle.
Proof.
  unfold expvar_exec. induction sched as [|ch sched (IH1 & IH2)] using rev_ind; [split; [intros r []|reflexivity]|]. rewrite cexec_snoc. destruct (cexec request_body (MkExps t1 (fun _ => false)) sched) as [c tr]. cbn [fst snd] in *.
  rewrite flat_map_app. destruct ch as [t op|t]; cbn [cstep caller flat_map app].
  - destruct (th c t) as [|? ?] eqn:Et; cbn [fst snd].
    + split.
      * intros r. rewrite calls_app. cbn [calls flat_map app]. intros H. apply in_app_or in H. destruct H as [H|[<-|[]]]; [|exists t; apply in_or_app; right; now left]. destruct (IH1 r H) as (u & Hu). exists u. apply in_or_app. now left.
      * intros u Nu. cbn [th]. rewrite tset_other by (intros ->; apply Nu, in_or_app; right; now left). apply IH2. intros H. apply Nu, in_or_app. now left.
    + rewrite app_nil_r. split; [|intros u Nu; apply IH2; intros H; apply Nu, in_or_app; now left]. intros r H. destruct (IH1 r H) as (u & Hu). exists u. apply in_or_app. now left.
  - assert (B : forall r, asked sched r -> asked (sched ++ [Run t]) r) by (intros r (u & Hu); exists u; apply in_or_app; now left). rewrite app_nil_r.
    destruct (th c t) as [|op [r|e u l k]] eqn:Et; cbn [fst snd].
    + rewrite app_nil_r. auto.
    + split; [intros q; rewrite calls_app; cbn [calls flat_map app]; rewrite app_nil_r; auto|]. intros v Nv. cbn [th]. destruct (Nat.eq_dec v t) as [->|N]; [apply tset_same|]. rewrite tset_other by exact N. auto.
    + destruct (e (sh c)); cbn [fst snd]; [|rewrite app_nil_r; auto]. split; [intros q; rewrite calls_app, calls_steps, app_nil_r; auto|]. intros v Nv. cbn [th]. rewrite tset_other; [auto|]. intros ->. rewrite (IH2 t Nv) in Et. discriminate.
Qed.
