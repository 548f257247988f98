(** Executions of methods given as program points. *)
From Coq Require Import List Arith Lia.
From Verif.Model Require Import Conc.
From Verif.Spec Require Import Traces.
From Verif.Proofs Require Import LinProofs.
Import ListNotations.

Definition pupd {A} (f : nat -> A) (t : nat) (x : A) : nat -> A := fun u => if Nat.eqb u t then x else f u.
Lemma pupd_same {A} (f : nat -> A) t x : pupd f t x t = x.
Proof. unfold pupd. now rewrite Nat.eqb_refl. Qed.
Lemma pupd_other {A} (f : nat -> A) t x u : u <> t -> pupd f t x u = f u.
Proof. intro H. unfold pupd. destruct (Nat.eqb_spec u t); congruence. Qed.

Section Pc.
Context {S L Op R PC : Type}.
Variable body : Op -> code S L R.
Variable s0 : S.
Variable code_of : PC -> code S L R.
Variable entry : Op -> PC.
Variable next : PC -> S -> PC.
Hypothesis entry_ok : forall op, body op = code_of (entry op).
Hypothesis next_ok : forall pc e u l k s, code_of pc = Atom e u l k -> e s = true -> k s = code_of (next pc s).

Variable inv : S -> (nat -> option PC) -> list (event L Op R) -> Prop.

Definition at_pcs (c : config S L Op R) (pcs : nat -> option PC) : Prop :=
  forall t, match th c t, pcs t with
            | Idle, None => True
            | Busy op cd, Some pc => cd = code_of pc
            | _, _ => False
            end.
Definition pc_inv (c : config S L Op R) (tr : list (event L Op R)) : Prop :=
  exists pcs, at_pcs c pcs /\ inv (sh c) pcs tr.

Lemma at_pcs_upd c pcs s t x y : at_pcs c pcs ->
  match x, y with Idle, None => True | Busy op cd, Some pc => cd = code_of pc | _, _ => False end ->
  at_pcs (MkConfig s (tset (th c) t x)) (pupd pcs t y).
Proof.
  intros H Hx u. cbn [th]. destruct (Nat.eq_dec u t) as [->|N].
  - rewrite tset_same, pupd_same. exact Hx.
  - rewrite tset_other, pupd_other by exact N. apply H.
Qed.

Hypothesis inv0 : inv s0 (fun _ => None) [].
Hypothesis inv_call : forall s pcs tr t op, inv s pcs tr -> pcs t = None ->
  inv s (pupd pcs t (Some (entry op))) (tr ++ [EInv t op]).
Hypothesis inv_ret : forall s pcs tr t pc r, inv s pcs tr -> pcs t = Some pc -> code_of pc = Ret r ->
  inv s (pupd pcs t None) (tr ++ [ERes t r]).
Hypothesis inv_step : forall s pcs tr t pc e u l k, inv s pcs tr -> pcs t = Some pc -> code_of pc = Atom e u l k ->
  e s = true -> inv (u s) (pupd pcs t (Some (next pc s))) (tr ++ map (EStep t) (l s)).

Lemma pc_induction sched : pc_inv (fst (cexec body s0 sched)) (snd (cexec body s0 sched)).
Proof.
  revert sched. apply (cexec_ind' body s0 pc_inv); unfold pc_inv.
  - exists (fun _ => None). split; [|exact inv0]. intro t. exact I.
  - intros c tr t op (pcs & Ha & Hi) Ei. exists (pupd pcs t (Some (entry op))). split.
    + apply at_pcs_upd; [exact Ha|]. apply entry_ok.
    + apply inv_call; [exact Hi|]. specialize (Ha t). rewrite Ei in Ha. now destruct (pcs t).
  - intros c tr t op r (pcs & Ha & Hi) Ei. exists (pupd pcs t None). split.
    + apply at_pcs_upd; [exact Ha|exact I].
    + specialize (Ha t). rewrite Ei in Ha. destruct (pcs t) as [pc|] eqn:E; [|easy].
      apply (inv_ret _ _ _ t pc r); auto.
  - intros c tr t op e u l k (pcs & Ha & Hi) Ei En. pose proof (Ha t) as Ht. rewrite Ei in Ht.
    destruct (pcs t) as [pc|] eqn:E; [|easy]. exists (pupd pcs t (Some (next pc (sh c)))). split.
    + apply at_pcs_upd; [exact Ha|]. now apply (next_ok pc e u l).
    + now apply (inv_step _ _ _ t pc e u l k).
Qed.

Lemma quiet_pcs c pcs : at_pcs c pcs -> quiet c -> forall t, pcs t = None.
Proof. intros H Q t. specialize (H t). rewrite (Q t) in H. now destruct (pcs t). Qed.
End Pc.

Lemma calls_of_app {L Op R} t (a b : list (event L Op R)) : calls_of t (a ++ b) = calls_of t a ++ calls_of t b.
Proof. unfold calls_of. apply flat_map_app. Qed.
Lemma labels_of_app {L Op R} t (a b : list (event L Op R)) : labels_of t (a ++ b) = labels_of t a ++ labels_of t b.
Proof. unfold labels_of. apply flat_map_app. Qed.
Lemma labels_of_steps {L Op R} t u (l : list L) : labels_of t (map (@EStep L Op R u) l) = if Nat.eqb u t then l else [].
Proof.
  induction l as [|a l IH]; simpl; [now destruct (Nat.eqb u t)|]. fold (labels_of t (map (@EStep L Op R u) l)).
  rewrite IH. now destruct (Nat.eqb u t).
Qed.
Lemma calls_of_steps {L Op R} t u (l : list L) : calls_of t (map (@EStep L Op R u) l) = [].
Proof. induction l; simpl; auto. Qed.
