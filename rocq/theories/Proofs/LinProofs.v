From Coq Require Import List Arith Lia Permutation.
From Verif.Model Require Import Conc.
From Verif.Spec Require Import Linearizability Traces.
Import ListNotations.

Lemma crun_app {S L Op R} (body : Op -> code S L R) s1 s2 : forall c tr,
  crun body c tr (s1 ++ s2) = let '(c', tr') := crun body c tr s1 in crun body c' tr' s2.
Proof.
  induction s1 as [|ch s1 IH]; intros c tr; [reflexivity|]. cbn [app crun].
  destruct (cstep body c ch) as [c' e]. apply IH.
Qed.

Lemma cexec_snoc {S L Op R} (body : Op -> code S L R) s sched ch :
  cexec body s (sched ++ [ch]) =
  let '(c, tr) := cexec body s sched in let '(c', e) := cstep body c ch in (c', tr ++ e).
Proof.
  unfold cexec. rewrite crun_app. destruct (crun body (cstart s) [] sched) as [c tr]. cbn [crun].
  destruct (cstep body c ch); reflexivity.
Qed.

Lemma tset_same {S L Op R} (f : nat -> status S L Op R) t x : tset f t x t = x.
Proof. unfold tset. now rewrite Nat.eqb_refl. Qed.
Lemma tset_other {S L Op R} (f : nat -> status S L Op R) t x u : u <> t -> tset f t x u = f u.
Proof. intro H. unfold tset. destruct (Nat.eqb_spec u t); congruence. Qed.
Lemma tupd_same {Op R} (f : nat -> @tstat Op R) t x : tupd f t x t = x.
Proof. unfold tupd. now rewrite Nat.eqb_refl. Qed.
Lemma tupd_other {Op R} (f : nat -> @tstat Op R) t x u : u <> t -> tupd f t x u = f u.
Proof. intro H. unfold tupd. destruct (Nat.eqb_spec u t); congruence. Qed.

Lemma history_app {L Op R} (a b : list (event L Op R)) : history (a ++ b) = history a ++ history b.
Proof. apply flat_map_app. Qed.
Lemma calls_app {L Op R} (a b : list (event L Op R)) : calls (a ++ b) = calls a ++ calls b.
Proof. apply flat_map_app. Qed.
Lemma labels_app {L Op R} (a b : list (event L Op R)) : labels (a ++ b) = labels a ++ labels b.
Proof. apply flat_map_app. Qed.
Lemma erase_app {Op R} (a b : list (xevent Op R)) : erase (a ++ b) = erase a ++ erase b.
Proof. apply flat_map_app. Qed.
Lemma history_steps {L Op R} t (l : list L) : history (map (@EStep L Op R t) l) = [].
Proof. induction l; simpl; auto. Qed.
Lemma calls_steps {L Op R} t (l : list L) : calls (map (@EStep L Op R t) l) = [].
Proof. induction l; simpl; auto. Qed.
Lemma labels_steps {L Op R} t (l : list L) : labels (map (@EStep L Op R t) l) = l.
Proof. induction l as [|a l IH]; simpl; [reflexivity|]. f_equal. exact IH. Qed.

(** induction over executions *)
Lemma cexec_ind {S L Op R} (body : Op -> code S L R) s0 (P : config S L Op R -> list (event L Op R) -> Prop) :
  P (cstart s0) [] ->
  (forall c tr ch, P c tr -> P (fst (cstep body c ch)) (tr ++ snd (cstep body c ch))) ->
  forall sched, P (fst (cexec body s0 sched)) (snd (cexec body s0 sched)).
Proof.
  intros H0 Hs sched. induction sched as [|ch sched IH] using rev_ind; [exact H0|].
  rewrite cexec_snoc. destruct (cexec body s0 sched) as [c tr]. cbn [fst snd] in IH.
  specialize (Hs c tr ch IH). destruct (cstep body c ch) as [c' e]. exact Hs.
Qed.

(** induction over the steps that do something *)
Lemma cexec_ind' {S L Op R} (body : Op -> code S L R) s0 (P : config S L Op R -> list (event L Op R) -> Prop) :
  P (cstart s0) [] ->
  (forall c tr t op, P c tr -> th c t = Idle ->
     P (MkConfig (sh c) (tset (th c) t (Busy op (body op)))) (tr ++ [EInv t op])) ->
  (forall c tr t op r, P c tr -> th c t = Busy op (Ret r) ->
     P (MkConfig (sh c) (tset (th c) t Idle)) (tr ++ [ERes t r])) ->
  (forall c tr t op e u l k, P c tr -> th c t = Busy op (Atom e u l k) -> e (sh c) = true ->
     P (MkConfig (u (sh c)) (tset (th c) t (Busy op (k (sh c))))) (tr ++ map (EStep t) (l (sh c)))) ->
  forall sched, P (fst (cexec body s0 sched)) (snd (cexec body s0 sched)).
Proof.
  intros H0 Hc Hr Ha. apply cexec_ind; [exact H0|]. intros c tr ch IH.
  destruct ch as [t op|t]; cbn [cstep].
  - destruct (th c t) eqn:E; cbn [fst snd]; [now apply Hc|now rewrite app_nil_r].
  - destruct (th c t) as [|op [r|e u l k]] eqn:E; cbn [fst snd].
    + now rewrite app_nil_r.
    + now apply (Hr c tr t op r).
    + destruct (e (sh c)) eqn:En; cbn [fst snd]; [now apply (Ha c tr t op e u l k)|now rewrite app_nil_r].
Qed.

(** ** objects whose every method is one atomic action *)
Section OneAction.
Context {S L Op R Q : Type}.
Variable body : Op -> code S L R.
Variable sapply : Q -> Op -> Q * R.
Variable absf : S -> Q.
Variable okst : S -> Prop.
Variable s0 : S.
Hypothesis ok0 : okst s0.
Hypothesis one : forall op, exists u l k, body op = Atom always u l k /\
  forall s, okst s -> okst (u s) /\ exists r, k s = Ret r /\ sapply (absf s) op = (absf (u s), r).

Definition orel (c : config S L Op R) (f : nat -> @tstat Op R) : Prop :=
  forall t, match th c t with
            | Idle => f t = TIdle
            | Busy op (Ret r) => f t = TDone r
            | Busy op (Atom e u l k) => f t = TPending op /\ Atom e u l k = body op
            end.

Lemma orel_set c s f t x y : orel c f ->
  match x with
  | Idle => y = TIdle
  | Busy op (Ret r) => y = TDone r
  | Busy op (Atom e u l k) => y = TPending op /\ Atom e u l k = body op
  end -> orel (MkConfig s (tset (th c) t x)) (tupd f t y).
Proof.
  intros H Hx v. cbn [th]. destruct (Nat.eq_dec v t) as [->|N].
  - now rewrite tset_same, tupd_same.
  - rewrite tset_other, tupd_other by exact N. apply H.
Qed.

Definition ovalid (c : config S L Op R) (tr : list (event L Op R)) : Prop :=
  okst (sh c) /\ exists l f, erase l = history tr /\ valid sapply (absf s0) (fun _ => TIdle) l (absf (sh c)) f /\ orel c f.

Lemma one_action_valid sched : ovalid (fst (cexec body s0 sched)) (snd (cexec body s0 sched)).
Proof.
  revert sched. apply (cexec_ind' body s0 ovalid); unfold ovalid.
  - split; [exact ok0|]. exists [], (fun _ => TIdle). split; [reflexivity|]. split; [constructor|]. intro t. reflexivity.
  - intros c tr t op (Hok & l & f & El & Hv & Hr) Ei. cbn [sh]. split; [exact Hok|].
    exists (l ++ [XInv t op]), (tupd f t (TPending op)). rewrite erase_app, history_app, El. split; [reflexivity|].
    split.
    + apply valid_inv; [exact Hv|]. specialize (Hr t). now rewrite Ei in Hr.
    + apply orel_set; [exact Hr|]. destruct (one op) as (u & l' & k & Eb & _). now rewrite Eb.
  - intros c tr t op r (Hok & l & f & El & Hv & Hr) Ei. cbn [sh]. split; [exact Hok|].
    exists (l ++ [XRes t r]), (tupd f t TIdle). rewrite erase_app, history_app, El. split; [reflexivity|].
    split.
    + apply valid_res; [exact Hv|]. specialize (Hr t). now rewrite Ei in Hr.
    + apply orel_set; [exact Hr|reflexivity].
  - intros c tr t op e u l k (Hok & lx & f & El & Hv & Hr) Ei En. cbn [sh].
    pose proof (Hr t) as Ht. rewrite Ei in Ht. destruct Ht as [Hf Hb].
    destruct (one op) as (u' & l' & k' & Eb & H1). rewrite Eb in Hb. injection Hb as -> -> -> ->.
    destruct (H1 (sh c) Hok) as (Hok' & r & Ek & Ea). split; [exact Hok'|].
    exists (lx ++ [XLin t]), (tupd f t (TDone r)).
    rewrite erase_app, history_app, history_steps, El. split; [simpl; now rewrite !app_nil_r|]. split.
    + now apply (valid_lin sapply _ _ _ (absf (sh c)) f t op).
    + rewrite Ek. apply orel_set; [exact Hr|reflexivity].
Qed.

Lemma one_action_linearizable sched :
  linearizable sapply (absf s0) (history (snd (cexec body s0 sched))).
Proof.
  destruct (one_action_valid sched) as (_ & l & f & El & Hv & _). eexists l, _, f. split; [exact El|exact Hv].
Qed.
End OneAction.

(** ** objects whose one atomic action is labelled with the call *)
Section Labelled.
Context {S Op R : Type}.
Variable body : Op -> code S Op R.
Variable s0 : S.
Hypothesis one : forall op, exists u k, body op = Atom always u (fun _ => [op]) k /\ forall s, exists r, k s = Ret r.

(** the calls are the effects so far plus the calls that have not acted yet *)
Definition lrel (c : config S Op Op R) (tr : list (event Op Op R)) : Prop :=
  exists pend, NoDup (map fst pend) /\
    (forall t, match th c t with
               | Idle => ~ In t (map fst pend)
               | Busy op (Ret r) => ~ In t (map fst pend)
               | Busy op (Atom e u l k) => In (t, op) pend /\ Atom e u l k = body op
               end) /\
    Permutation (calls tr) (labels tr ++ map snd pend).

Lemma remove_pend (pend : list (nat * Op)) t op : NoDup (map fst pend) -> In (t, op) pend ->
  exists pend', Permutation pend ((t, op) :: pend') /\ NoDup (map fst pend') /\ ~ In t (map fst pend').
Proof.
  intros ND Hin. apply in_split in Hin. destruct Hin as (l1 & l2 & ->). exists (l1 ++ l2).
  split; [symmetry; apply Permutation_middle|].
  rewrite map_app in ND. cbn [map fst] in ND. rewrite map_app. apply NoDup_remove in ND. exact ND.
Qed.

Lemma lrel_exec sched : lrel (fst (cexec body s0 sched)) (snd (cexec body s0 sched)).
Proof.
  revert sched. apply (cexec_ind' body s0 lrel).
  - exists []. split; [constructor|]. split; [intro t; simpl; tauto|constructor].
  - intros c tr t op (pend & ND & Hth & P) Ei. exists ((t, op) :: pend).
    pose proof (Hth t) as Ht. rewrite Ei in Ht. split; [constructor; assumption|]. split.
    + intro v. cbn [th]. destruct (Nat.eq_dec v t) as [->|N].
      * rewrite tset_same. destruct (one op) as (u & k & Eb & _). rewrite Eb. split; [now left|reflexivity].
      * rewrite tset_other by exact N. specialize (Hth v). destruct (th c v) as [|op' [r|e u l k]].
        -- intros [E|H]; [now apply N|contradiction].
        -- intros [E|H]; [now apply N|contradiction].
        -- destruct Hth as [Hin Hb]. split; [now right|exact Hb].
    + rewrite calls_app, labels_app. cbn [calls labels flat_map app map snd]. rewrite app_nil_r.
      eapply Permutation_trans; [symmetry; apply Permutation_cons_append|].
      eapply Permutation_trans; [apply perm_skip, P|]. apply Permutation_middle.
  - intros c tr t op r (pend & ND & Hth & P) Ei. exists pend. split; [exact ND|]. split.
    + intro v. cbn [th]. destruct (Nat.eq_dec v t) as [->|N].
      * rewrite tset_same. specialize (Hth t). now rewrite Ei in Hth.
      * rewrite tset_other by exact N. apply Hth.
    + rewrite calls_app, labels_app. cbn [calls labels flat_map app]. now rewrite !app_nil_r.
  - intros c tr t op e u l k (pend & ND & Hth & P) Ei En.
    pose proof (Hth t) as Ht. rewrite Ei in Ht. destruct Ht as [Hin Hb].
    destruct (one op) as (u' & k' & Eb & H1). rewrite Eb in Hb. injection Hb as -> -> -> ->.
    destruct (remove_pend pend t op ND Hin) as (pend' & PP & ND' & Nin). exists pend'. split; [exact ND'|]. split.
    + intro v. cbn [th]. destruct (Nat.eq_dec v t) as [->|N].
      * rewrite tset_same. destruct (H1 (sh c)) as [r ->]. exact Nin.
      * rewrite tset_other by exact N. specialize (Hth v).
        assert (Hi : forall op', In (v, op') pend <-> In (v, op') pend').
        { intro op'. split; intro H.
          - apply (Permutation_in _ PP) in H. destruct H as [H|H]; [congruence|exact H].
          - apply (Permutation_in _ (Permutation_sym PP)). now right. }
        assert (Hm : In v (map fst pend') -> In v (map fst pend)).
        { intro H. apply (Permutation_in _ (Permutation_map fst (Permutation_sym PP))). now right. }
        destruct (th c v) as [|op' [r|e u l k]]; [tauto|tauto|].
        destruct Hth as [H2 H3]. split; [now apply Hi|exact H3].
    + rewrite calls_app, labels_app, calls_steps, labels_steps, app_nil_r.
      rewrite P. rewrite <- app_assoc. apply Permutation_app_head. simpl.
      change (op :: map snd pend') with (map snd ((t, op) :: pend')). now apply Permutation_map.
Qed.

Lemma quiet_calls sched : quiet (fst (cexec body s0 sched)) ->
  Permutation (calls (snd (cexec body s0 sched))) (labels (snd (cexec body s0 sched))).
Proof.
  intro Hq. destruct (lrel_exec sched) as (pend & ND & Hth & P).
  assert (pend = []) as ->.
  { destruct pend as [|[t op] pend]; [reflexivity|]. exfalso. specialize (Hth t). rewrite (Hq t) in Hth.
    apply Hth. now left. }
  now rewrite app_nil_r in P.
Qed.
End Labelled.

(** a computable sufficient condition for [quiet] *)
Definition callers {Op} (sched : list (choice Op)) : list nat :=
  flat_map (fun ch => match ch with Call t _ => [t] | Run _ => [] end) sched.
Definition idle_b {S L Op R} (x : status S L Op R) : bool := match x with Idle => true | Busy _ _ => false end.
Definition quiet_b {S L Op R} (c : config S L Op R) (sched : list (choice Op)) : bool :=
  forallb (fun t => idle_b (th c t)) (callers sched).

Lemma never_called_idle {S L Op R} (body : Op -> code S L R) s0 sched t :
  ~ In t (callers sched) -> th (fst (cexec body s0 sched)) t = Idle.
Proof.
  induction sched as [|ch sched IH] using rev_ind; [reflexivity|].
  intro H. unfold callers in H. rewrite flat_map_app in H. rewrite cexec_snoc.
  destruct (cexec body s0 sched) as [c tr]. cbn [fst] in IH.
  assert (Hc : th c t = Idle) by (apply IH; intro Hin; apply H, in_or_app; now left).
  destruct ch as [u op|u]; cbn [cstep].
  - assert (u <> t) by (intro E; apply H, in_or_app; right; left; exact E).
    destruct (th c u); cbn [fst th]; [|exact Hc]. now rewrite tset_other by congruence.
  - destruct (Nat.eq_dec u t) as [->|N].
    + rewrite Hc. exact Hc.
    + destruct (th c u) as [|op [r|e v l k]]; cbn [fst th]; [exact Hc|now rewrite tset_other by congruence|].
      destruct (e (sh c)); cbn [fst th]; [now rewrite tset_other by congruence|exact Hc].
Qed.

Lemma quiet_check {S L Op R} (body : Op -> code S L R) s0 sched :
  quiet_b (fst (cexec body s0 sched)) sched = true -> quiet (fst (cexec body s0 sched)).
Proof.
  intros H t. destruct (in_dec Nat.eq_dec t (callers sched)) as [Hin|Hn]; [|now apply never_called_idle].
  unfold quiet_b in H. rewrite forallb_forall in H. specialize (H t Hin).
  destruct (th (fst (cexec body s0 sched)) t); [reflexivity|discriminate].
Qed.
