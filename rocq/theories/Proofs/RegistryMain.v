(** Certificates for calls with any caller code; progress. *)
From Coq Require Import List String Arith Bool Lia Permutation.
From Verif.Model Require Import Conc Meter RegistryConc.
From Verif.Spec Require Import Linearizability Traces RegistryConcSpec.
From Verif.Proofs Require Import LinProofs PcProofs MeterRun LockDisc RegistryCert RegistryOps.
Import ListNotations.
Local Open Scope list_scope.
Local Open Scope nat_scope.

Definition gen_post (g : ghost) (r : rret) : Prop :=
  match gop g with
  | REach ord cb => exists m ms l, gms g = m :: ms /\ r = RtList l /\ Permutation l m /\
      ((forall n v, no_each_cb (cb n v)) -> filter is_call (gls g) = map (fun kv => LCall (fst kv) (snd kv)) l)
  | RGetOrRegisterFn n v mk => uses_registry mk -> ~ In (LMade v) (gls g)
  | RRunHealthchecks ord chk => (forall n v, chk n v = CDone \/ changes_registry (chk n v)) ->
      forall n v, In (LCheck n v) (gls g) -> chk n v = CDone
  | _ => True
  end.
Section Gen.
Notation cert := (cert false false gen_post).
Notation rcode := (code rstate rlabel rret).
Lemma pre_any o g : pre false o g. Proof. easy. Qed.
Lemma pre_cb_any p g : pre_cb false p g. Proof. easy. Qed.

(** a goroutine that holds the write lock and asks for the lock again waits for ever *)
Lemma rlock_stuck (k : rcode) g : ok g -> wr (gR g) = true -> cert (rlock_c RegL k) g.
Proof.
  intros O W. apply do_cert; [easy|now apply ok_waiting|congruence|]. intros s _ F. exfalso. cbn in F. destruct O as [[A _] _]. congruence.
Qed.
Lemma lock_stuck (k : rcode) g : ok g -> holds_map g -> cert (lock_c RegL k) g.
Proof. intros O H. apply lock_reg_cert; [exact O|easy|]. intros E. exfalso. destruct H as [H|H]; rewrite E in H; cbn in H; [lia|easy]. Qed.
Lemma op_stuck o (k : rret -> rcode) g : ok g -> wr (gR g) = true -> on_registry o -> cert (op_c o k) g.
Proof.
  intros O W Ho. destruct o; cbn in Ho; try contradiction; cbn [op_c]; unfold get_or_register_c, registered_c;
    first [now apply rlock_stuck | apply lock_stuck; auto; now right].
Qed.
Lemma on_registry_dec o : on_registry o \/ ~ on_registry o.
Proof. destruct o; cbn; auto. Qed.
Fixpoint cbp_only (P : cbp -> Prop) (H0 : P CDone) (H1 : forall o f, (forall r, P (f r)) -> P (CDo o f)) (p : cbp) : P p :=
  match p with CDone => H0 | CDo o f => H1 o f (fun r => cbp_only P H0 H1 (f r)) end.
Lemma make_stuck p : forall (k : rcode) g, ok g -> wr (gR g) = true ->
  (~ uses_registry p -> forall g' ls, ext g g' ls -> cert k g') -> cert (cb_c p k) g.
Proof.
  induction p as [|o f IH] using cbp_only; intros k g H H0 H1.
  - cbn [cb_c]. apply (H1 ltac:(intro X; inversion X) g []), ext_refl.
  - cbn [cb_c]. destruct (on_registry_dec o) as [Y|N]; [now apply op_stuck|].
    apply (proj1 (disc_cert false gen_post)); [auto|apply pre_any|]. intros r g1 ls1 E1 _. apply IH.
    + eapply ext_ok; eauto.
    + now rewrite (ex_R _ _ _ E1).
    + intros Nu g2 ls2 E2. apply (H1 ltac:(intro X; inversion X; subst; auto) g2 (ls1 ++ ls2)). eapply ext_trans; eauto.
Qed.
Lemma check_stuck p : forall (k : rcode) g, ok g -> 0 < rc (gR g) ->
  (~ changes_registry p -> forall g' ls, ext g g' ls -> (p = CDone -> ls = []) -> cert k g') -> cert (cb_c p k) g.
Proof.
  induction p as [|o f IH] using cbp_only; intros k g H H0 H1.
  - cbn [cb_c]. apply (H1 ltac:(intro X; inversion X) g []); auto. apply ext_refl.
  - cbn [cb_c]. assert (D : (forall k : rret -> rcode, cert (op_c o k) g) \/ (changes_registry (CDo o f) -> forall r, changes_registry (f r))).
    { destruct o; try (right; intros X; inversion X; subst; auto; fail); left; intros k0; cbn [op_c]; apply lock_stuck; auto; now left. }
    destruct D as [D|D]; [apply D|].
    apply (proj1 (disc_cert false gen_post)); [auto|apply pre_any|]. intros r g1 ls1 E1 _. apply IH.
    + eapply ext_ok; eauto.
    + now rewrite (ex_R _ _ _ E1).
    + intros Nu g2 ls2 E2 _. refine (H1 _ g2 (ls1 ++ ls2) _ _); [|eapply ext_trans; eauto|discriminate]. intros X. apply Nu. now apply D.
Qed.
Lemma checks_stuck (chk : string -> mv -> cbp) ns (k : rcode) : forall g, ok g -> 0 < rc (gR g) ->
  (forall g' ls, ext g g' ls -> ((forall n v, chk n v = CDone \/ changes_registry (chk n v)) -> forall n v, In (LCheck n v) ls -> chk n v = CDone) -> cert k g') ->
  cert (checks_c (fun n v => cb_c (chk n v)) ns k) g.
Proof.
  induction ns as [|n ns IH]; intros g O L H; cbn [checks_c].
  - apply (H g []); [apply ext_refl|easy].
  - apply mget_cert; auto; [now left|].
    assert (R : forall g1 ls1, ext g g1 ls1 -> ((forall n v, chk n v = CDone \/ changes_registry (chk n v)) -> forall n v, In (LCheck n v) ls1 -> chk n v = CDone) -> cert (checks_c (fun n v => cb_c (chk n v)) ns k) g1).
    { intros g1 ls1 E1 C1. apply IH; [eapply ext_ok; eauto|now rewrite (ex_R _ _ _ E1)|].
      intros g2 ls2 E2 C2. apply (H g2 (ls1 ++ ls2)); [eapply ext_trans; eauto|]. intros Hc n' v' Hin. apply in_app_iff in Hin. destruct Hin; eauto. }
    assert (R0 : cert (checks_c (fun n v => cb_c (chk n v)) ns k) (with_ls [LMap false] g)) by (apply (R _ _ (ext_ls g [LMap false])); intros _ n' v' [X|[]]; discriminate).
    destruct (mlookup n (fst (gq g))) as [v|]; auto. destruct (is_health v); auto.
    apply note_cert; [exact O|exact I|]. apply check_stuck; [exact O|exact L|].
    intros Nc g1 ls1 E1 C1. apply (R g1 (([LMap false] ++ [LCheck n v]) ++ ls1)).
    + eapply ext_trans; [|exact E1]. rewrite with_ls_app. apply ext_ls.
    + intros Hc n' v' Hin. destruct (Hc n v) as [Ed|Ed]; [|contradiction]. specialize (C1 Ed). subst ls1. cbn in Hin. destruct Hin as [X|[X|[]]]; [discriminate|]. injection X as <- <-. exact Ed.
Qed.

Lemma gen_ret g r : gfree g -> gen_post g r -> cert (Ret r) g.
Proof. intros F P. split; [exact F|]. split; [exact P|discriminate]. Qed.
Lemma gen_cert o : cert (rbody o) (ghost0 o).
Proof.
  unfold rbody. assert (D : (forall r g', gop g' = o -> gen_post g' r) -> cert (op_c o Ret) (ghost0 o)).
  { intros H. apply (proj1 (disc_cert false gen_post)); [okt|apply pre_any|]. intros r g' ls E _. apply gen_ret; [|apply H; apply (ex_op _ _ _ E)]. eapply ext_free; [exact E|split; reflexivity]. }
  destruct o as [n|n v|n v|n v mk|n|ord|ord cb|ord chk|v|v|]; try (apply D; intros r g' E; unfold gen_post; rewrite E; exact I); clear D; cbn [op_c].
  - refine (gor_cert false gen_post (RGetOrRegisterFn n v mk) n v (fun c => do (AMake v) (fun _ => cb_c mk (new_c v c))) (fun ls => uses_registry mk -> ~ In (LMade v) ls) _ _ I _ _ Ret _ (pre_any _ _) _).
    + intros ls P _ Hin. unfold plain in P. rewrite Forall_forall in P. exact (P _ Hin).
    + intros a b Ha Hb U Hin. apply in_app_iff in Hin. destruct Hin; [now apply Ha|now apply Hb].
    + intros g0 c O0 A0 W0 H0. apply make_cert; auto. apply make_stuck; [exact O0|exact W0|].
      intros Nu g1 ls1 E1. apply new_cert; [eapply ext_ok; eauto|easy|]. intros ls2 P2. destruct E1 as [R1 A1 P1 L1 [ms M1] Q1].
      apply (H0 _ (([LMade v] ++ ls1) ++ ls2)); cbn.
      * exact R1.
      * exact A1.
      * exact P1.
      * rewrite L1. cbn. now rewrite <- !app_assoc.
      * exists ms. exact M1.
      * rewrite Q1; [reflexivity|right; exact W0].
      * intros U. contradiction.
    + okt.
    + intros r g' ls E C. apply gen_ret; [eapply ext_free; [exact E|split; reflexivity]|]. unfold gen_post. rewrite (ex_op _ _ _ E). cbn. rewrite (ex_ls _ _ _ E). exact C.
  - apply rlock_reg_cert; [okt|easy|]. intros W q Wf K. apply mrange_cert; [okt|left; cbn; lia|]. apply collect_cert; [okt|left; cbn; lia|]. intros ls P. rewrite with_ls_app.
    apply runlock_reg_cert; [okt|cbn; lia|reflexivity|]. cbn [gq with_ls gread with_ms with_q app]. rewrite found_ordered by exact Wf.
    apply callbacks_cert; [intros n v; apply (proj2 (disc_cert false gen_post))|okt|easy|]. intros g2 ls2 E2 C2. apply gen_ret; [eapply ext_free; [exact E2|split; reflexivity]|].
    unfold gen_post. rewrite (ex_op _ _ _ E2). cbn. destruct (ex_ms _ _ _ E2) as [ms Ems]. cbn in Ems. exists (fst q), ms, (ordered ord (fst q)).
    split; [exact Ems|]. split; [reflexivity|]. split; [apply ordered_perm|]. intros N. rewrite (ex_ls _ _ _ E2). cbn. rewrite filter_app. unfold is_call at 2. rewrite (C2 N).
    assert (Z : filter is_call ls = []); [|now rewrite Z]. clear - P. induction P as [|x ls Hx _ IH]; [reflexivity|]. destruct x; cbn; auto; easy.
  - apply rlock_reg_cert; [okt|easy|]. intros W q Wf K. apply mrange_cert; [okt|left; cbn; lia|]. apply checks_stuck; [okt|cbn; lia|]. intros g2 ls2 E2 C2.
    assert (O2 : ok g2) by (eapply ext_ok; [exact E2|okt]). pose proof (ex_R _ _ _ E2) as R2. cbn in R2.
    apply runlock_reg_cert; auto; [rewrite R2; cbn; lia|rewrite R2; reflexivity|]. apply gen_ret.
    + split; cbn; [now rewrite R2|]. now rewrite (ex_A _ _ _ E2).
    + unfold gen_post. cbn. rewrite (ex_op _ _ _ E2). cbn. rewrite (ex_ls _ _ _ E2). cbn. intros Hc n v [X|Hin]; [discriminate|]. now apply C2.
Qed.
End Gen.

Lemma strict_cert o : polite o -> cert true false (fun _ _ => True) (rbody o) (ghost0 o).
Proof.
  intros P. apply (proj1 (disc_cert true (fun _ _ => True))); [okt|intros _; split; [reflexivity|split; [intros _; split; reflexivity|exact P]]|].
  intros r g' ls E _. split; [eapply ext_free; [exact E|split; reflexivity]|]. split; [exact I|discriminate].
Qed.

(** ** progress *)
Section Progress.
Variable s0 : rstate.
Variable Post : ghost -> rret -> Prop.
Notation ginv := (ginv true false Post s0).
Definition can_step_b (c : rconfig) (t : nat) : bool :=
  match th c t with Idle => false | Busy _ (Ret _) => true | Busy _ (Atom e _ _ _) => e (sh c) end.
Lemma can_step_ok c t : can_step_b c t = true <-> can_step c t.
Proof. unfold can_step_b, can_step. destruct (th c t) as [|op [r|e u l k]]; split; auto; easy. Qed.

Lemma progress sched c tr G ts : ginv sched c tr G ts -> (exists t, th c t <> Idle) -> exists t, can_step c t.
Proof.
  intros [nd out cer lk kn wf li op_ dn ins] (t0 & Ht0).
  destruct (existsb (can_step_b c) ts) eqn:Ex; [apply existsb_exists in Ex; destruct Ex as (t & _ & Ht); exists t; now apply can_step_ok|]. exfalso.
  assert (In0 : forall t, th c t <> Idle -> In t ts) by (intros t N; destruct (in_dec Nat.eq_dec t ts); auto; destruct N; auto).
  assert (B : forall t, th c t = Idle /\ G t = idle_ghost \/ exists a, legal true a (G t) /\ waiting true a (G t) /\ en a (sh c) = false).
  { intros t. specialize (cer t). destruct (th c t) as [|op cd] eqn:Et; [now left|]. right. destruct cer as [Ce _].
    assert (Hb : can_step_b c t = false).
    { assert (Hin : In t ts) by (apply In0; congruence). destruct (can_step_b c t) eqn:X; auto. assert (existsb (can_step_b c) ts = true) by (apply existsb_exists; eauto). congruence. }
    unfold can_step_b in Hb. rewrite Et in Hb. destruct cd as [r|e u l k]; [discriminate|]. destruct Ce as (a & -> & _ & _ & L & W & _). exists a. auto. }
  assert (NB : forall a, en a (sh c) = false -> exists l, ((a = ARLock l \/ a = AAnnounce l) /\ announced (lock_of l (sh c)) = true) \/ (a = AAcquire l /\ readers (lock_of l (sh c)) <> 0)).
  { intros a E. destruct a as [l|l|l|l|l| | | | | | |]; cbn in E; try discriminate; exists l.
    - left. apply negb_false_iff in E. auto.
    - left. apply negb_false_iff in E. auto.
    - right. apply Nat.eqb_neq in E. auto. }
  assert (W0 : forall t, In t ts -> rc (gA (G t)) = 0 /\ wr (gA (G t)) = false).
  { intros t Ht. destruct (B t) as [[_ ->]|(a & L & W & E)]; [auto|]. destruct (W eq_refl) as (Wa & Wb & Wc).
    destruct (NB a E) as (l & [[[->| ->] An]|[-> Rd]]); cbn in L.
    - destruct (L eq_refl) as [L1 L2]. destruct l; cbn in L1; [rewrite (L2 eq_refl)|rewrite L1]; auto.
    - destruct (L eq_refl) as [L1 L2]. destruct l; cbn in L1; [rewrite (L2 eq_refl)|rewrite L1]; auto.
    - destruct L as [L1 L2]. destruct l; cbn in *; [rewrite (Wc L1 L2); auto|]. split; auto. apply (Wb ArbL L1). }
  assert (RA : readers (arb_lock (sh c)) = 0).
  { destruct (lk ArbL) as (H1 & _). cbn in H1. destruct (Nat.eq_dec (readers (arb_lock (sh c))) 0) as [|N]; auto.
    destruct (sumf_pos (fun g => rc (gA g)) G ts) as (t & Ht & P); [lia|]. destruct (W0 t Ht). lia. }
  assert (AA : announced (arb_lock (sh c)) = false).
  { destruct (lk ArbL) as (_ & H2 & _). cbn in H2. destruct (announced (arb_lock (sh c))); auto. cbn in H2.
    destruct (sumf_pos (fun g => b2n (an (gA g))) G ts) as (t & Ht & P); [lia|]. destruct (an (gA (G t))) eqn:Ea; [|cbn in P; lia]. destruct (W0 t Ht) as [_ Wt].
    destruct (B t) as [[_ X]|(a & L & W & E)]; [rewrite X in Ea; easy|]. destruct (W eq_refl) as (Wa & Wb & Wc). pose proof (Wa ArbL Ea Wt) as ->. cbn in E. now rewrite RA in E. }
  assert (NB' : forall a, en a (sh c) = false -> ((a = ARLock RegL \/ a = AAnnounce RegL) /\ announced (reg_lock (sh c)) = true) \/ (a = AAcquire RegL /\ readers (reg_lock (sh c)) <> 0)).
  { intros a E. destruct (NB a E) as (l & H). destruct l; auto. cbn in H. destruct H as [[_ H]|[_ H]]; [congruence|lia]. }
  assert (W1 : forall t, In t ts -> rc (gR (G t)) = 0 /\ wr (gR (G t)) = false).
  { intros t Ht. destruct (B t) as [[_ ->]|(a & L & W & E)]; [auto|]. destruct (W eq_refl) as (Wa & Wb & Wc).
    destruct (NB' a E) as [[[->| ->] An]|[-> Rd]]; cbn in L.
    - destruct (L eq_refl) as [L1 L2]. rewrite L1. auto.
    - destruct (L eq_refl) as [L1 L2]. rewrite L1. auto.
    - destruct L as [L1 L2]. split; auto. apply (Wb RegL L1). }
  assert (RR : readers (reg_lock (sh c)) = 0).
  { destruct (lk RegL) as (H1 & _). cbn in H1. destruct (Nat.eq_dec (readers (reg_lock (sh c))) 0) as [|N]; auto.
    destruct (sumf_pos (fun g => rc (gR g)) G ts) as (t & Ht & P); [lia|]. destruct (W1 t Ht). lia. }
  assert (AR : announced (reg_lock (sh c)) = false).
  { destruct (lk RegL) as (_ & H2 & _). cbn in H2. destruct (announced (reg_lock (sh c))); auto. cbn in H2.
    destruct (sumf_pos (fun g => b2n (an (gR g))) G ts) as (t & Ht & P); [lia|]. destruct (an (gR (G t))) eqn:Ea; [|cbn in P; lia]. destruct (W1 t Ht) as [_ Wt].
    destruct (B t) as [[_ X]|(a & L & W & E)]; [rewrite X in Ea; easy|]. destruct (W eq_refl) as (Wa & Wb & Wc). pose proof (Wa RegL Ea Wt) as ->. cbn in E. now rewrite RR in E. }
  destruct (B t0) as [[X _]|(a & L & W & E)]; [congruence|]. destruct (NB' a E) as [[_ H]|[_ H]]; [congruence|lia].
Qed.

(** ** termination *)
Notation rstatus := (status rstate rlabel rop rret).
(** one step of a goroutine *)
Inductive smaller : rstatus -> rstatus -> Prop :=
| sm_ret op r : smaller Idle (Busy op (Ret r))
| sm_atom op e u l k s : smaller (Busy op (k s)) (Busy op (Atom e u l k)).
Lemma smaller_wf x : Acc smaller x.
Proof.
  assert (I0 : Acc smaller Idle) by (constructor; intros y H; inversion H). destruct x as [|op c]; auto.
  induction c as [r|e u l k IH]; constructor; intros y H; inversion H; subst; auto.
Qed.
(** one step of one of several goroutines *)
Inductive one_smaller : list rstatus -> list rstatus -> Prop :=
| os_here x y l : smaller x y -> one_smaller (x :: l) (y :: l)
| os_there x l l' : one_smaller l l' -> one_smaller (x :: l) (x :: l').
Lemma one_smaller_wf l : Acc one_smaller l.
Proof.
  induction l as [|x l IH]; [constructor; intros y H; inversion H|]. revert x. induction IH as [l _ IHl]. intros x.
  induction (smaller_wf x) as [x _ IHx]. constructor. intros y H. inversion H; subst; auto.
Qed.
Lemma one_smaller_upd th0 ts t x : NoDup ts -> In t ts -> smaller x (th0 t) -> one_smaller (map (tset th0 t x) ts) (map th0 ts).
Proof.
  induction ts as [|y ts IH]; intros ND Hin Hs; [easy|]. inversion ND; subst. cbn. destruct (Nat.eq_dec y t) as [->|N].
  - rewrite tset_same. replace (map (tset th0 t x) ts) with (map th0 ts); [now constructor|]. apply map_ext_in. intros z Hz. rewrite tset_other; auto. intros ->; auto.
  - rewrite tset_other by exact N. constructor. apply IH; auto. now destruct Hin.
Qed.
Hypothesis s0_free : reg_lock s0 = lock_init /\ arb_lock s0 = lock_init.
Hypothesis s0_wf : wfm (metrics s0).

Lemma finish : forall l sched G ts, l = map (th (fst (cexec rbody s0 sched))) ts ->
  ginv sched (fst (cexec rbody s0 sched)) (snd (cexec rbody s0 sched)) G ts -> finishes (fst (cexec rbody s0 sched)).
Proof.
  intros l. induction (one_smaller_wf l) as [l _ IH]. intros sched G ts -> I.
  destruct (existsb (fun t => match th (fst (cexec rbody s0 sched)) t with Idle => false | _ => true end) ts) eqn:Ex.
  - apply fin_step.
    + apply (progress _ _ _ _ _ I). apply existsb_exists in Ex. destruct Ex as (t & _ & Ht). exists t. destruct (th _ t); easy.
    + intros t Ht. destruct (cexec rbody s0 sched) as [c tr] eqn:E. cbn [fst snd] in *.
      assert (Hin : In t ts). { destruct (in_dec Nat.eq_dec t ts) as [|N]; auto. unfold can_step in Ht. now rewrite (gi_out _ _ _ _ _ _ _ _ _ I t N) in Ht. }
      pose proof (cexec_snoc rbody s0 sched (Run t)) as Sn. rewrite E in Sn. destruct (cstep rbody c (Run t)) as [c' ev] eqn:Es. cbn [fst snd] in *.
      unfold can_step in Ht. unfold cstep in Es. destruct (th c t) as [|op [r|e u l0 k]] eqn:Et; [easy| |].
      * injection Es as <- <-. pose proof (ginv_ret true false Post s0 s0_free sched c tr G ts t op r I Et) as I'.
        specialize (IH (map (tset (th c) t Idle) ts)). replace (MkConfig (sh c) (tset (th c) t Idle)) with (fst (cexec rbody s0 (sched ++ [Run t]))) by (now rewrite Sn).
        apply (IH ltac:(apply one_smaller_upd; [apply I|exact Hin|rewrite Et; constructor]) (sched ++ [Run t]) (pupd G t idle_ghost) ts); rewrite Sn; [reflexivity|exact I'].
      * rewrite Ht in Es. injection Es as <- <-. destruct (ginv_step true false Post s0 s0_free sched c tr G ts t op e u l0 k) as (G' & I'); try rewrite E; auto.
        specialize (IH (map (tset (th c) t (Busy op (k (sh c)))) ts)). replace (MkConfig (u (sh c)) (tset (th c) t (Busy op (k (sh c))))) with (fst (cexec rbody s0 (sched ++ [Run t]))) by (now rewrite Sn).
        apply (IH ltac:(apply one_smaller_upd; [apply I|exact Hin|rewrite Et; constructor]) (sched ++ [Run t]) G' ts); rewrite Sn; [reflexivity|exact I'].
  - apply fin_quiet. intros t. destruct (in_dec Nat.eq_dec t ts) as [Hin|N]; [|apply (gi_out _ _ _ _ _ _ _ _ _ I t N)].
    destruct (th (fst (cexec rbody s0 sched)) t) eqn:Et; auto. exfalso. assert (X : existsb (fun t => match th (fst (cexec rbody s0 sched)) t with Idle => false | _ => true end) ts = true); [|congruence].
    apply existsb_exists. exists t. split; auto. now rewrite Et.
Qed.
End Progress.
