(** The world: well-formedness, legal changes, and a program logic for them. *)
From Coq Require Import ZArith List String Bool Lia Permutation Arith.
From Verif.Model Require Import GoInt GoFloat GoBase Stats Uniform ExpDecay Conc CounterGauge Ewma Meter World.
Import ListNotations.
Local Open Scope nat_scope.

(** ** tags *)
Inductive tag := TCounter | TGauge | TGaugeF | THealth | TUniform | TExp | TArr | TSampleSnap | THist | THistSnap
| TEwma | TMeter | TMeterSnap | TTimer | TTimerSnap | TReg.
Definition tag_of (o : obj) : tag :=
  match o with
  | OCounter _ => TCounter | OGauge _ => TGauge | OGaugeF _ => TGaugeF | OHealth _ _ => THealth
  | OUniform _ _ _ => TUniform | OExp _ => TExp | OArr _ => TArr | OSampleSnap _ _ => TSampleSnap
  | OHist _ => THist | OHistSnap _ => THistSnap | OEwma _ => TEwma | OMeter _ _ _ _ _ _ => TMeter
  | OMeterSnap _ _ _ _ _ => TMeterSnap | OTimer _ _ => TTimer | OTimerSnap _ _ => TTimerSnap | OReg _ => TReg
  end.
Definition tagat (h : list obj) (l : nat) (t : tag) : Prop := exists o, nth_error h l = Some o /\ tag_of o = t.

(** the array of a uniform sample, and the struct in which a meter publishes its rates *)
Definition owned_arr (h : list obj) (a : nat) : Prop := exists l c n, nth_error h l = Some (OUniform c n a).
Definition owned_ms (h : list obj) (s : nat) : Prop := exists l a b c t st, nth_error h l = Some (OMeter s a b c t st).

(** no value refers to a meter's own published struct *)
Definition snapat (h : list obj) (l : nat) : Prop := tagat h l TMeterSnap /\ ~ owned_ms h l.

Fixpoint vok (h : list obj) (v : val) : Prop :=
  match v with
  | VCounter l => tagat h l TCounter
  | VGauge l => tagat h l TGauge
  | VGaugeF l => tagat h l TGaugeF
  | VHealth l => tagat h l THealth
  | VUniform l => tagat h l TUniform
  | VExp l => tagat h l TExp
  | VSampleSnap l => tagat h l TSampleSnap
  | VHist l => tagat h l THist
  | VHistSnap l => tagat h l THistSnap
  | VEwma l => tagat h l TEwma
  | VMeter l => tagat h l TMeter
  | VMeterSnap l => snapat h l
  | VTimer l => tagat h l TTimer
  | VTimerSnap l => tagat h l TTimerSnap
  | VReg l => tagat h l TReg
  | VPref u _ => cls u = CReg /\ vok h u
  | VSlice l => tagat h l TArr
  | _ => True
  end.

Definition live_ewma (e : ewma) : Prop := w_mutex e = false.

Definition ook (h : list obj) (o : obj) : Prop :=
  match o with
  | OUniform _ _ a => tagat h a TArr /\ 2 <= a
  | OSampleSnap _ a => tagat h a TArr
  | OHist s => cls s = CSample /\ vok h s
  | OHistSnap s => tagat h s TSampleSnap
  | OEwma e => live_ewma e
  | OMeter s a b c _ _ => tagat h s TMeterSnap /\ (cls a = CEwma /\ vok h a) /\ (cls b = CEwma /\ vok h b) /\ (cls c = CEwma /\ vok h c)
  | OTimer hi m => (cls hi = CHist /\ vok h hi) /\ (cls m = CMeter /\ vok h m)
  | OTimerSnap hi m => tagat h hi THistSnap /\ snapat h m
  | OReg es => NoDup (map fst es) /\ Forall (fun kv => is_metric (snd kv) = true /\ vok h (snd kv)) es
  | _ => True
  end.

Definition running (h : list obj) (l : nat) : Prop :=
  exists s a b c t, nth_error h l = Some (OMeter s a b c t false).

(** a meter, its published struct and its three averages are allocated together *)
Definition mshape (h : list obj) : Prop := forall l s a b c t st, nth_error h l = Some (OMeter s a b c t st) ->
  a = VEwma (s + 1) /\ b = VEwma (s + 2) /\ c = VEwma (s + 3) /\ l = s + 4.

Record wf (w : world) : Prop := {
  wf_obj : forall l o, nth_error (heap w) l = Some o -> ook (heap w) o;
  wf_reg : tagat (heap w) default_reg TReg;
  wf_zero : nth_error (heap w) zero_base = Some (OArr []);
  wf_nodup : NoDup (alive w);
  wf_alive : forall l, In l (alive w) <-> running (heap w) l;
  wf_ticking : alive w <> [] -> ticking w = true;
  wf_shape : mshape (heap w)
}.

(** ** legal changes *)
Definition chg (U : nat -> Prop) (h : list obj) (l : nat) (o o' : obj) : Prop :=
  match o, o' with
  | OCounter _, OCounter _ | OGauge _, OGauge _ | OGaugeF _, OGaugeF _ | OExp _, OExp _ | OReg _, OReg _ => True
  | OEwma e, OEwma e' => w_alpha e = w_alpha e'
  | OHealth _ f, OHealth _ f' => f = f'
  | OUniform _ n a, OUniform _ n' a' => n = n' /\ (a' = a \/ List.length h <= a')
  | OArr xs, OArr ys => Permutation xs ys \/ owned_arr h l \/ (U l /\ List.length xs = List.length ys)
  | OMeterSnap _ _ _ _ _, OMeterSnap _ _ _ _ _ => o = o' \/ owned_ms h l
  | OMeter s a b c t st, OMeter s' a' b' c' t' st' =>
      s = s' /\ a = a' /\ b = b' /\ c = c' /\ t = t' /\ (st = true -> st' = true)
  | _, _ => o = o'
  end.

(** what a new object may refer to: its own array or struct is new, too; a new sample
    snapshot's array is new and no sample's, or the program's *)
Definition fresh_refs (U : nat -> Prop) (h h' : list obj) (o : obj) : Prop :=
  match o with
  | OUniform _ _ a => List.length h <= a
  | OMeter s _ _ _ _ _ => List.length h <= s
  | OSampleSnap _ a => (List.length h <= a < List.length h' /\ ~ owned_arr h' a) \/ U a
  | _ => True
  end.
Definition legalh (U : nat -> Prop) (h h' : list obj) : Prop :=
  List.length h <= List.length h' /\
  (forall l o, nth_error h l = Some o -> exists o', nth_error h' l = Some o' /\ chg U h l o o') /\
  (forall l o', List.length h <= l -> nth_error h' l = Some o' ->
     fresh_refs U h h' o').
Definition legal (U : nat -> Prop) (w w' : world) : Prop := legalh U (heap w) (heap w').

Lemma nth_lt {A} (l : list A) i a : nth_error l i = Some a -> i < List.length l.
Proof. intros H. apply nth_error_Some. congruence. Qed.
Lemma nth_app_l {A} (l r : list A) i a : nth_error l i = Some a -> nth_error (l ++ r) i = Some a.
Proof. intros H. rewrite nth_error_app1; auto. eapply nth_lt; eauto. Qed.

(** well-formedness of values and objects depends on the tags and on which structs are published by meters *)
Definition tags_le (h h' : list obj) : Prop :=
  (forall l t, tagat h l t -> tagat h' l t) /\ (forall l t, tagat h l t -> owned_ms h' l -> owned_ms h l).
Lemma snapat_mono h h' l : tags_le h h' -> snapat h l -> snapat h' l.
Proof. intros [A B] [T O]. split; eauto. Qed.
Lemma vok_mono h h' v : tags_le h h' -> vok h v -> vok h' v.
Proof.
  intros L. pose proof (snapat_mono h h') as S. destruct L as [L L2]. induction v; cbn; auto.
  - apply S. split; auto.
  - intros [A B]; split; auto.
Qed.
Lemma ook_mono h h' o : tags_le h h' -> ook h o -> ook h' o.
Proof.
  intros L. pose proof (fun v => vok_mono h h' v L) as V. pose proof (fun l => snapat_mono h h' l L) as S. destruct L as [L _].
  destruct o; cbn; auto; intros H; repeat match goal with H : _ /\ _ |- _ => destruct H end; auto; try (repeat split; auto; fail).
  split; auto. eapply Forall_impl; [|eauto]. cbn. intros kv [A B]; split; auto.
Qed.
Definition own_new (h : list obj) (o : obj) : Prop := match o with OMeter s _ _ _ _ _ => List.length h <= s | _ => True end.
Lemma tags_le_app h x : Forall (own_new h) x -> tags_le h (h ++ x).
Proof.
  intros F. split.
  - intros l t (o & E & T). exists o. split; auto. now apply nth_app_l.
  - intros l t (o & E & T) (k & a & b & c & d & e & K). apply nth_lt in E.
    destruct (lt_dec k (List.length h)) as [Hk|Hk]; [rewrite nth_error_app1 in K by auto; repeat eexists; eauto|].
    rewrite nth_error_app2 in K by lia. apply nth_error_In in K. rewrite Forall_forall in F. specialize (F _ K). cbn in F. lia.
Qed.

Section U.
Variable U : nat -> Prop.

Lemma chg_refl h l o : chg U h l o o.
Proof. destruct o; cbn; auto. repeat split; auto. Qed.

Lemma chg_tag h l o o' : chg U h l o o' -> tag_of o = tag_of o'.
Proof. destruct o, o'; cbn; intros H; try reflexivity; try discriminate; try congruence. Qed.

Lemma legalh_refl h : legalh U h h.
Proof.
  split; [lia|split].
  - intros l o H. exists o; split; auto using chg_refl.
  - intros l o' L H. apply nth_lt in H. lia.
Qed.

Lemma owned_arr_back h h' a : legalh U h h' -> a < List.length h -> owned_arr h' a -> owned_arr h a.
Proof.
  intros (L & C & F) La (l & c & n & H).
  destruct (lt_dec l (List.length h)) as [Hl|Hl].
  - destruct (nth_error h l) as [o|] eqn:E; [|apply nth_error_None in E; lia].
    destruct (C _ _ E) as (o' & E' & X). rewrite H in E'. inversion E'; subst o'.
    destruct o; cbn in X; try discriminate. destruct X as [_ [X|X]]; [subst|lia]. now exists l, count, size.
  - specialize (F l _ ltac:(lia) H). cbn in F. lia.
Qed.
Lemma legalh_sub (U' : nat -> Prop) h h' : (forall a, U a -> U' a) -> legalh U h h' -> legalh U' h h'.
Proof.
  intros S (L & C & F). split; auto. split.
  - intros l o E. destruct (C _ _ E) as (o' & E' & X). exists o'. split; auto. destruct o, o'; cbn in *; auto. intuition.
  - intros l o' Hl E. specialize (F _ _ Hl E). destruct o'; cbn in *; auto. intuition.
Qed.
Lemma owned_ms_back h h' s : legalh U h h' -> s < List.length h -> owned_ms h' s -> owned_ms h s.
Proof.
  intros (L & C & F) La (l & a & b & c & t & st & H).
  destruct (lt_dec l (List.length h)) as [Hl|Hl].
  - destruct (nth_error h l) as [o|] eqn:E; [|apply nth_error_None in E; lia].
    destruct (C _ _ E) as (o' & E' & X). rewrite H in E'. inversion E'; subst o'.
    destruct o; cbn in X; try discriminate. destruct X as (-> & _). now exists l, a1, a5, a15, start, stopped.
  - specialize (F l _ ltac:(lia) H). cbn in F. lia.
Qed.

Lemma chg_trans h h' l o o' o'' : legalh U h h' -> nth_error h l = Some o ->
  chg U h l o o' -> chg U h' l o' o'' -> chg U h l o o''.
Proof.
  intros Lg E A B. pose proof (nth_lt _ _ _ E) as Hl. pose proof Lg as (L & _ & _).
  destruct o, o'; cbn in A; try discriminate; try contradiction; destruct o''; cbn in B |- *; try discriminate; try contradiction; auto;
    try (inversion A; subst; inversion B; subst; auto; fail).
  - congruence.
  - destruct A as [-> A], B as [-> B]. split; auto. destruct B as [->|B]; auto. right; lia.
  - destruct A as [A|[A|[A1 A2]]]; [|auto|];
    (destruct B as [B|[B|[B1 B2]]]; [|right; left; eapply owned_arr_back; eauto|]); auto.
    + left; eapply perm_trans; eauto.
    + right; right; split; auto. rewrite (Permutation_length A); auto.
    + right; right; split; auto. rewrite A2. apply Permutation_length; auto.
    + right; right; split; auto; congruence.
  - destruct A as (-> & -> & -> & -> & -> & A), B as (-> & -> & -> & -> & -> & B). repeat split; auto.
  - destruct A as [A|A]; [|auto]. destruct B as [B|B]; [|right; eapply owned_ms_back; eauto].
    left. congruence.
Qed.

Lemma legalh_trans h h' h'' : legalh U h h' -> legalh U h' h'' -> legalh U h h''.
Proof.
  intros A B. pose proof A as (LA & CA & FA). pose proof B as (LB & CB & FB). split; [lia|split].
  - intros l o E. destruct (CA _ _ E) as (o' & E' & X). destruct (CB _ _ E') as (o'' & E'' & Y).
    exists o''; split; auto. eapply chg_trans; eauto.
  - intros l o'' Hl E. destruct (lt_dec l (List.length h')) as [Hl'|Hl'].
    + destruct (nth_error h' l) as [o'|] eqn:E'; [|apply nth_error_None in E'; lia].
      destruct (CB _ _ E') as (x & Ex & X). rewrite E in Ex. inversion Ex; subst x.
      specialize (FA l o' Hl E'). destruct o'; cbn in X; destruct o''; try discriminate; try contradiction; cbn in *; auto.
      * destruct X as [_ [->|X]]; lia.
      * inversion X; subst. destruct FA as [[FA1 FA2]|FA]; auto. left. split; [lia|]. intros O. apply FA2.
        eapply owned_arr_back; eauto. lia.
      * destruct X as (<- & _). auto.
    + specialize (FB l _ ltac:(lia) E). destruct o''; cbn in *; auto; try lia. destruct FB as [[FB1 FB2]|]; auto. left. split; auto. lia.
Qed.

Lemma legalh_tag h h' l t : legalh U h h' -> tagat h l t -> tagat h' l t.
Proof.
  intros (_ & C & _) (o & E & T). destruct (C _ _ E) as (o' & E' & X). exists o'. split; auto.
  rewrite <- (chg_tag _ _ _ _ X). auto.
Qed.
Lemma legalh_tags h h' : legalh U h h' -> tags_le h h'.
Proof.
  intros L. split; [intros l t; apply legalh_tag; auto|]. intros l t (o & E & _). apply owned_ms_back; auto. eapply nth_lt; eauto.
Qed.
Lemma legalh_snapat h h' l : legalh U h h' -> snapat h l -> snapat h' l.
Proof. intros L. apply snapat_mono, legalh_tags, L. Qed.
Lemma legalh_vok h h' v : legalh U h h' -> vok h v -> vok h' v.
Proof. intros L. apply vok_mono, legalh_tags, L. Qed.
Lemma legalh_ook h h' o : legalh U h h' -> ook h o -> ook h' o.
Proof. intros L. apply ook_mono, legalh_tags, L. Qed.
Lemma legalh_owned_ms h h' s : legalh U h h' -> owned_ms h s -> owned_ms h' s.
Proof.
  intros (_ & C & _) (l & a & b & c & t & st & E). destruct (C _ _ E) as (o' & E' & X).
  destruct o'; cbn in X; try discriminate. destruct X as (<- & <- & <- & <- & <- & _).
  now exists l, a, b, c, t, stopped.
Qed.

(** ** triples: from a well-formed world, a legal change to a well-formed world *)
Definition tri {A} (P : world -> Prop) (m : M A) (Q : A -> world -> Prop) : Prop :=
  forall o w, wf w -> P w ->
    wf (fst (m o w)) /\ legal U w (fst (m o w)) /\
    match snd (m o w) with Ok a => Q a (fst (m o w)) | Panic msg => msg <> msg_dangling end.

Definition stable (P : world -> Prop) : Prop := forall w w', legal U w w' -> P w -> P w'.

Lemma stable_tag l t : stable (fun w => tagat (heap w) l t).
Proof. intros w w' L. apply legalh_tag; auto. Qed.
Lemma stable_vok v : stable (fun w => vok (heap w) v).
Proof. intros w w' L. apply legalh_vok; auto. Qed.
Lemma stable_snapat l : stable (fun w => snapat (heap w) l).
Proof. intros w w' L. apply legalh_snapat; auto. Qed.
Lemma stable_owned s : stable (fun w => owned_ms (heap w) s).
Proof. intros w w' L. apply legalh_owned_ms; auto. Qed.
Lemma stable_and (P Q : world -> Prop) : stable P -> stable Q -> stable (fun w => P w /\ Q w).
Proof. intros A B w w' L [X Y]; split; eauto. Qed.
Lemma stable_const (P : Prop) : stable (fun _ => P).
Proof. intros w w' _; auto. Qed.
Lemma stable_ook o : stable (fun w => ook (heap w) o).
Proof. intros w w' L. apply legalh_ook; auto. Qed.

Lemma tri_bind {A B} (P : world -> Prop) (m : M A) Q (f : A -> M B) R :
  stable P -> tri P m Q -> (forall a, tri (fun w => P w /\ Q a w) (f a) R) -> tri P (bind m f) R.
Proof.
  intros S Hm Hf o w W Pw. unfold bind. destruct (Hm o w W Pw) as (W1 & L1 & X).
  destruct (m o w) as [w1 [a|msg]]; cbn in *; auto.
  destruct (Hf a o w1 W1 (conj (S _ _ L1 Pw) X)) as (W2 & L2 & Y).
  split; auto. split; auto. eapply legalh_trans; eauto.
Qed.
Lemma tri_ret {A} (P : world -> Prop) (a : A) (Q : A -> world -> Prop) : (forall w, P w -> Q a w) -> tri P (ret a) Q.
Proof. intros H o w W Pw. cbn. split; auto. split; auto. apply legalh_refl. Qed.
Lemma tri_throw {A} (P : world -> Prop) msg (Q : A -> world -> Prop) : msg <> msg_dangling -> tri P (throw msg) Q.
Proof. intros H o w W Pw. cbn. split; auto. split; auto. apply legalh_refl. Qed.
Lemma tri_absurd {A} (P : world -> Prop) (m : M A) Q : (forall w, wf w -> P w -> False) -> tri P m Q.
Proof. intros H o w W Pw. destruct (H w); auto. Qed.
Lemma tri_lift {A} (P : world -> Prop) (r : res A) (Q : A -> world -> Prop) :
  (forall w, P w -> match r with Ok a => Q a w | Panic msg => msg <> msg_dangling end) -> tri P (lift r) Q.
Proof. intros H o w W Pw. cbn. split; auto. split; auto. apply legalh_refl. apply H; auto. Qed.
Lemma tri_ask {A} (P : world -> Prop) (f : orc -> A) : tri P (ask f) (fun _ _ => True).
Proof. intros o w W Pw. cbn. split; auto. split; auto. apply legalh_refl. Qed.
Lemma tri_gets {A} (P : world -> Prop) (f : world -> A) (Q : A -> world -> Prop) : (forall w, wf w -> P w -> Q (f w) w) -> tri P (gets f) Q.
Proof. intros H o w W Pw. cbn. split; auto. split; auto. apply legalh_refl. Qed.
Lemma tri_conseq {A} (P P' : world -> Prop) (m : M A) (Q Q' : A -> world -> Prop) :
  tri P' m Q' -> (forall w, P w -> P' w) -> (forall a w, Q' a w -> Q a w) -> tri P m Q.
Proof. intros H A1 A2 o w W Pw. destruct (H o w W (A1 _ Pw)) as (X & Y & Z). split; auto. split; auto. destruct (snd (m o w)); auto. Qed.
(** what holds before holds after, if stable *)
Lemma tri_frame {A} (P : world -> Prop) (m : M A) Q : stable P -> tri P m Q -> tri P m (fun a w => P w /\ Q a w).
Proof.
  intros S H o w W Pw. destruct (H o w W Pw) as (X & Y & Z). split; auto. split; auto.
  destruct (snd (m o w)); auto. split; auto. eapply S; eauto.
Qed.

(** load *)
Lemma tri_load l t : tri (fun w => tagat (heap w) l t) (load l)
  (fun o w => tag_of o = t /\ ook (heap w) o /\
     match o with OMeter s _ _ _ _ _ => owned_ms (heap w) s | _ => True end).
Proof.
  intros o w W (x & E & T). unfold load. rewrite E. cbn. split; auto. split; [apply legalh_refl|].
  split; auto. split; [eapply wf_obj; eauto|].
  destruct x; auto. now exists l, a1, a5, a15, start, stopped.
Qed.

(** single stores *)
Lemma lset_nth_eq {A} (l : list A) i a : i < List.length l -> nth_error (lset l i a) i = Some a.
Proof. revert i; induction l; intros [|i] H; cbn in *; try lia; auto. apply IHl; lia. Qed.
Lemma lset_nth_neq {A} (l : list A) i j a : i <> j -> nth_error (lset l i a) j = nth_error l j.
Proof. revert i j; induction l; intros [|i] [|j] H; cbn; auto; try congruence; try (apply IHl; auto). Qed.
Lemma lset_length {A} (l : list A) i a : List.length (lset l i a) = List.length l.
Proof. revert i; induction l; intros [|i]; cbn; auto. Qed.

Lemma legalh_lset h l o o' : nth_error h l = Some o -> chg U h l o o' -> legalh U h (lset h l o').
Proof.
  intros E X. pose proof (nth_lt _ _ _ E) as Hl. split; [rewrite lset_length; lia|split].
  - intros k x Ek. destruct (Nat.eq_dec l k) as [<-|N].
    + exists o'. split; [apply lset_nth_eq; auto|]. congruence.
    + exists x. rewrite lset_nth_neq by auto. split; auto using chg_refl.
  - intros k x Hk Ek. apply nth_lt in Ek. rewrite lset_length in Ek. lia.
Qed.
Lemma legalh_apps h xs : Forall (fresh_refs U h (h ++ xs)) xs -> legalh U h (h ++ xs).
Proof.
  intros F. split; [rewrite app_length; lia|split].
  - intros l x E. exists x. split; [now apply nth_app_l|apply chg_refl].
  - intros l x Hl E. rewrite nth_error_app2 in E by auto. apply nth_error_In in E. rewrite Forall_forall in F. apply (F _ E).
Qed.
Lemma legalh_app h o : fresh_refs U h (h ++ [o]) o -> legalh U h (h ++ [o]).
Proof. intros X. apply legalh_apps. constructor; auto. Qed.

(** [wf] after a store that does not touch meters' stopped flags *)
Lemma running_lset h l o o' k : nth_error h l = Some o -> tag_of o = tag_of o' -> tag_of o <> TMeter ->
  running (lset h l o') k <-> running h k.
Proof.
  intros E T N. pose proof (nth_lt _ _ _ E) as Hl. unfold running. destruct (Nat.eq_dec l k) as [<-|D].
  - rewrite lset_nth_eq by auto. rewrite E. split; intros (s & a & b & c & t & X); exists s, a, b, c, t;
      inversion X; subst; cbn in *; congruence.
  - rewrite lset_nth_neq by auto. reflexivity.
Qed.
Lemma running_app h o k : tag_of o <> TMeter -> running (h ++ [o]) k <-> running h k.
Proof.
  intros N. unfold running. split; intros (s & a & b & c & t & X); exists s, a, b, c, t.
  - destruct (lt_dec k (List.length h)); [rewrite nth_error_app1 in X; auto|].
    rewrite nth_error_app2 in X by lia. destruct (k - List.length h) as [|j]; cbn in X; [inversion X; subst; cbn in N; congruence|destruct j; discriminate].
  - now apply nth_app_l.
Qed.

Lemma tags_le_lset h l o o' : nth_error h l = Some o -> tag_of o = tag_of o' ->
  match o' with OMeter s _ _ _ _ _ => match o with OMeter s' _ _ _ _ _ => s = s' | _ => False end | _ => True end -> tags_le h (lset h l o').
Proof.
  intros E T NM. split.
  2: { intros k t _ (j & a & b & c & d & e & K). destruct (Nat.eq_dec l j) as [<-|N].
       - rewrite lset_nth_eq in K by (eapply nth_lt; eauto). inversion K; subst. destruct o; try contradiction; subst. repeat eexists; eauto.
       - rewrite lset_nth_neq in K by auto. repeat eexists; eauto. }
  intros k t (x & Ek & Tk). destruct (Nat.eq_dec l k) as [<-|N].
  - exists o'. split; [apply lset_nth_eq; eapply nth_lt; eauto|congruence].
  - exists x. rewrite lset_nth_neq by auto. auto.
Qed.
Lemma wf_store w l o o' : wf w -> nth_error (heap w) l = Some o -> tag_of o = tag_of o' -> ook (heap w) o' ->
  tag_of o <> TMeter -> l <> zero_base -> wf (set_heap (lset (heap w) l o') w).
Proof.
  intros W E T K N Z. assert (L : tags_le (heap w) (lset (heap w) l o')) by (eapply tags_le_lset; eauto; destruct o'; auto; rewrite T in N; cbn in N; congruence). pose proof (nth_lt _ _ _ E) as Hl.
  destruct W. constructor; cbn [heap alive ticking usenil set_heap]; auto.
  - intros k x Ek. destruct (Nat.eq_dec l k) as [<-|D].
    + rewrite lset_nth_eq in Ek by auto. inversion Ek; subst. eapply ook_mono; eauto.
    + rewrite lset_nth_neq in Ek by auto. eapply ook_mono; eauto.
  - apply L; auto.
  - rewrite lset_nth_neq; auto.
  - intros k. rewrite (running_lset _ _ _ _ _ E T N). auto.
  - intros k s a b c t st Ek. destruct (Nat.eq_dec l k) as [<-|D].
    + rewrite lset_nth_eq in Ek by auto. inversion Ek; subst. destruct o; cbn in T, N; congruence.
    + rewrite lset_nth_neq in Ek by auto. eauto.
Qed.
Lemma wf_alloc w o : wf w -> match o with OUniform _ _ a => True | OMeter s _ _ _ _ _ => False | _ => True end ->
  ook (heap w) o -> wf (set_heap (heap w ++ [o]) w).
Proof.
  intros W N K. assert (G2 : forall x, ook (heap w) x -> ook (heap w ++ [o]) x) by (intros x; apply ook_mono, tags_le_app; constructor; [destruct o; cbn; auto; contradiction|constructor]).
  destruct W. constructor; cbn [heap alive ticking usenil set_heap]; auto.
  - intros l x E. destruct (lt_dec l (List.length (heap w))); [rewrite nth_error_app1 in E by auto; eauto|].
    rewrite nth_error_app2 in E by lia. destruct (l - List.length (heap w)) as [|j]; cbn in E; [inversion E; subst; auto|destruct j; discriminate].
  - destruct wf_reg0 as (x & A & B). exists x. split; auto. now apply nth_app_l.
  - now apply nth_app_l.
  - intros l. rewrite running_app; auto. destruct o; cbn; try discriminate. contradiction.
  - intros l s a b c t st E. destruct (lt_dec l (List.length (heap w))); [rewrite nth_error_app1 in E by auto; eauto|].
    rewrite nth_error_app2 in E by lia. destruct (l - List.length (heap w)) as [|j]; cbn in E; [inversion E; subst; contradiction|destruct j; discriminate].
Qed.

(** stores to objects whose contents do not matter here *)
Definition plain (o : obj) : Prop :=
  match o with OCounter _ | OGauge _ | OGaugeF _ | OExp _ => True | OEwma e => live_ewma e | _ => False end.
Lemma tri_store_plain l o' : plain o' -> match o' with OEwma _ => False | _ => True end ->
  tri (fun w => tagat (heap w) l (tag_of o')) (store l o') (fun _ _ => True).
Proof.
  intros Pl NE o w W (x & E & T). cbn.
  assert (X : chg U (heap w) l x o') by (destruct x, o'; cbn in *; try discriminate; try contradiction; auto).
  split; [|split; auto; eapply legalh_lset; eauto].
  apply (wf_store w l x o' W E (chg_tag _ _ _ _ X)); [destruct o'; cbn in *; auto; contradiction|destruct x; cbn in *; try discriminate; destruct o'; cbn in *; try contradiction; discriminate|].
  intros ->. rewrite (wf_zero w W) in E. inversion E; subst. destruct o'; cbn in *; try contradiction; discriminate.
Qed.
Definition no_own (o : obj) : Prop :=
  match o with OUniform _ _ _ => False | OMeter _ _ _ _ _ _ => False | OSampleSnap _ _ => False | OMeterSnap _ _ _ _ _ => False | _ => True end.
Lemma tri_alloc o : no_own o ->
  tri (fun w => ook (heap w) o) (alloc o) (fun l w => tagat (heap w) l (tag_of o)).
Proof.
  intros N oo w W K. cbn. split; [apply wf_alloc; auto; destruct o; auto|]. split.
  - apply legalh_app. destruct o; cbn in *; auto; contradiction.
  - exists o. split; auto. rewrite nth_error_app2 by lia. rewrite Nat.sub_diag. reflexivity.
Qed.
(** a struct no meter publishes in *)
Lemma tri_alloc_snap c a b d m : tri (fun _ => True) (alloc (OMeterSnap c a b d m)) (fun l w => snapat (heap w) l).
Proof.
  intros oo w W K. cbn. split; [apply wf_alloc; cbn; auto|]. split; [apply legalh_app; cbn; auto|]. split.
  - exists (OMeterSnap c a b d m). split; auto. rewrite nth_error_app2 by lia. rewrite Nat.sub_diag. reflexivity.
  - intros (k & a1 & a2 & a3 & a4 & a5 & E). destruct (lt_dec k (List.length (heap w))) as [L|L].
    + rewrite nth_error_app1 in E by auto. apply (wf_obj w W) in E. destruct E as [(x & E & _) _]. apply nth_lt in E. lia.
    + rewrite nth_error_app2 in E by lia. destruct (k - List.length (heap w)) as [|j]; cbn in E; [discriminate|destruct j; discriminate].
Qed.
(** the published fields of a meter *)
Lemma tri_store_ms l c a b d m :
  tri (fun w => tagat (heap w) l TMeterSnap /\ owned_ms (heap w) l) (store l (OMeterSnap c a b d m)) (fun _ _ => True).
Proof.
  intros o w W ((x & E & T) & O). cbn. destruct x; cbn in T; try discriminate.
  assert (X : chg U (heap w) l (OMeterSnap count r1 r5 r15 mean) (OMeterSnap c a b d m)) by (right; auto).
  split; [|split; auto; eapply legalh_lset; eauto].
  eapply wf_store; eauto; cbn; auto; try discriminate.
  intros ->. rewrite (wf_zero w W) in E. discriminate.
Qed.
Lemma tri_store_reg l es :
  tri (fun w => tagat (heap w) l TReg /\ ook (heap w) (OReg es)) (store l (OReg es)) (fun _ _ => True).
Proof.
  intros o w W ((x & E & T) & O). cbn -[ook]. destruct x; cbn in T; try discriminate.
  assert (X : chg U (heap w) l (OReg entries) (OReg es)) by (cbn; auto).
  split; [|split; auto; eapply legalh_lset; eauto].
  eapply wf_store; eauto; cbn; auto; try discriminate.
  intros ->. rewrite (wf_zero w W) in E. discriminate.
Qed.
End U.
