(** JSON exports. *)
From Coq Require Import ZArith List String Bool Lia Permutation Sorted.
From Verif.Model Require Import GoInt GoFloat GoBase World Fmt Report Json.
From Verif.Spec Require Import ApiSpec RegistrySpec HealthSpec GetAllSpec TextSpec ReportSpec WriteSpec JsonSpec.
From Verif.Proofs Require Import WorldBase WorldCalls WorldStep WorldReads GetAllProofs HealthProofs RegistryProofs TextProofs ReportProofs LineProofs WriteProofs.
From Verif.Props Require Import SnapshotProps HealthProps GetAllProps ReportProps WriteProps.
Import ListNotations.
Local Open Scope string_scope.

(** ** sorting *)
Lemma insert_perm {A} (kv : string * A) l : Permutation (insert_key kv l) (kv :: l).
Proof. induction l as [|x l IH]; cbn [insert_key]; auto. destruct (String.ltb (fst x) (fst kv)); auto. rewrite IH. constructor. Qed.
Lemma sort_perm {A} (l : list (string * A)) : Permutation (sort_keys l) l.
Proof. induction l as [|a l IH]; cbn; auto. rewrite insert_perm. now constructor. Qed.
Lemma insert_sorted {A} (kv : string * A) l : Sorted (fun a b => String.ltb a b = true) (map fst l) -> ~ In (fst kv) (map fst l) -> Sorted (fun a b => String.ltb a b = true) (map fst (insert_key kv l)).
Proof.
  induction l as [|x l IH]; cbn [insert_key map]; intros S N; [auto|]. inversion S as [|? ? S1 S2]; subst. destruct (String.ltb (fst x) (fst kv)) eqn:L; cbn [map].
  - constructor; [apply IH; auto; intros H; apply N; now right|]. destruct l as [|y l]; cbn [insert_key map]; [auto|]. destruct (String.ltb (fst y) (fst kv)); cbn [map]; auto. now inversion S2; constructor.
  - constructor; auto. constructor. apply ltb_total; auto. intros E. apply N. left. auto.
Qed.
Lemma sort_sorted {A} (l : list (string * A)) : NoDup (map fst l) -> ascending (map fst (sort_keys l)).
Proof.
  unfold ascending. induction l as [|a l IH]; cbn [sort_keys fold_right map]; intros ND; [constructor|]. inversion ND; subst. apply insert_sorted; auto.
  intros H. apply H1. apply (Permutation_in (fst a) (Permutation_map fst (sort_perm l))). exact H.
Qed.

(** ** objects *)
Lemma members_some quote l ms : members quote l = Some ms -> exists ts, l = map (fun kt => (fst kt, Some (snd kt))) ts /\ ms = map (fun kt => quote (fst kt) ++ ":" ++ snd kt) ts.
Proof.
  revert ms. induction l as [|[k [t|]] l IH]; cbn [members]; intros ms H; try discriminate; [injection H as <-; exists []; auto|]. destruct (members quote l) as [m|]; [|discriminate]. injection H as <-. destruct (IH m eq_refl) as (ts & -> & ->). exists ((k, t) :: ts). auto.
Qed.
Lemma members_none quote l : members quote l = None <-> exists k, In (k, None) l.
Proof.
  induction l as [|[k [t|]] l IH]; cbn [members].
  - split; [discriminate|intros (k & [])].
  - destruct (members quote l) as [m|]; split; try discriminate.
    + intros (k' & [H|H]); [discriminate|]. assert (Some m = None) by (apply IH; eauto). discriminate.
    + intros _. destruct (proj1 IH eq_refl) as (k' & H). exists k'. now right.
    + auto.
  - split; [intros _; exists k; now left|auto].
Qed.
Lemma object_none quote l : object quote l = None <-> exists k, In (k, None) l.
Proof.
  unfold object. destruct (members quote (sort_keys l)) as [m|] eqn:E.
  - split; [discriminate|]. intros (k & H). assert (X : members quote (sort_keys l) = None); [|congruence]. apply members_none. exists k. apply (Permutation_in _ (Permutation_sym (sort_perm l))). exact H.
  - split; [|auto]. intros _. apply members_none in E. destruct E as (k & H). exists k. apply (Permutation_in _ (sort_perm l)). exact H.
Qed.
Lemma object_some quote l s : NoDup (map fst l) -> object quote l = Some s -> exists ms, s = object_text quote ms /\ ascending (map fst ms) /\ Permutation l (map (fun kt => (fst kt, Some (snd kt))) ms).
Proof.
  intros ND. unfold object. destruct (members quote (sort_keys l)) as [m|] eqn:E; [|discriminate]. intros H. injection H as <-. destruct (members_some _ _ _ E) as (ts & Es & ->). exists ts. split; [reflexivity|].
  pose proof (sort_sorted l ND) as S. pose proof (sort_perm l) as P. rewrite Es in S, P. rewrite map_map in S. cbn [fst] in S. split; [exact S|]. now symmetry.
Qed.

(** ** GetAll in terms of readings *)
Definition fields_of (rd : reading) : list (string * gval) :=
  match rd with
  | RdCounter n => [("count", GZ n)]
  | RdGauge n => [("value", GZ n)]
  | RdGaugeF x => [("value", GF x)]
  | RdHealth e => [("error", GE e)]
  | RdHist n mn mx me sd ps => dist_fields n (RZ mn) (RZ mx) (RF me) (RF sd) ps
  | RdMeter n r1 r5 r15 rm => ("count", GZ n) :: rate_fields r1 r5 r15 rm
  | RdTimer n mn mx me sd ps r1 r5 r15 rm => (dist_fields n (RZ mn) (RZ mx) (RF me) (RF sd) ps ++ rate_fields r1 r5 r15 rm)%list
  end.
Lemma hist_stat_shape s v o w w' r : hist_stat s v o w = (w', Ok r) -> match s with SMin | SMax | SSum => r = RZ (rv_z r) | _ => r = RF (rv_f r) end.
Proof.
  unfold hist_stat. intros H. destruct (hist_sample v o w) as [w1 [sm|msg]] eqn:E; [rewrite (bind_ok _ _ _ _ _ _ E) in H|rewrite (bind_panic _ _ _ _ _ _ E) in H; discriminate].
  assert (X : r = stat_zero s \/ exists xs, r = stat_of s xs).
  { unfold sample_stat in H. destruct sm; try (unfold ret in H; injection H as _ <-; auto; fail);
      (match type of H with bind ?m _ _ _ = _ => destruct (m o w1) as [w2 [xs|msg]] eqn:E2; [rewrite (bind_ok _ _ _ _ _ _ E2) in H|rewrite (bind_panic _ _ _ _ _ _ E2) in H; discriminate] end); unfold ret in H; injection H as _ <-; eauto. }
  destruct X as [->|(xs & ->)]; destruct s; reflexivity.
Qed.
Lemma timer_stat_shape s v o w w' r : timer_stat s v o w = (w', Ok r) -> match s with SMin | SMax | SSum => r = RZ (rv_z r) | _ => r = RF (rv_f r) end.
Proof.
  unfold timer_stat. intros H. destruct (timer_get v o w) as [w1 [[h m]|msg]] eqn:E; [rewrite (bind_ok _ _ _ _ _ _ E) in H|rewrite (bind_panic _ _ _ _ _ _ E) in H; discriminate]. eapply hist_stat_shape; eauto.
Qed.
Ltac each_bind H := repeat match type of H with bind ?m _ ?o ?w = _ => let X := fresh "X" in destruct (m o w) as [? [?|?]] eqn:X; [rewrite (bind_ok _ _ _ _ _ _ X) in H; rewrite (bind_ok _ _ _ _ _ _ X)|rewrite (bind_panic _ _ _ _ _ _ X) in H; discriminate H] end.
Lemma one_fields v o w w' fs : is_metric v = true -> get_all_one v o w = (w', Ok fs) -> exists rd, read_metric true ps5 v o w = (w', Ok (Some rd)) /\ fs = fields_of rd.
Proof.
  intros M H. unfold get_all_one in H. unfold read_metric. unfold is_metric in M. destruct (cls v); try discriminate M; each_bind H; unfold ret in H |- *; injection H as <- <-; (eexists; split; [reflexivity|]); cbn [fields_of]; try reflexivity.
  - repeat match goal with X : hist_stat _ _ _ _ = _ |- _ => apply hist_stat_shape in X; cbv iota in X end. repeat match goal with X : ?a = RZ (rv_z ?a) |- _ => rewrite <- X; clear X | X : ?a = RF (rv_f ?a) |- _ => rewrite <- X; clear X end. reflexivity.
  - repeat match goal with X : timer_stat _ _ _ _ = _ |- _ => apply timer_stat_shape in X; cbv iota in X end. repeat match goal with X : ?a = RZ (rv_z ?a) |- _ => rewrite <- X; clear X | X : ?a = RF (rv_f ?a) |- _ => rewrite <- X; clear X end. reflexivity.
Qed.
Lemma all_fields o es : forall w w' l, Forall (fun kv => is_metric (snd kv) = true) es -> get_all_each es o w = (w', Ok l) ->
  exists rds, report_each true ps5 pairs es o w = (w', Ok rds) /\ l = map (fun nr => (fst nr, fields_of (snd nr))) rds.
Proof.
  induction es as [|[n v] es IH]; intros w w' l M H; cbn [report_each get_all_each] in *; [unfold ret in H; injection H as <- <-; exists []; split; reflexivity|]. inversion M as [|? ? M1 M2]; subst. cbn [snd] in M1.
  destruct (get_all_one v o w) as [w1 [fs|msg]] eqn:E; [rewrite (bind_ok _ _ _ _ _ _ E) in H|rewrite (bind_panic _ _ _ _ _ _ E) in H; discriminate].
  destruct (get_all_each es o w1) as [w2 [fss|msg]] eqn:E2; [rewrite (bind_ok _ _ _ _ _ _ E2) in H|rewrite (bind_panic _ _ _ _ _ _ E2) in H; discriminate]. unfold ret in H. injection H as <- <-.
  destruct (one_fields v o w w1 fs M1 E) as (rd & R & ->). destruct (IH _ _ _ M2 E2) as (rds & R2 & ->). rewrite (bind_ok _ _ _ _ _ _ R).
  rewrite (bind_ok _ _ _ _ _ _ (eq_refl : lift (pairs n rd) o w1 = (w1, Ok [(n, rd)]))). rewrite (bind_ok _ _ _ _ _ _ R2). exists ((n, rd) :: rds). split; reflexivity.
Qed.
(** the fields of a reading in terms of the accessors *)
Lemma fields_answer (Q : op -> rv -> Prop) x rd : kind_rd rd <> CHealth -> answered Q x ps5 rd ->
  Forall2 (fun (kg : string * gval) (ka : string * op) => fst kg = fst ka /\ Q (snd ka) (as_result (snd kg))) (fields_of rd) (accessors (kind_rd rd) x).
Proof.
  intros N A. destruct rd; cbn [answered fields_of kind_rd accessors] in *; try congruence.
  - constructor; [auto|constructor].
  - constructor; [auto|constructor].
  - constructor; [auto|constructor].
  - destruct A as (A1 & A2 & A3 & A4 & A5 & A6). apply five_scores in A6. destruct A6 as (a & b & c & d & e & -> & P1 & P2 & P3 & P4 & P5).
    unfold dist_fields, distribution. cbn [nth g_of]. do 10 (constructor; [split; [reflexivity|assumption]|]). constructor.
  - destruct A as (A1 & A2 & A3 & A4 & A5). unfold rate_fields, rates. do 5 (constructor; [split; [reflexivity|assumption]|]). constructor.
  - destruct A as ((A1 & A2 & A3 & A4 & A5 & A6) & R1 & R2 & R3 & R4). apply five_scores in A6. destruct A6 as (a & b & c & d & e & -> & P1 & P2 & P3 & P4 & P5).
    unfold dist_fields, distribution, rate_fields, rates. cbn [nth app g_of]. do 14 (constructor; [split; [reflexivity|assumption]|]). constructor.
Qed.
Lemma accessors_nodup k x : NoDup (map fst (accessors k x)).
Proof. destruct k; cbn; repeat (constructor; [cbn; intuition discriminate|]); constructor. Qed.
(** ** the run *)
Lemma reg_get_all_base v b : base v = Some b -> reg_get_all v = std_get_all b.
Proof. revert b. induction v; intros l' B; try discriminate B; cbn [base] in B; [injection B as <-; reflexivity|]. cbn [reg_get_all]. auto. Qed.
Lemma base_shown (st : state) b nm : shown st (VReg b) nm = registered (fst st) b nm.
Proof. unfold shown. cbn [base]. change (full (VReg b) "") with "". assert (P : String.prefix "" nm = true) by (destruct nm; reflexivity). now rewrite P. Qed.
Lemma vok_base (st : state) v b : vok (heap (fst st)) v -> base v = Some b -> vok (heap (fst st)) (VReg b).
Proof. intros V B. destruct (base_ok _ v b V B) as (z & Ez & T). exists z. auto. Qed.
