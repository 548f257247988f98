(** Property C41: what GetAll reports.  [accessors k x] (Spec/GetAllSpec.v) lists the keys for
    a metric of kind [k] and the accessor call, on the metric held at index [x], whose
    result is to appear under each key. *)
From Coq Require Import ZArith List String Bool Lia Arith Permutation.
From Verif.Model Require Import GoInt GoFloat GoBase Stats World.
From Verif.Spec Require Import ApiSpec RegistrySpec HealthSpec GetAllSpec.
From Verif.Proofs Require Import SortFacts StatsInt WorldBase WorldOps WorldCalls WorldStep WorldFrame WorldReads WorldSnap RegistryProofs RegistryStep HealthProofs GetAllProofs.
From Verif.Props Require Import SnapshotProps HealthProps.
Import ListNotations.
Local Open Scope nat_scope.
Local Open Scope list_scope.

Lemma get_all_run mexp (st : state) r v b o l : inv st -> nth_error (snd st) r = Some v -> base v = Some b ->
  snd (step mexp st (OGetAll r, o)) = Some (Ok (RAll l)) ->
  exists es w', nth_error (heap (fst st)) b = Some (OReg es) /\ NoDup (map fst es) /\ Forall (vok (heap (fst st))) (map snd es) /\
    get_all_each (in_order (o_order o) es) o (fst st) = (w', Ok l) /\ Permutation (in_order (o_order o) es) es /\
    forall nm, registered (fst st) b nm = lookup nm es.
Proof.
  intros I E B H. assert (V : vok (heap (fst st)) v) by (destruct I as [_ F]; rewrite Forall_forall in F; apply F; eapply nth_error_In; eauto).
  destruct (base_ok _ v b V B) as (z & Ez & T). destruct z; cbn in T; try discriminate. destruct (wf_obj _ (proj1 I) _ _ Ez) as [ND F].
  assert (C : cls v = CReg) by (destruct v; cbn in B; try discriminate; reflexivity).
  unfold World.step in H. cbn [fst snd World.call] in H. unfold obind, only in H. rewrite E, C in H. cbn [class_eqb] in H. rewrite (reg_get_all_base v b B) in H.
  assert (R : std_get_all b o (fst st) = get_all_each (in_order (o_order o) entries) o (fst st)).
  { unfold std_get_all, std_registered. unfold bind at 1 2. rewrite (entries_get_ok b entries (fst st) o Ez). reflexivity. }
  unfold bind in H. rewrite R in H. destruct (get_all_each _ o (fst st)) as [w' [rs|msg]] eqn:G; cbn [fst snd ret] in H; [|discriminate]. injection H as ->.
  exists entries, w'. repeat match goal with |- _ /\ _ => split end; auto.
  - rewrite Forall_forall in F |- *. intros u Hu. apply in_map_iff in Hu. destruct Hu as (kv & <- & Hu). apply (F _ Hu).
  - apply in_order_perm.
  - intros nm. unfold registered. now rewrite Ez, <- lookup_find.
Qed.
Lemma order_facts order (es : list (string * val)) (P : Permutation (in_order order es) es) h : NoDup (map fst es) -> Forall (vok h) (map snd es) ->
  NoDup (map fst (in_order order es)) /\ Forall (vok h) (map snd (in_order order es)) /\ (forall nm v, lookup nm es = Some v <-> In (nm, v) (in_order order es)).
Proof.
  intros ND F. repeat match goal with |- _ /\ _ => split end.
  - eapply Permutation_NoDup; [apply Permutation_map; symmetry; exact P|exact ND].
  - eapply Permutation_Forall; [apply Permutation_map; symmetry; exact P|exact F].
  - intros nm v. split; intros H.
    + eapply Permutation_in; [symmetry; exact P|]. apply lookup_in. exact H.
    + apply in_lookup; auto. eapply Permutation_in; [exact P|exact H].
Qed.
Lemma forall2_in {A B} (R : A -> B -> Prop) l m b : Forall2 R l m -> In b m -> exists a, In a l /\ R a b.
Proof. induction 1; intros []; subst; [eexists; split; [left; reflexivity|auto]|]. destruct IHForall2 as (a & Ha & Ra); auto. exists a. split; [right|]; auto. Qed.

(** exactly one entry per registered name *)
Theorem C41_names : forall mexp p r v b o l, let st := reach mexp p in
  nth_error (snd st) r = Some v -> base v = Some b -> snd (step mexp st (OGetAll r, o)) = Some (Ok (RAll l)) ->
  NoDup (map fst l) /\ forall nm, In nm (map fst l) <-> registered (fst st) b nm <> None.
Proof.
  intros mexp p r v b o l st. assert (I : inv st) by exact (reach_inv mexp p). clearbody st. intros E B H.
  destruct (get_all_run mexp st r v b o l I E B H) as (es & w' & Eb & ND & F & G & P & Rg). destruct (order_facts (o_order o) es P _ ND F) as (ND' & F' & Lk).
  rewrite (each_names _ _ _ _ _ G). split; auto. intros nm. rewrite Rg. split.
  - intros Hn. apply in_map_iff in Hn. destruct Hn as ([n u] & <- & Hn). apply Lk in Hn. cbn. congruence.
  - intros Hn. destruct (lookup nm es) as [u|] eqn:L; [|congruence]. apply Lk in L. apply (in_map fst) in L. exact L.
Qed.
(** the keys are those of the metric's kind, in this order *)
Theorem C41_keys : forall mexp p r v b o l nm fs i, let st := reach mexp p in
  nth_error (snd st) r = Some v -> base v = Some b -> snd (step mexp st (OGetAll r, o)) = Some (Ok (RAll l)) ->
  In (nm, fs) l -> registered (fst st) b nm = Some i -> map fst fs = map fst (accessors (cls i) 0).
Proof.
  intros mexp p r v b o l nm fs i st. assert (I : inv st) by exact (reach_inv mexp p). clearbody st. intros E B H Hin Ri.
  destruct (get_all_run mexp st r v b o l I E B H) as (es & w' & Eb & ND & F & G & P & Rg). destruct (order_facts (o_order o) es P _ ND F) as (ND' & F' & Lk).
  rewrite Rg in Ri. apply Lk in Ri. clear - G ND' Ri Hin. revert G. generalize (fst st). revert w' l Hin. induction (in_order (o_order o) es) as [|[n u] xs IH]; intros w' l Hin w G; [destruct Ri|].
  cbn [get_all_each map fst snd] in *. inversion ND'; subst.
  destruct (get_all_one u o w) as [w1 [f|msg]] eqn:E; [rewrite (bind_ok _ _ _ _ _ _ E) in G|rewrite (bind_panic _ _ _ _ _ _ E) in G; discriminate].
  destruct (get_all_each xs o w1) as [w2 [rs|msg]] eqn:E2; [rewrite (bind_ok _ _ _ _ _ _ E2) in G|rewrite (bind_panic _ _ _ _ _ _ E2) in G; discriminate]. unfold ret in G. injection G as _ <-.
  destruct Ri as [Ri|Ri], Hin as [Hin|Hin].
  - injection Ri as -> ->. injection Hin as ->. eapply one_keys; eauto.
  - injection Ri as -> ->. exfalso. apply H1. apply (in_map fst) in Hin. rewrite (each_names _ _ _ _ _ E2) in Hin. exact Hin.
  - injection Hin as -> ->. exfalso. apply H1. apply (in_map fst) in Ri. exact Ri.
  - eapply IH; eauto.
Qed.
(** every value is what the accessor returns, called instead of GetAll.  (The standard
    deviation is the one value that depends on the order of the sample: see below.) *)
Theorem C41_values : forall mexp p r v b o l nm fs i x, let st := reach mexp p in
  nth_error (snd st) r = Some v -> base v = Some b -> snd (step mexp st (OGetAll r, o)) = Some (Ok (RAll l)) ->
  In (nm, fs) l -> registered (fst st) b nm = Some i -> cls i <> CHealth -> nth_error (snd st) x = Some i ->
  Forall2 (fun (kg : string * gval) (ka : string * op) => fst kg = fst ka /\
    (order_free (snd ka) = true -> snd (step mexp st (snd ka, o)) = Some (Ok (as_result (snd kg))))) fs (accessors (cls i) x).
Proof.
  intros mexp p r v b o l nm fs i x st. assert (I : inv st) by exact (reach_inv mexp p). clearbody st. intros E B H Hin Ri Nh Ex.
  destruct (get_all_run mexp st r v b o l I E B H) as (es & w' & Eb & ND & F & G & P & Rg). destruct (order_facts (o_order o) es P _ ND F) as (ND' & F' & Lk).
  rewrite Rg in Ri. pose proof (each_fields _ _ _ _ _ G) as Ef. destruct (forall2_in _ _ _ _ Ef Hin) as ([n u] & Hu & Nu & Fu). cbn [fst snd] in Nu, Fu. subst n.
  assert (u = i). { apply Lk in Hu. congruence. } subst u.
  assert (Mt : is_metric i = true). { destruct (wf_obj _ (proj1 I) _ _ Eb) as [_ Fm]. apply Lk in Hu. apply lookup_in in Hu. rewrite Forall_forall in Fm. apply (Fm _ Hu). }
  assert (Rd : readable i = true). { unfold is_metric in Mt. unfold readable. destruct (cls i); try discriminate Mt; try reflexivity. congruence. }
  assert (Vi : vok (heap (fst st)) i). { destruct I as [_ Fe]. rewrite Forall_forall in Fe. apply Fe. eapply nth_error_In; eauto. }
  destruct (vdata_ok o (fst st) i (proj1 I) Vi Rd) as (d & D). destruct (Fu d D Mt) as (d' & Q & Fd).
  pose proof (fields_agree d' fs x Fd) as A. rewrite <- (deq_kind _ _ Q), (kind_vdata _ _ _ _ D) in A.
  assert (Ra : Forall (fun ka => reads (snd ka) = Some x) (accessors (cls i) x)).
  { destruct (cls i); cbn [accessors rates distribution app]; repeat constructor. congruence. }
  clear Fd Fu Hin Ef G. revert Ra. induction A as [|kg ka fs as_ (K1 & K2) A IH]; intros Ra; constructor; inversion Ra; subst; auto.
  split; auto. intros Of. rewrite (read_ok mexp st (snd ka) o x i d); auto. rewrite (read_deq (snd ka) d d'); auto.
Qed.

(** the standard deviation is that of a snapshot whose percentiles have been computed (which
    sorts it; Variance and StdDev add floats in the order of the sample) *)
Theorem C41_stddev : forall mexp p r v b o l nm fs i x o1 o2 ps r1 r2, let st := reach mexp p in
  nth_error (snd st) r = Some v -> base v = Some b -> snd (step mexp st (OGetAll r, o)) = Some (Ok (RAll l)) ->
  In (nm, fs) l -> registered (fst st) b nm = Some i -> (cls i = CHist \/ cls i = CTimer) -> nth_error (snd st) x = Some i ->
  let y := List.length (snd st) in
  let st1 := fst (step mexp st (OSnapshot x, o1)) in snd (step mexp st (OSnapshot x, o1)) = Some (Ok r1) ->
  let st2 := fst (step mexp st1 (OPercentiles y ps, o2)) in snd (step mexp st1 (OPercentiles y ps, o2)) = Some (Ok r2) ->
  exists g, In ("stddev"%string, g) fs /\ snd (step mexp st2 (OStat y SStdDev, o)) = Some (Ok (as_result g)).
Proof.
  intros mexp p r v b o l nm fs i x o1 o2 ps r1 r2 st. assert (I : inv st) by exact (reach_inv mexp p). clearbody st. intros E B H Hin Ri Ci Ex y st1 S1 st2 S2.
  destruct (get_all_run mexp st r v b o l I E B H) as (es & w' & Eb & ND & F & G & P & Rg). destruct (order_facts (o_order o) es P _ ND F) as (ND' & F' & Lk).
  rewrite Rg in Ri. pose proof (each_fields _ _ _ _ _ G) as Ef. destruct (forall2_in _ _ _ _ Ef Hin) as ([n u] & Hu & Nu & Fu). cbn [fst snd] in Nu, Fu. subst n.
  assert (u = i). { apply Lk in Hu. congruence. } subst u.
  assert (Mt : is_metric i = true). { unfold is_metric. destruct Ci as [-> | ->]; reflexivity. }
  assert (Rd : readable i = true). { unfold readable. destruct Ci as [-> | ->]; reflexivity. }
  assert (Vi : vok (heap (fst st)) i). { destruct I as [_ Fe]. rewrite Forall_forall in Fe. apply Fe. eapply nth_error_In; eauto. }
  destruct (vdata_ok o (fst st) i (proj1 I) Vi Rd) as (d & D). destruct (Fu d D Mt) as (d' & Q & Fd). pose proof (kind_vdata _ _ _ _ D) as Kd.
  assert (D1 : vdata o1 (heap (fst st)) i = Some d). { destruct i; destruct Ci as [C|C]; try discriminate C; exact D. }
  assert (Sv : exists s, r1 = RVal s). { pose proof S1 as S1'. unfold World.step in S1'. cbn [fst snd World.call] in S1'. rewrite Ex in S1'. cbn [obind] in S1'. unfold m_snapshot in S1'. destruct Ci as [C|C]; rewrite C in S1'; unfold v_rv in S1'.
    - destruct (hist_snapshot i o1 (fst st)) as [w1 [s|msg]] eqn:Es; [rewrite (bind_ok _ _ _ _ _ _ Es) in S1'|rewrite (bind_panic _ _ _ _ _ _ Es) in S1'; discriminate S1']. unfold ret in S1'. cbn [fst snd] in S1'. injection S1' as <-. eauto.
    - destruct (timer_snapshot i o1 (fst st)) as [w1 [s|msg]] eqn:Es; [rewrite (bind_ok _ _ _ _ _ _ Es) in S1'|rewrite (bind_panic _ _ _ _ _ _ Es) in S1'; discriminate S1']. unfold ret in S1'. cbn [fst snd] in S1'. injection S1' as <-. eauto. }
  destruct Sv as (s & ->).
  assert (S1e : step mexp st (OSnapshot x, o1) = (st1, Some (Ok (RVal s)))) by (subst st1; rewrite <- S1; apply surjective_pairing).
  destruct (snapshot_ok mexp st x i o1 st1 s d I Ex D1 S1e) as (Eq1 & Ds & Sn & _).
  assert (Ey : nth_error (snd st1) y = Some s) by (rewrite Eq1; cbn [snd]; unfold y; rewrite nth_error_app2, Nat.sub_diag by lia; reflexivity).
  assert (Cs : cls s = cls i) by (rewrite <- (kind_vdata _ _ _ _ Ds), <- (kind_vdata _ _ _ _ D1); reflexivity).
  assert (exists xs, dist d = Some xs) as (xs & Dx). { destruct d; cbn in Kd; destruct Ci as [C|C]; rewrite C in Kd; try discriminate Kd; cbn; eauto. }
  assert (D2 : exists d2, vdata o (heap (fst st2)) s = Some d2 /\ dist d2 = Some (sortz xs) /\ nth_error (snd st2) y = Some s).
  { assert (Ey2 : nth_error (snd st2) y = Some s) by (apply step_env; exact Ey). subst st2. unfold World.step in S2, Ey2 |- *. cbn [fst snd World.call] in S2, Ey2 |- *. rewrite Ey in S2, Ey2 |- *. cbn [obind] in S2, Ey2 |- *. unfold m_percentiles in S2, Ey2 |- *. rewrite Cs in S2, Ey2 |- *. destruct Ci as [C|C]; rewrite C in S2, Ey2, Cs |- *; cbn [obind] in S2, Ey2 |- *.
    - assert (exists c, hdata (heap (fst st1)) s = Some (c, xs) /\ d = DHist c xs) as (c & Hd & ->).
      { destruct s; try discriminate Cs; unfold vdata in Ds; (destruct (hdata _ _) as [[c xs0]|]; [|discriminate]); cbn in Ds; injection Ds as <-; cbn in Dx; injection Dx as <-; eauto. }
      assert (Ks : match s with VHistSnap _ | VNilHist => True | _ => False end) by (destruct s; try discriminate Cs; try discriminate Sn; exact Logic.I).
      destruct (hist_read ps s o2 (fst st1) c xs Ks Hd) as (w2 & Pw & Dw & _).
      destruct (snd (SamplePercentiles xs ps)) as [q|msg]; [|rewrite (bind_panic _ _ _ _ _ _ Pw) in S2; discriminate S2]. rewrite (bind_ok _ _ _ _ _ _ Pw) in Ey2 |- *. unfold ret in Ey2 |- *. cbn [fst snd] in Ey2 |- *.
      exists (DHist c (sortz xs)). split; [|split; [reflexivity|exact Ey2]]. destruct s; try discriminate Cs; try discriminate Sn; unfold vdata; rewrite Dw; reflexivity.
    - assert (exists c ms, tdata (heap (fst st1)) s = Some (c, xs, ms) /\ d = DTimer c xs ms) as (c & ms & Hd & ->).
      { destruct s; try discriminate Cs; unfold vdata in Ds; (destruct (tdata _ _) as [[[c xs0] ms]|]; [|discriminate]); cbn in Ds; injection Ds as <-; cbn in Dx; injection Dx as <-; eauto. }
      assert (Ks : match s with VTimerSnap _ | VNilTimer => True | _ => False end) by (destruct s; try discriminate Cs; try discriminate Sn; exact Logic.I).
      destruct (timer_read ps s o2 (fst st1) c xs ms Ks Hd) as (w2 & Pw & Dw).
      destruct (snd (SamplePercentiles xs ps)) as [q|msg]; [|rewrite (bind_panic _ _ _ _ _ _ Pw) in S2; discriminate S2]. rewrite (bind_ok _ _ _ _ _ _ Pw) in Ey2 |- *. unfold ret in Ey2 |- *. cbn [fst snd] in Ey2 |- *.
      exists (DTimer c (sortz xs) ms). split; [|split; [reflexivity|exact Ey2]]. destruct s; try discriminate Cs; try discriminate Sn; unfold vdata; rewrite Dw; reflexivity. }
  destruct D2 as (d2 & D2 & Dx2 & Ey2).
  assert (exists xs', dist d' = Some xs' /\ sortz xs' = sortz xs) as (xs' & Dx' & Sx).
  { destruct d, d'; cbn in Q, Dx; try discriminate; try (destruct Q as (-> & Q)); injection Dx as <-; cbn; eexists; (split; [reflexivity|]); symmetry; apply sortz_unique; auto. apply Q. }
  exists (GF (SampleStdDev (sortz xs))). split.
  - rewrite <- Sx. eapply fields_stddev; eauto. rewrite <- (deq_kind _ _ Q), Kd. exact Ci.
  - rewrite (read_ok mexp st2 (OStat y SStdDev) o y s d2); auto. cbn [read_data]. rewrite Dx2. reflexivity.
Qed.
(** a health check is run, and its error then reported: after as many checks as it has names
    in the registry, at most *)
Theorem C41_health : forall mexp p r v b o l nm fs lh x ns, let st := reach mexp p in
  nth_error (snd st) r = Some v -> base v = Some b -> snd (step mexp st (OGetAll r, o)) = Some (Ok (RAll l)) ->
  In (nm, fs) l -> registered (fst st) b nm = Some (VHealth lh) -> nth_error (snd st) x = Some (VHealth lh) ->
  NoDup ns -> (forall n, In n ns <-> registered (fst st) b n = Some (VHealth lh)) ->
  exists k e, 1 <= k <= List.length ns /\ fs = [("error"%string, GE e)] /\
    snd (step mexp (run mexp st (repeat (OCheck x, o) k)) (OError x, o)) = Some (Ok (RErr e)).
Proof.
  intros mexp p r v b o l nm fs lh x ns st. assert (I : inv st) by exact (reach_inv mexp p). clearbody st. intros E B H Hin Ri Ex Nns Hns.
  destruct (get_all_run mexp st r v b o l I E B H) as (es & w' & Eb & ND & F & G & P & Rg). destruct (order_facts (o_order o) es P _ ND F) as (ND' & F' & Lk).
  rewrite Rg in Ri. apply Lk in Ri.
  assert (Vi : vok (heap (fst st)) (VHealth lh)). { destruct I as [_ Fe]. rewrite Forall_forall in Fe. apply Fe. eapply nth_error_In; eauto. }
  destruct Vi as (z & Ez & T). destruct z; cbn in T; try discriminate.
  destruct (each_health lh o f nm fs _ (fst st) e w' l (proj1 I) F' Ez ND' G Ri Hin) as (k & K & ->).
  destruct (count_names es lh (o_order o) ND) as (ns' & N1 & N2 & N3). rewrite N2 in K.
  assert (Ln : List.length ns' = List.length ns). { apply Permutation_length. apply NoDup_Permutation; auto. intros n. rewrite N3, Hns, Rg. tauto. }
  exists k, (Nat.iter k (run_of o f) e). rewrite <- Ln. split; auto. split; auto.
  assert (Ck : forall k s e, nth_error (snd s) x = Some (VHealth lh) -> nth_error (heap (fst s)) lh = Some (OHealth e f) ->
    snd (step mexp (run mexp s (repeat (OCheck x, o) k)) (OError x, o)) = Some (Ok (RErr (Nat.iter k (run_of o f) e)))).
  { clear. induction k as [|k IH]; intros s e Ex Es.
    - cbn [repeat]. change (run mexp s []) with s. rewrite (error_eq mexp s x lh e f o Ex Es). reflexivity.
    - cbn [repeat]. change (run mexp s ((OCheck x, o) :: repeat (OCheck x, o) k)) with (run mexp (fst (step mexp s (OCheck x, o))) (repeat (OCheck x, o) k)).
      destruct (C54_check mexp s x lh e f o Ex Es) as (_ & E1 & _). rewrite (IH _ _ (step_env mexp _ _ _ _ _ Ex) E1). rewrite <- iter_S. reflexivity. }
  apply Ck; auto.
Qed.
(** GetAll returns, provided that Snapshot and Percentiles of the registered histograms and
    timers return and no function of a registered health check panics *)
Theorem C41_returns : forall mexp p r v b o, let st := reach mexp p in
  nth_error (snd st) r = Some v -> base v = Some b ->
  (forall nm i, registered (fst st) b nm = Some i -> cls i = CHist \/ cls i = CTimer ->
     exists x r1 r2, nth_error (snd st) x = Some i /\ snd (step mexp st (OSnapshot x, o)) = Some (Ok r1) /\
       snd (step mexp st (OPercentiles x (map (fun q => ratio (fst q) (snd q)) [(1, 2); (3, 4); (95, 100); (99, 100); (999, 1000)]%Z), o)) = Some (Ok r2)) ->
  (forall nm lh e f, registered (fst st) b nm = Some (VHealth lh) -> nth_error (heap (fst st)) lh = Some (OHealth e f) -> forall e', panics (o_health o f e') = false) ->
  exists l, snd (step mexp st (OGetAll r, o)) = Some (Ok (RAll l)).
Proof.
  intros mexp p r v b o st. assert (I : inv st) by exact (reach_inv mexp p). clearbody st. intros E B Hs Hh.
  assert (V : vok (heap (fst st)) v) by (destruct I as [_ F]; rewrite Forall_forall in F; apply F; eapply nth_error_In; eauto).
  destruct (base_ok _ v b V B) as (z & Ez & T). destruct z; cbn in T; try discriminate. destruct (wf_obj _ (proj1 I) _ _ Ez) as [ND Fm].
  assert (C : cls v = CReg) by (destruct v; cbn in B; try discriminate; reflexivity).
  unfold World.step. cbn [fst snd World.call]. unfold obind, only. rewrite E, C. cbn [class_eqb]. rewrite (reg_get_all_base v b B).
  assert (R : std_get_all b o (fst st) = get_all_each (in_order (o_order o) entries) o (fst st)).
  { unfold std_get_all, std_registered. unfold bind at 1 2. rewrite (entries_get_ok b entries (fst st) o Ez). reflexivity. }
  assert (F : Forall (vok (heap (fst st))) (map snd entries)). { rewrite Forall_forall in Fm |- *. intros u Hu. apply in_map_iff in Hu. destruct Hu as (kv & <- & Hu). apply (Fm _ Hu). }
  destruct (order_facts (o_order o) entries (in_order_perm _ _) _ ND F) as (ND' & F' & Lk).
  assert (Rg : forall nm, registered (fst st) b nm = lookup nm entries) by (intros nm; unfold registered; now rewrite Ez, <- lookup_find).
  destruct (each_returns o (in_order (o_order o) entries) (fst st) (proj1 I) F') as (w' & l & G).
  - rewrite Forall_forall. intros i Hi. apply in_map_iff in Hi. destruct Hi as ([nm u] & <- & Hi). cbn [snd]. apply Lk in Hi. rewrite <- Rg in Hi. unfold reportable. destruct (cls u) eqn:Cu; auto.
    + intros lh e f -> Eh. eapply Hh; eauto.
    + destruct (Hs nm u Hi (or_introl Cu)) as (x & r1 & r2 & Ex & S1 & S2).
      assert (Vu : vok (heap (fst st)) u). { destruct I as [_ Fe]. rewrite Forall_forall in Fe. apply Fe. eapply nth_error_In; eauto. }
      destruct (hdata_ok (fst st) u (proj1 I) Cu Vu) as (c & xs & Du). split.
      * apply (hist_snappable u o (fst st) c xs Du). unfold World.step in S1. cbn [fst snd World.call] in S1. rewrite Ex in S1. cbn [obind] in S1. unfold m_snapshot in S1. rewrite Cu in S1. unfold v_rv in S1.
        destruct (hist_snapshot u o (fst st)) as [w1 [s|msg]] eqn:Es; [eauto|rewrite (bind_panic _ _ _ _ _ _ Es) in S1; discriminate S1].
      * intros d xs0 D Dx. change (map _ _) with ps5 in S2. rewrite (read_ok mexp st (OPercentiles x ps5) o x u d eq_refl Ex D) in S2. cbn [read_data] in S2. rewrite Dx in S2. cbn [option_map] in S2. destruct (snd (SamplePercentiles xs0 ps5)) as [q|]; [eauto|discriminate S2].
    + destruct (Hs nm u Hi (or_intror Cu)) as (x & r1 & r2 & Ex & S1 & S2).
      assert (Vu : vok (heap (fst st)) u). { destruct I as [_ Fe]. rewrite Forall_forall in Fe. apply Fe. eapply nth_error_In; eauto. }
      destruct (tdata_ok (fst st) u (proj1 I) Cu Vu) as (c & xs & ms & Du). split.
      * apply (timer_snappable u o (fst st) c xs ms Du). unfold World.step in S1. cbn [fst snd World.call] in S1. rewrite Ex in S1. cbn [obind] in S1. unfold m_snapshot in S1. rewrite Cu in S1. unfold v_rv in S1.
        destruct (timer_snapshot u o (fst st)) as [w1 [s|msg]] eqn:Es; [eauto|rewrite (bind_panic _ _ _ _ _ _ Es) in S1; discriminate S1].
      * intros d xs0 D Dx. change (map _ _) with ps5 in S2. rewrite (read_ok mexp st (OPercentiles x ps5) o x u d eq_refl Ex D) in S2. cbn [read_data] in S2. rewrite Dx in S2. cbn [option_map] in S2. destruct (snd (SamplePercentiles xs0 ps5)) as [q|]; [eauto|discriminate S2].
  - exists l. unfold bind. rewrite R, G. reflexivity.
Qed.

(** a registry with a counter at 5, a histogram of 30, 10, 20 and a failing health check *)
Definition sick : orc := MkOrc 0 0 f_zero (fun _ => 0%Z) (fun _ => f_zero) (fun _ _ => [HUnhealthy (Some (EUser 5))]) [].
Definition stocked : list (op * orc) := map (fun c => (c, sick))
  [ONew NCounter; OInc 1 5; ORegister 0 "c" 1; ONew (NUniform 10); ONew (NHist 2); OUpdate 3 30; OUpdate 3 10; OUpdate 3 20; ORegister 0 "h" 3;
   ONew (NHealth 7); ORegister 0 "x" 4]%string%Z.
Definition code (g : gval) : Z := match g with GZ n => n | GF x => float64bits x | GE (Some (EUser k)) => k | GE _ => -1 end.
Definition report (r : option (res rv)) : list (string * list (string * Z)) :=
  match r with Some (Ok (RAll l)) => map (fun e => (fst e, map (fun kg => (fst kg, code (snd kg))) (snd e))) l | _ => [] end.
Definition b20 : Z := Eval vm_compute in float64bits (f_of_int 20).
Definition b30 : Z := Eval vm_compute in float64bits (f_of_int 30).
Example C41_example : forall mexp, let st := reach mexp stocked in
  nth_error (snd st) 0 = Some (VReg 0) /\ registered (fst st) 0 "h"%string = Some (VHist 5) /\ nth_error (snd st) 3 = Some (VHist 5) /\
  registered (fst st) 0 "x"%string = Some (VHealth 6) /\ nth_error (snd st) 4 = Some (VHealth 6) /\
  map (fun e => (fst e, filter (fun kg => negb (String.eqb (fst kg) "stddev")) (snd e))) (report (snd (step mexp st (OGetAll 0, sick)))) =
  [("c", [("count", 5)]);
   ("h", [("count", 3); ("min", 10); ("max", 30); ("mean", b20); ("median", b20); ("75%", b30); ("95%", b30); ("99%", b30); ("99.9%", b30)]);
   ("x", [("error", 5)])]%string%Z.
Proof.
  intros mexp. cbv zeta. do 5 (split; [vm_compute; reflexivity|]). vm_compute. reflexivity.
Qed.
