(** GetAll reads the metrics without changing what their accessors return. *)
From Coq Require Import ZArith List String Bool Lia Permutation Arith.
From Verif.Model Require Import GoInt GoFloat GoBase Stats Uniform ExpDecay Conc CounterGauge Ewma Meter World.
From Verif.Spec Require Import ApiSpec RegistrySpec HealthSpec GetAllSpec.
From Verif.Proofs Require Import ListFacts SortFacts StatsInt EwmaSeq WorldBase WorldOps WorldCalls WorldStep WorldFrame WorldReads WorldSnap HealthProofs.
Import ListNotations.
Local Open Scope nat_scope.
Local Open Scope list_scope.

(** ** gentle changes: arrays may be permuted, health checks may change *)
Definition mild (o o' : obj) : Prop :=
  match o, o' with
  | OArr xs, OArr ys => Permutation xs ys
  | OHealth _ f, OHealth _ f' => f = f'
  | _, _ => o = o'
  end.
Definition gentle (h h' : list obj) : Prop := forall l o, nth_error h l = Some o -> exists o', nth_error h' l = Some o' /\ mild o o'.
Lemma mild_refl o : mild o o. Proof. destruct o; cbn; auto. Qed.
Lemma mild_trans a b c : mild a b -> mild b c -> mild a c.
Proof. destruct a, b; cbn; try (intros H; discriminate H); try (intros ->; auto; fail); try (intros [= ]; subst; auto; fail); destruct c; cbn; try (intros; congruence); eauto using Permutation_trans. Qed.
Lemma gentle_refl h : gentle h h. Proof. intros l o E. exists o. auto using mild_refl. Qed.
Lemma gentle_trans a b c : gentle a b -> gentle b c -> gentle a c.
Proof. intros H K l o E. destruct (H l o E) as (o1 & E1 & M1). destruct (K l o1 E1) as (o2 & E2 & M2). exists o2. eauto using mild_trans. Qed.
Lemma gentle_app h x : gentle h (h ++ x). Proof. intros l o E. exists o. auto using mild_refl, nth_app_l. Qed.
Lemma gentle_set h l o o' : nth_error h l = Some o -> mild o o' -> gentle h (lset h l o').
Proof.
  intros E M k x Ek. destruct (Nat.eq_dec k l) as [->|N].
  - exists o'. rewrite nth_error_lset_eq by (eapply nth_lt; eauto). split; auto. congruence.
  - exists x. rewrite nth_error_lset_ne by auto. auto using mild_refl.
Qed.

Definition gm {A} (m : M A) : Prop := forall o w, gentle (heap w) (heap (fst (m o w))).
Lemma gm_bind {A B} (m : M A) (f : A -> M B) : gm m -> (forall a, gm (f a)) -> gm (bind m f).
Proof.
  intros H K o w. unfold bind. specialize (H o w). destruct (m o w) as [w1 [a|msg]]; cbn [fst] in *; auto. eapply gentle_trans; [exact H|apply K].
Qed.
Lemma gm_ret {A} (a : A) : gm (ret a). Proof. intros o w. apply gentle_refl. Qed.
Lemma gm_throw {A} s : gm (@throw A s). Proof. intros o w. apply gentle_refl. Qed.
Lemma gm_lift {A} (r : res A) : gm (lift r). Proof. intros o w. apply gentle_refl. Qed.
Lemma gm_ask {A} (f : orc -> A) : gm (ask f). Proof. intros o w. apply gentle_refl. Qed.
Lemma gm_load l : gm (load l). Proof. intros o w. unfold load. destruct (nth_error _ _); apply gentle_refl. Qed.
Lemma gm_alloc x : gm (alloc x). Proof. intros o w. cbn. apply gentle_app. Qed.
#[export] Hint Resolve gm_ret gm_throw gm_lift gm_ask gm_load gm_alloc : gm.
Ltac gms := repeat first [solve [auto with gm] | apply gm_bind; [|intros ?] | match goal with |- gm (match ?x with _ => _ end) => destruct x end | match goal with |- gm (let '_ := ?x in _) => destruct x end].
(** a load followed by a mild store *)
Lemma gm_rewrite {A} l (f : obj -> M A) : (forall x o w, nth_error (heap w) l = Some x -> gentle (heap w) (heap (fst (f x o w)))) -> gm (bind (load l) f).
Proof.
  intros H o w. unfold bind, load. destruct (nth_error (heap w) l) eqn:E; [apply H; auto|apply gentle_refl].
Qed.
Lemma gentle_same w l x : nth_error (heap w) l = Some x -> gentle (heap w) (lset (heap w) l x).
Proof. intros E. eapply gentle_set; eauto using mild_refl. Qed.

Lemma gm_counter_count v : gm (counter_count v).
Proof.
  unfold counter_count. destruct v; auto with gm. unfold c_do, c_load. intros o w. unfold bind, load.
  destruct (nth_error (heap w) l) as [[]|] eqn:E; try apply gentle_refl. cbn. apply gentle_same; auto.
Qed.
Lemma gm_gauge_value v : gm (gauge_value v).
Proof.
  unfold gauge_value. destruct v; auto with gm. unfold g_do. intros o w. unfold bind, load.
  destruct (nth_error (heap w) l) as [[]|] eqn:E; try apply gentle_refl. cbn. apply gentle_same; auto.
Qed.
Lemma gm_gaugef_value v : gm (gaugef_value v).
Proof.
  unfold gaugef_value. destruct v; auto with gm. unfold gf_do. intros o w. unfold bind, load.
  destruct (nth_error (heap w) l) as [[]|] eqn:E; try apply gentle_refl. cbn. apply gentle_same; auto.
Qed.
Lemma gm_health_set v e : gm (health_set v e).
Proof.
  unfold health_set. destruct v; auto with gm. apply gm_rewrite. intros x o w E. destruct x; try apply gentle_refl. cbn. eapply gentle_set; eauto. reflexivity.
Qed.
#[export] Hint Resolve gm_counter_count gm_gauge_value gm_gaugef_value gm_health_set : gm.
Lemma gm_health_acts v l : gm (health_acts v l).
Proof. induction l as [|[| |] l IH]; cbn; gms. Qed.
#[export] Hint Resolve gm_health_acts : gm.
Lemma gm_health_check v : gm (health_check v). Proof. unfold health_check. destruct v; auto with gm. gms. Qed.
Lemma gm_health_error v : gm (health_error v). Proof. unfold health_error. destruct v; auto with gm. gms. Qed.
Lemma gm_contents v : gm (sample_contents v). Proof. unfold sample_contents, uni_get, exp_get, ssnap_get, arr_get. gms. Qed.
Lemma gm_count v : gm (sample_count v). Proof. unfold sample_count, uni_get, exp_get, ssnap_get, arr_get. gms. Qed.
#[export] Hint Resolve gm_health_check gm_health_error gm_contents gm_count : gm.
Lemma gm_stat s v : gm (sample_stat s v). Proof. unfold sample_stat. gms. Qed.
Lemma gm_sort a ps : gm (xs <- arr_get a;; (let '(after, r) := SamplePercentiles xs ps in store a (OArr after);; lift r)).
Proof.
  intros o w. unfold bind, arr_get, load, bind. destruct (nth_error (heap w) a) as [[]|] eqn:E; try apply gentle_refl. cbn [ret].
  pose proof (sortz_perm_of xs ps) as P. destruct (SamplePercentiles xs ps) as [after r]. cbn. eapply gentle_set; eauto.
Qed.
Lemma gm_percentiles ps v : gm (sample_percentiles ps v).
Proof.
  unfold sample_percentiles. destruct v; auto with gm; unfold uni_get, exp_get, ssnap_get.
  - apply gm_bind; [gms|intros [[c n] a]]. apply gm_sort.
  - gms.
  - apply gm_bind; [gms|intros [c a]]. apply gm_sort.
Qed.
Lemma gm_snapshot v : gm (sample_snapshot v). Proof. unfold sample_snapshot, uni_get, exp_get, ssnap_get, arr_get, new_slice. gms. Qed.
Lemma gm_hist_sample v : gm (hist_sample v). Proof. unfold hist_sample. gms. Qed.
#[export] Hint Resolve gm_stat gm_percentiles gm_snapshot gm_hist_sample : gm.
Lemma gm_hist_count v : gm (hist_count v). Proof. unfold hist_count. gms. Qed.
Lemma gm_hist_stat s v : gm (hist_stat s v). Proof. unfold hist_stat. gms. Qed.
Lemma gm_hist_percentiles ps v : gm (hist_percentiles ps v). Proof. unfold hist_percentiles. gms. Qed.
Lemma gm_hist_snapshot v : gm (hist_snapshot v). Proof. unfold hist_snapshot. gms. Qed.
Lemma gm_msnap l : gm (msnap_get l). Proof. unfold msnap_get. gms. Qed.
Lemma gm_meter_get l : gm (meter_get l). Proof. unfold meter_get. gms. Qed.
#[export] Hint Resolve gm_hist_count gm_hist_stat gm_hist_percentiles gm_hist_snapshot gm_msnap gm_meter_get : gm.
Lemma gm_meter_view v : gm (meter_view v). Proof. unfold meter_view. gms. Qed.
#[export] Hint Resolve gm_meter_view : gm.
Lemma gm_meter_count v : gm (meter_count v). Proof. unfold meter_count. gms. Qed.
Lemma gm_meter_rate k v : gm (meter_rate k v). Proof. unfold meter_rate. gms. Qed.
Lemma gm_meter_snapshot v : gm (meter_snapshot v). Proof. unfold meter_snapshot. gms. Qed.
Lemma gm_timer_get v : gm (timer_get v). Proof. unfold timer_get. gms. Qed.
#[export] Hint Resolve gm_meter_count gm_meter_rate gm_meter_snapshot gm_timer_get : gm.
Lemma gm_timer_count v : gm (timer_count v). Proof. unfold timer_count. gms. Qed.
Lemma gm_timer_stat s v : gm (timer_stat s v). Proof. unfold timer_stat. gms. Qed.
Lemma gm_timer_percentiles ps v : gm (timer_percentiles ps v). Proof. unfold timer_percentiles. gms. Qed.
Lemma gm_timer_rate k v : gm (timer_rate k v). Proof. unfold timer_rate. gms. Qed.
Lemma gm_timer_snapshot v : gm (timer_snapshot v). Proof. unfold timer_snapshot. gms. Qed.
#[export] Hint Resolve gm_timer_count gm_timer_stat gm_timer_percentiles gm_timer_rate gm_timer_snapshot : gm.
Lemma gm_get_all_one v : gm (get_all_one v).
Proof. unfold get_all_one. destruct (cls v); gms. Qed.

(** ** gentle changes keep the data up to order *)
Lemma gentle_obj h h' l o : gentle h h' -> nth_error h l = Some o -> match o with OArr _ | OHealth _ _ => True | _ => nth_error h' l = Some o end.
Proof. intros G E. destruct (G l o E) as (o' & E' & M). destruct o; auto; destruct o'; cbn in M; try discriminate; rewrite E'; congruence. Qed.
Lemma gentle_arr h h' a xs : gentle h h' -> arrdata h a = Some xs -> exists ys, arrdata h' a = Some ys /\ Permutation xs ys.
Proof.
  unfold arrdata. intros G D. destruct (nth_error h a) as [[]|] eqn:E; try discriminate. injection D as <-.
  destruct (G _ _ E) as (o' & E' & M). destruct o'; cbn in M; try discriminate. rewrite E'. eauto.
Qed.
Ltac obj G E := let H := fresh "K" in pose proof (gentle_obj _ _ _ _ G E) as H; cbn in H; try rewrite H.
Lemma gentle_sdata h h' v c xs : gentle h h' -> sdata h v = Some (c, xs) -> exists ys, sdata h' v = Some (c, ys) /\ Permutation xs ys.
Proof.
  intros G D. destruct v; cbn [sdata] in *; try discriminate.
  - destruct (nth_error h l) as [[]|] eqn:E; try discriminate. obj G E. destruct (arrdata h arr) eqn:A; try discriminate. injection D as <- <-.
    destruct (gentle_arr _ _ _ _ G A) as (ys & -> & P). exists ys. auto.
  - destruct (nth_error h l) as [[]|] eqn:E; try discriminate. obj G E. injection D as <- <-. eauto.
  - destruct (nth_error h l) as [[]|] eqn:E; try discriminate. obj G E. destruct (arrdata h arr) eqn:A; try discriminate. injection D as <- <-.
    destruct (gentle_arr _ _ _ _ G A) as (ys & -> & P). exists ys. auto.
  - injection D as <- <-. eauto.
Qed.
Lemma gentle_hdata h h' v c xs : gentle h h' -> hdata h v = Some (c, xs) -> exists ys, hdata h' v = Some (c, ys) /\ Permutation xs ys.
Proof.
  intros G D. destruct v; cbn [hdata] in *; try discriminate.
  - destruct (nth_error h l) as [[]|] eqn:E; try discriminate. obj G E. eapply gentle_sdata; eauto.
  - destruct (nth_error h l) as [[]|] eqn:E; try discriminate. obj G E. eapply gentle_sdata; eauto.
  - injection D as <- <-. eauto.
Qed.
Lemma gentle_msdata h h' l s : gentle h h' -> msdata h l = Some s -> msdata h' l = Some s.
Proof. unfold msdata. intros G D. destruct (nth_error h l) as [[]|] eqn:E; try discriminate. obj G E. exact D. Qed.
Lemma gentle_mdata h h' v s : gentle h h' -> mdata h v = Some s -> mdata h' v = Some s.
Proof.
  intros G D. destruct v; cbn [mdata] in *; try discriminate; auto.
  - destruct (nth_error h l) as [[]|] eqn:E; try discriminate. obj G E. eapply gentle_msdata; eauto.
  - eapply gentle_msdata; eauto.
Qed.
Lemma gentle_tdata h h' v c xs s : gentle h h' -> tdata h v = Some (c, xs, s) -> exists ys, tdata h' v = Some (c, ys, s) /\ Permutation xs ys.
Proof.
  intros G D. destruct v; cbn [tdata] in *; try discriminate.
  - destruct (nth_error h l) as [[]|] eqn:E; try discriminate. obj G E. destruct (hdata h h0) as [[c0 xs0]|] eqn:A; [|discriminate]. destruct (mdata h m) eqn:B; [|discriminate].
    cbn in D. injection D as <- <- <-. destruct (gentle_hdata _ _ _ _ _ G A) as (ys & -> & P). rewrite (gentle_mdata _ _ _ _ G B). cbn. eauto.
  - destruct (nth_error h l) as [[]|] eqn:E; try discriminate. obj G E. destruct (hdata h (VHistSnap h0)) as [[c0 xs0]|] eqn:A; [|discriminate]. destruct (mdata h (VMeterSnap m)) eqn:B; [|discriminate].
    cbn in D. injection D as <- <- <-. destruct (gentle_hdata _ _ _ _ _ G A) as (ys & -> & P). rewrite (gentle_mdata _ _ _ _ G B). cbn. eauto.
  - injection D as <- <- <-. eauto.
Qed.
Lemma gentle_vdata o h h' v d : gentle h h' -> vdata o h v = Some d -> exists d', vdata o h' v = Some d' /\ deq d d'.
Proof.
  intros G D. destruct v; cbn [vdata] in *; try discriminate; try (eexists; split; [exact D|destruct d; cbn; auto; fail]).
  all: try (destruct (nth_error h l) as [[]|] eqn:E; try discriminate; obj G E; eexists; split; [reflexivity|]; injection D as <-; reflexivity).
  all: try (injection D as <-; eexists; split; [reflexivity|cbn; auto]; fail).
  - destruct (sdata h (VUniform l)) as [[c xs]|] eqn:E; [|discriminate]. destruct (gentle_sdata _ _ _ _ _ G E) as (ys & -> & P). cbn in *. injection D as <-. eexists. split; [reflexivity|cbn; auto].
  - destruct (sdata h (VExp l)) as [[c xs]|] eqn:E; [|discriminate]. destruct (gentle_sdata _ _ _ _ _ G E) as (ys & -> & P). cbn in *. injection D as <-. eexists. split; [reflexivity|cbn; auto].
  - destruct (sdata h (VSampleSnap l)) as [[c xs]|] eqn:E; [|discriminate]. destruct (gentle_sdata _ _ _ _ _ G E) as (ys & -> & P). cbn in *. injection D as <-. eexists. split; [reflexivity|cbn; auto].
  - destruct (hdata h (VHist l)) as [[c xs]|] eqn:E; [|discriminate]. destruct (gentle_hdata _ _ _ _ _ G E) as (ys & -> & P). cbn in *. injection D as <-. eexists. split; [reflexivity|cbn; auto].
  - destruct (hdata h (VHistSnap l)) as [[c xs]|] eqn:E; [|discriminate]. destruct (gentle_hdata _ _ _ _ _ G E) as (ys & -> & P). cbn in *. injection D as <-. eexists. split; [reflexivity|cbn; auto].
  - destruct (mdata h (VMeter l)) as [s|] eqn:E; [|discriminate]. rewrite (gentle_mdata _ _ _ _ G E). cbn in *. injection D as <-. eexists. split; [reflexivity|reflexivity].
  - destruct (mdata h (VMeterSnap l)) as [s|] eqn:E; [|discriminate]. rewrite (gentle_mdata _ _ _ _ G E). cbn in *. injection D as <-. eexists. split; [reflexivity|reflexivity].
  - destruct (tdata h (VTimer l)) as [[[c xs] s]|] eqn:E; [|discriminate]. destruct (gentle_tdata _ _ _ _ _ _ G E) as (ys & -> & P). cbn in *. injection D as <-. eexists. split; [reflexivity|cbn; auto].
  - destruct (tdata h (VTimerSnap l)) as [[[c xs] s]|] eqn:E; [|discriminate]. destruct (gentle_tdata _ _ _ _ _ _ G E) as (ys & -> & P). cbn in *. injection D as <-. eexists. split; [reflexivity|cbn; auto].
Qed.

(** ** the fields *)
Definition fields_of (d : data) (fs : list (string * gval)) : Prop :=
  match d with
  | DCounter n => fs = [("count", GZ n)]%string
  | DGauge n => fs = [("value", GZ n)]%string
  | DGaugeF x => fs = [("value", GF x)]%string
  | DMeter s => fs = (("count", GZ (s_count s)) :: rate_fields (float64frombits (s_r1 s)) (float64frombits (s_r5 s)) (float64frombits (s_r15 s)) (float64frombits (s_mean s)))%string
  | DHist c xs => exists ps, snd (SamplePercentiles xs ps5) = Ok ps /\
      fs = dist_fields c (stat_of SMin xs) (stat_of SMax xs) (stat_of SMean xs) (stat_of SStdDev (sortz xs)) ps
  | DTimer c xs s => exists ps, snd (SamplePercentiles xs ps5) = Ok ps /\
      fs = dist_fields c (stat_of SMin xs) (stat_of SMax xs) (stat_of SMean xs) (stat_of SStdDev (sortz xs)) ps ++
        rate_fields (float64frombits (s_r1 s)) (float64frombits (s_r5 s)) (float64frombits (s_r15 s)) (float64frombits (s_mean s))
  | _ => fs = []
  end.
Lemma sorted_in_place ps v o w c xs : match v with VSampleSnap _ | VNilSample => True | _ => False end -> sdata (heap w) v = Some (c, xs) ->
  exists w', sample_percentiles ps v o w = (w', snd (SamplePercentiles xs ps)) /\ sdata (heap w') v = Some (c, sortz xs).
Proof.
  intros K D. pose proof (r_percentiles ps v o w c xs D) as R. destruct v; try contradiction.
  - cbn [sdata] in D. destruct (nth_error (heap w) l) as [[]|] eqn:E; try discriminate. destruct (arrdata (heap w) arr) as [xs0|] eqn:A; [|discriminate]. cbn in D. injection D as <- <-.
    pose proof (r_arr arr o w xs0 A) as Ra. cbn [sample_percentiles] in *.
    assert (Eg : ssnap_get l o w = (w, Ok (count, arr))) by (unfold ssnap_get, bind, load; rewrite E; reflexivity).
    rewrite (bind_ok _ _ _ _ _ _ Eg) in *. rewrite (bind_ok _ _ _ _ _ _ Ra) in *.
    pose proof (SamplePercentiles_after xs0 ps) as Af. destruct (SamplePercentiles xs0 ps) as [after r]. cbn [fst snd] in *. subst after. unfold bind, store, lift in *. cbn [fst snd] in *.
    eexists. split; [reflexivity|]. cbn [heap set_heap sdata]. assert (N : l <> arr). { intros ->. unfold arrdata in A. rewrite E in A. discriminate. }
    rewrite nth_error_lset_ne by auto. rewrite E. unfold arrdata in *. destruct (nth_error (heap w) arr) as [[]|] eqn:E2; try discriminate.
    rewrite nth_error_lset_eq by (eapply nth_lt; eauto). reflexivity.
  - cbn [sdata] in D. injection D as <- <-. exists w. cbn [sample_percentiles] in *. unfold ret in *. cbn [snd] in R. rewrite <- R. split; reflexivity.
Qed.
Lemma stat_sorted s xs : match s with SVariance | SStdDev => False | _ => True end -> stat_of s (sortz xs) = stat_of s xs.
Proof. pose proof (sortz_perm xs) as P. intros N. destruct s; cbn; try contradiction; f_equal; symmetry; auto using SampleMax_perm, SampleMin_perm, SampleSum_perm, SampleMean_perm. Qed.

(** snapshots of histograms read and sort like samples *)
Lemma hist_read ps v o w c xs : match v with VHistSnap _ | VNilHist => True | _ => False end -> hdata (heap w) v = Some (c, xs) ->
  exists w', hist_percentiles ps v o w = (w', snd (SamplePercentiles xs ps)) /\ hdata (heap w') v = Some (c, sortz xs) /\ gentle (heap w) (heap w').
Proof.
  intros K D. destruct (r_hist_sample v o w c xs D) as (s & E & Ds).
  assert (Ks : match s with VSampleSnap _ | VNilSample => True | _ => False end).
  { destruct v; try contradiction; cbn [hist_sample] in E; [unfold bind, load in E; destruct (nth_error (heap w) l) as [[]|]; try discriminate; injection E as <-; exact I|injection E as <-; exact I]. }
  destruct (sorted_in_place ps s o w c xs Ks Ds) as (w' & P & D'). exists w'. unfold hist_percentiles. rewrite (bind_ok _ _ _ _ _ _ E). split; [exact P|].
  assert (G : gentle (heap w) (heap w')) by (pose proof (gm_percentiles ps s o w) as G; rewrite P in G; exact G). split; [|exact G].
  destruct v; try contradiction; cbn [hdata hist_sample] in *.
  - unfold bind, load in E. destruct (nth_error (heap w) l) as [[]|] eqn:El; try discriminate. injection E as <-. obj G El. exact D'.
  - injection E as <-. exact D'.
Qed.

Lemma pair_ok {A B} (w w' : A) (a b : B) : (w, Ok a) = (w', Ok b) -> a = b.
Proof. congruence. Qed.
Lemma hist_fields v o w c xs : hdata (heap w) v = Some (c, xs) -> cls v = CHist -> forall w' fs, get_all_one v o w = (w', Ok fs) -> fields_of (DHist c xs) fs.
Proof.
  intros D C w' fs H. unfold get_all_one in H. rewrite C in H.
  destruct (hist_snapshot_ok v o w c xs D) as [(x & s & E & D1 & K)|(x & E)]; [rewrite (bind_ok _ _ _ _ _ _ E) in H|rewrite (bind_panic _ _ _ _ _ _ E) in H; discriminate].
  assert (Ks : match s with VHistSnap _ | VNilHist => True | _ => False end). { destruct v; try discriminate; [destruct K as (l' & k & -> & _)|subst|subst]; exact I. }
  destruct (hist_read ps5 s o (set_heap (heap w ++ x) w) c xs Ks D1) as (w2 & P & D2 & _).
  destruct (snd (SamplePercentiles xs ps5)) as [ps|msg] eqn:Ep; [rewrite (bind_ok _ _ _ _ _ _ P) in H|rewrite (bind_panic _ _ _ _ _ _ P) in H; discriminate].
  rewrite (bind_ok _ _ _ _ _ _ (r_hist_count s o w2 _ _ D2)) in H.
  do 4 (rewrite (bind_ok _ _ _ _ _ _ (r_hist_stat _ s o w2 _ _ D2)) in H). unfold ret in H. apply pair_ok in H. subst fs.
  exists ps. split; auto. rewrite (stat_sorted SMin), (stat_sorted SMax), (stat_sorted SMean) by exact I. reflexivity.
Qed.
Lemma meter_fields v o w s : mdata (heap w) v = Some s -> cls v = CMeter -> forall w' fs, get_all_one v o w = (w', Ok fs) -> fields_of (DMeter s) fs.
Proof.
  intros D C w' fs H. unfold get_all_one in H. rewrite C in H.
  destruct (meter_snapshot_ok v o w s D) as (x & k & E & D1 & K). rewrite (bind_ok _ _ _ _ _ _ E) in H.
  set (w1 := set_heap (heap w ++ x) w) in *. change (heap w ++ x) with (heap w1) in D1.
  rewrite (bind_ok _ _ _ _ _ _ (r_meter_count k o w1 _ D1)) in H.
  do 4 (rewrite (bind_ok _ _ _ _ _ _ (r_meter_rate _ k o w1 _ D1)) in H). unfold ret in H. apply pair_ok in H. subst fs. reflexivity.
Qed.
Lemma timer_parts v o w c xs s : tdata (heap w) v = Some (c, xs, s) -> exists hi m, timer_get v o w = (w, Ok (hi, m)) /\ hdata (heap w) hi = Some (c, xs) /\ mdata (heap w) m = Some s /\
  match v with VTimerSnap _ => match hi with VHistSnap _ => True | _ => False end | VNilTimer => hi = VNilHist | _ => True end.
Proof.
  intros D. destruct (r_timer_get v o w c xs s D) as (hi & m & E & D1 & D2). exists hi, m. repeat match goal with |- _ /\ _ => split end; auto.
  destruct v; auto; cbn [timer_get] in E.
  - unfold bind, load in E. destruct (nth_error (heap w) l) as [[]|]; try discriminate. injection E as <- <-. exact I.
  - injection E as <- <-. reflexivity.
Qed.
Lemma timer_read ps v o w c xs s : match v with VTimerSnap _ | VNilTimer => True | _ => False end -> tdata (heap w) v = Some (c, xs, s) ->
  exists w', timer_percentiles ps v o w = (w', snd (SamplePercentiles xs ps)) /\ tdata (heap w') v = Some (c, sortz xs, s).
Proof.
  intros Kt D1. destruct (timer_parts v o w c xs s D1) as (hi & m & Et & Dh & Dm & Kh).
  assert (Ks : match hi with VHistSnap _ | VNilHist => True | _ => False end). { destruct v; try contradiction; [destruct hi; try contradiction; exact I|subst; exact I]. }
  destruct (hist_read ps hi o w c xs Ks Dh) as (w2 & P & D2 & G). exists w2. split.
  - unfold timer_percentiles. rewrite (bind_ok _ _ _ _ _ _ Et). exact P.
  - pose proof (gentle_mdata _ _ _ _ G Dm) as Dm2. destruct v; try contradiction; cbn [timer_get tdata] in *.
    + unfold bind, load in Et. destruct (nth_error (heap w) l) as [[]|] eqn:El; try discriminate. obj G El. unfold ret in Et. injection Et as <- <-. rewrite D2, Dm2. reflexivity.
    + unfold ret in Et. injection Et as <- <-. cbn [hdata mdata] in *. injection D2 as <- <-. injection Dm2 as <-. reflexivity.
Qed.
Lemma r_timer_count v o w c xs s : tdata (heap w) v = Some (c, xs, s) -> timer_count v o w = (w, Ok c).
Proof. intros D. destruct (timer_parts v o w c xs s D) as (hi & m & E & Dh & Dm & _). unfold timer_count. rewrite (bind_ok _ _ _ _ _ _ E). apply (r_hist_count hi o w _ _ Dh). Qed.
Lemma r_timer_stat k v o w c xs s : tdata (heap w) v = Some (c, xs, s) -> timer_stat k v o w = (w, Ok (stat_of k xs)).
Proof. intros D. destruct (timer_parts v o w c xs s D) as (hi & m & E & Dh & Dm & _). unfold timer_stat. rewrite (bind_ok _ _ _ _ _ _ E). apply (r_hist_stat k hi o w _ _ Dh). Qed.
Lemma r_timer_rate k v o w c xs s : tdata (heap w) v = Some (c, xs, s) -> timer_rate k v o w = (w, Ok (float64frombits (rate_bits k s))).
Proof. intros D. destruct (timer_parts v o w c xs s D) as (hi & m & E & Dh & Dm & _). unfold timer_rate. rewrite (bind_ok _ _ _ _ _ _ E). apply (r_meter_rate k m o w _ Dm). Qed.
Lemma timer_fields v o w c xs s : tdata (heap w) v = Some (c, xs, s) -> cls v = CTimer -> forall w' fs, get_all_one v o w = (w', Ok fs) -> fields_of (DTimer c xs s) fs.
Proof.
  intros D C w' fs H. unfold get_all_one in H. rewrite C in H.
  destruct (timer_snapshot_ok v o w c xs s D) as [(x & t & E & D1 & K)|(x & E)]; [rewrite (bind_ok _ _ _ _ _ _ E) in H|rewrite (bind_panic _ _ _ _ _ _ E) in H; discriminate].
  assert (Kt : match t with VTimerSnap _ | VNilTimer => True | _ => False end). { destruct v; try discriminate; [destruct K as (l' & hl & ml & k & -> & _)|subst|subst]; exact I. }
  set (w1 := set_heap (heap w ++ x) w) in *. change (heap w ++ x) with (heap w1) in D1.
  destruct (timer_read ps5 t o w1 c xs s Kt D1) as (w2 & P & D2).
  destruct (snd (SamplePercentiles xs ps5)) as [ps|msg] eqn:Ep; [rewrite (bind_ok _ _ _ _ _ _ P) in H|rewrite (bind_panic _ _ _ _ _ _ P) in H; discriminate].
  rewrite (bind_ok _ _ _ _ _ _ (r_timer_count t o w2 _ _ _ D2)) in H. do 4 (rewrite (bind_ok _ _ _ _ _ _ (r_timer_stat _ t o w2 _ _ _ D2)) in H). do 4 (rewrite (bind_ok _ _ _ _ _ _ (r_timer_rate _ t o w2 _ _ _ D2)) in H). unfold ret in H. apply pair_ok in H. subst fs.
  exists ps. split; auto. rewrite (stat_sorted SMin), (stat_sorted SMax), (stat_sorted SMean) by exact I. reflexivity.
Qed.
Lemma one_fields v o w d : vdata o (heap w) v = Some d -> is_metric v = true -> forall w' fs, get_all_one v o w = (w', Ok fs) -> fields_of d fs.
Proof.
  intros D Mt w' fs H. destruct v; cbn [vdata] in *; try discriminate.
  - destruct (nth_error (heap w) l) as [[]|] eqn:E; try discriminate. injection D as <-. unfold get_all_one in H. cbn [cls counter_count] in H. unfold c_do, c_load, bind, load in H. rewrite E in H. cbn in H. injection H as _ <-. reflexivity.
  - injection D as <-. cbn in H. injection H as _ <-. reflexivity.
  - injection D as <-. cbn in H. injection H as _ <-. reflexivity.
  - destruct (nth_error (heap w) l) as [[]|] eqn:E; try discriminate. injection D as <-. unfold get_all_one in H. cbn [cls gauge_value] in H. unfold g_do, bind, load in H. rewrite E in H. cbn in H. injection H as _ <-. reflexivity.
  - injection D as <-. cbn in H. injection H as _ <-. reflexivity.
  - injection D as <-. cbn in H. injection H as _ <-. reflexivity.
  - injection D as <-. cbn in H. injection H as _ <-. reflexivity.
  - destruct (nth_error (heap w) l) as [[]|] eqn:E; try discriminate. injection D as <-. unfold get_all_one in H. cbn [cls gaugef_value] in H. unfold gf_do, bind, load in H. rewrite E in H. unfold store, ret in H. injection H as _ <-. reflexivity.
  - injection D as <-. unfold get_all_one in H. cbn [cls gaugef_value] in H. unfold bind, ret in H. injection H as _ <-. reflexivity.
  - injection D as <-. unfold get_all_one in H. cbn [cls gaugef_value] in H. unfold bind, ask, ret in H. injection H as _ <-. reflexivity.
  - injection D as <-. unfold get_all_one in H. cbn [cls gaugef_value] in H. unfold bind, ret in H. injection H as _ <-. reflexivity.
  - destruct (hdata (heap w) (VHist l)) as [[c xs]|] eqn:E; [|discriminate]. cbn in D. injection D as <-. eapply hist_fields; eauto.
  - destruct (hdata (heap w) (VHistSnap l)) as [[c xs]|] eqn:E; [|discriminate]. cbn in D. injection D as <-. eapply hist_fields; eauto.
  - cbn [hdata option_map fst snd] in D. injection D as <-. eapply hist_fields; eauto; reflexivity.
  - destruct (mdata (heap w) (VMeter l)) as [s|] eqn:E; [|discriminate]. cbn in D. injection D as <-. eapply meter_fields; eauto.
  - destruct (mdata (heap w) (VMeterSnap l)) as [s|] eqn:E; [|discriminate]. cbn in D. injection D as <-. eapply meter_fields; eauto.
  - cbn [mdata option_map] in D. injection D as <-. eapply meter_fields; eauto; reflexivity.
  - destruct (tdata (heap w) (VTimer l)) as [[[c xs] s]|] eqn:E; [|discriminate]. cbn in D. injection D as <-. eapply timer_fields; eauto.
  - destruct (tdata (heap w) (VTimerSnap l)) as [[[c xs] s]|] eqn:E; [|discriminate]. cbn in D. injection D as <-. eapply timer_fields; eauto.
  - cbn [tdata option_map fst snd] in D. injection D as <-. eapply timer_fields; eauto; reflexivity.
Qed.

(** the data of every metric stays the same, up to order, until it is read *)
Lemma deq_refl d : deq d d. Proof. destruct d; cbn; auto. Qed.
Lemma deq_trans a b c : deq a b -> deq b c -> deq a c.
Proof. destruct a, b, c; cbn; try congruence; try tauto; try (intros (-> & P) (-> & Q); eauto using Permutation_trans; fail); try (intros; discriminate). intros (-> & P & ->) (-> & Q & ->). eauto using Permutation_trans. Qed.
Lemma each_fields o es : forall w w' l, get_all_each es o w = (w', Ok l) -> 
  Forall2 (fun kv nf => fst nf = fst kv /\ forall d, vdata o (heap w) (snd kv) = Some d -> is_metric (snd kv) = true -> exists d', deq d d' /\ fields_of d' (snd nf)) es l.
Proof.
  induction es as [|[n v] es IH]; intros w w' l H; cbn [get_all_each] in H; [injection H as _ <-; constructor|].
  pose proof (gm_get_all_one v o w) as G. destruct (get_all_one v o w) as [w1 [f|msg]] eqn:E; [rewrite (bind_ok _ _ _ _ _ _ E) in H|rewrite (bind_panic _ _ _ _ _ _ E) in H; discriminate]. cbn [fst] in G.
  destruct (get_all_each es o w1) as [w2 [fs|msg]] eqn:E2; [rewrite (bind_ok _ _ _ _ _ _ E2) in H|rewrite (bind_panic _ _ _ _ _ _ E2) in H; discriminate]. unfold ret in H. injection H as _ <-.
  constructor.
  - cbn [fst snd]. split; [reflexivity|]. intros d D Mt. exists d. split; [apply deq_refl|]. eapply one_fields; eauto.
  - specialize (IH _ _ _ E2). revert IH. clear - G. induction 1 as [|kv nf es fs (A & B)]; constructor; auto. split; auto. intros d D Mt. destruct (gentle_vdata _ _ _ _ _ G D) as (d1 & D1 & Q1).
    destruct (B d1 D1 Mt) as (d2 & Q2 & F). exists d2. split; auto. eapply deq_trans; eauto.
Qed.

(** ** the fields are what the accessors return *)
Definition kind_of (d : data) : class :=
  match d with DCounter _ => CCounter | DGauge _ => CGauge | DGaugeF _ => CGaugeF | DSample _ _ => CSample | DHist _ _ => CHist | DEwma _ => CEwma | DMeter _ => CMeter | DTimer _ _ _ => CTimer end.
Lemma kind_vdata o h v d : vdata o h v = Some d -> kind_of d = cls v.
Proof.
  destruct v; cbn [vdata]; try discriminate; intros D; try (injection D as <-; reflexivity);
    try (destruct (nth_error h l) as [[]|]; try discriminate; injection D as <-; reflexivity).
  all: match type of D with option_map _ ?x = _ => destruct x; cbn [option_map] in D; try discriminate; injection D as <-; reflexivity end.
Qed.
Lemma deq_kind d d' : deq d d' -> kind_of d = kind_of d'.
Proof. destruct d, d'; cbn; try reflexivity; intros; discriminate. Qed.
Definition agrees (d : data) (kg : string * gval) (ka : string * op) : Prop :=
  fst kg = fst ka /\ (order_free (snd ka) = true -> read_data (snd ka) d = Some (Ok (as_result (snd kg)))).
Lemma loop_sget l ps : forall ss, percentile_loop l ps = Ok ss -> List.length ss = List.length ps /\ forall i p, nth_error ps i = Some p -> percentile_of_sorted l p = Ok (nth i ss f_zero).
Proof.
  induction ps as [|p ps IH]; intros ss H; cbn [percentile_loop] in H.
  - injection H as <-. split; [reflexivity|]. intros [|i] q; discriminate.
  - destruct (percentile_of_sorted l p) as [s|] eqn:E; cbn [res_bind] in H; [|discriminate]. destruct (percentile_loop l ps) as [ss'|] eqn:E2; cbn [res_bind] in H; [|discriminate]. injection H as <-.
    destruct (IH _ eq_refl) as [L N]. split; [cbn; now rewrite L|]. intros [|i] q Hq; cbn in *; [injection Hq as <-; exact E|apply N; exact Hq].
Qed.
Lemma one_of_many xs ps ss : snd (SamplePercentiles xs ps) = Ok ss -> forall i p, nth_error ps i = Some p ->
  res_bind (snd (SamplePercentiles xs [p])) (fun l => sget l 0) = Ok (nth i ss f_zero).
Proof.
  intros H i p Hi. destruct xs as [|a xs].
  - cbn [SamplePercentiles snd] in *. injection H as <-. cbn [map res_bind]. unfold sget. cbn. f_equal. clear. revert i. induction ps; intros [|i]; cbn; auto.
  - unfold SamplePercentiles in *. cbn [snd] in *. destruct (loop_sget _ _ _ H) as [_ N]. specialize (N i p Hi). cbn [percentile_loop]. rewrite N. cbn [res_bind]. reflexivity.
Qed.
Lemma dist_agree d c xs ps x sd : dist d = Some xs -> snd (SamplePercentiles xs ps5) = Ok ps -> read_data (OCount x) d = Some (Ok (RZ c)) -> 
  Forall2 (agrees d) (dist_fields c (stat_of SMin xs) (stat_of SMax xs) (stat_of SMean xs) sd ps) (distribution x).
Proof.
  intros D P C. unfold dist_fields, distribution.
  assert (Pc : forall i p, nth_error ps5 i = Some p -> read_data (OPercentile x p) d = Some (Ok (RF (nth i ps f_zero)))).
  { intros i p Hi. cbn [read_data]. rewrite D. cbn [option_map]. rewrite (one_of_many _ _ _ P i p Hi). reflexivity. }
  assert (St : forall s, read_data (OStat x s) d = Some (Ok (stat_of s xs))) by (intros s; cbn [read_data]; rewrite D; reflexivity).
  repeat (apply Forall2_cons; [split; [reflexivity|]; cbn [fst snd order_free as_result]; intros K|]); try apply Forall2_nil; try discriminate K.
  - exact C.
  - apply St. - apply St. - apply St.
  - apply (Pc 0). reflexivity.
  - apply (Pc 1). reflexivity. - apply (Pc 2). reflexivity. - apply (Pc 3). reflexivity. - apply (Pc 4). reflexivity.
Qed.
Lemma rates_agree d s x : read_data (OMRate x RK1) d = Some (Ok (RF (float64frombits (s_r1 s)))) -> read_data (OMRate x RK5) d = Some (Ok (RF (float64frombits (s_r5 s)))) ->
  read_data (OMRate x RK15) d = Some (Ok (RF (float64frombits (s_r15 s)))) -> read_data (OMRate x RKMean) d = Some (Ok (RF (float64frombits (s_mean s)))) ->
  Forall2 (agrees d) (rate_fields (float64frombits (s_r1 s)) (float64frombits (s_r5 s)) (float64frombits (s_r15 s)) (float64frombits (s_mean s))) (rates x).
Proof. intros A B C D. unfold rate_fields, rates. repeat (apply Forall2_cons; [split; [reflexivity|intros _]; assumption|]). apply Forall2_nil. Qed.
Lemma fields_agree d fs x : fields_of d fs -> Forall2 (agrees d) fs (accessors (kind_of d) x).
Proof.
  intros F. destruct d; cbn [fields_of kind_of accessors] in *; subst; try apply Forall2_nil;
    try (apply Forall2_cons; [split; [reflexivity|intros _; reflexivity]|apply Forall2_nil]).
  - destruct F as (ps & P & ->). eapply dist_agree; eauto; reflexivity.
  - apply Forall2_cons; [split; [reflexivity|intros _; reflexivity]|]. apply rates_agree; reflexivity.
  - destruct F as (ps & P & ->). apply Forall2_app; [eapply dist_agree; eauto; reflexivity|]. apply rates_agree; reflexivity.
Qed.
(** the standard deviation is computed on the sorted values *)
Lemma fields_stddev d fs xs : fields_of d fs -> (kind_of d = CHist \/ kind_of d = CTimer) -> dist d = Some xs ->
  In ("stddev"%string, GF (SampleStdDev (sortz xs))) fs.
Proof.
  intros F K D. destruct d; cbn [kind_of] in K; try (destruct K; discriminate); cbn [fields_of dist] in *; injection D as ->; destruct F as (ps & _ & ->).
  - cbn. auto 6.
  - apply in_or_app. left. cbn. auto 6.
Qed.
Lemma one_keys v o w w' fs : get_all_one v o w = (w', Ok fs) -> map fst fs = map fst (accessors (cls v) 0).
Proof.
  unfold get_all_one. intros H. destruct (cls v); cbn [accessors map fst] in *; try (unfold ret in H; injection H as _ <-; reflexivity).
  all: repeat match type of H with bind ?m ?f ?oo ?w0 = _ => let E := fresh in let a := fresh "a" in destruct (m oo w0) as [? [a|?]] eqn:E; [rewrite (bind_ok _ _ _ _ _ _ E) in H|rewrite (bind_panic _ _ _ _ _ _ E) in H; discriminate]; clear E; cbv beta in H end.
  all: unfold ret in H; apply pair_ok in H; subst fs; reflexivity.
Qed.

(** ** when GetAll returns *)
Definition snappable (h : list obj) (v : val) : Prop :=
  match v with
  | VHist l => exists s, nth_error h l = Some (OHist s) /\ s <> VNilSample
  | VTimer l => exists hi m, nth_error h l = Some (OTimer hi m) /\ hi <> VNilHist /\ m <> VNilMeter /\
      match hi with VHist k => exists s, nth_error h k = Some (OHist s) /\ s <> VNilSample | _ => True end
  | _ => True
  end.
Lemma gentle_snappable h h' v : gentle h h' -> snappable h v -> snappable h' v.
Proof.
  intros G. destruct v; cbn [snappable]; auto.
  - intros (s & E & N). exists s. obj G E. auto.
  - intros (hi & m & E & N1 & N2 & K). exists hi, m. obj G E. repeat match goal with |- _ /\ _ => split end; auto.
    destruct hi; auto. destruct K as (s & E2 & N). exists s. obj G E2. auto.
Qed.
Lemma hist_snappable v o w c xs : hdata (heap w) v = Some (c, xs) -> (snappable (heap w) v <-> exists w' s, hist_snapshot v o w = (w', Ok s)).
Proof.
  intros D. destruct v; try discriminate.
  - destruct (r_hist_sample (VHist l) o w c xs D) as (s & E & Ds).
    assert (El : nth_error (heap w) l = Some (OHist s)). { cbn [hist_sample] in E. unfold bind, load in E. destruct (nth_error (heap w) l) as [[]|]; try discriminate. injection E as <-. reflexivity. }
    destruct (sample_snapshot_ok s o w c xs Ds) as (x & k & Es & _ & Kk). cbn [hist_snapshot snappable]. rewrite (bind_ok _ _ _ _ _ _ E), (bind_ok _ _ _ _ _ _ Es). split.
    + intros (s' & E' & N). rewrite El in E'. injection E' as <-. destruct s; try discriminate; try (destruct Kk as (? & -> & _)); try subst k; try congruence; unfold bind, alloc, ret; do 2 eexists; reflexivity.
    + intros (w' & r & H). exists s. split; auto. intros ->. subst k. discriminate H.
  - cbn. unfold ret. split; eauto.
  - cbn. unfold ret. split; eauto.
Qed.
Lemma timer_snappable v o w c xs s : tdata (heap w) v = Some (c, xs, s) -> (snappable (heap w) v <-> exists w' t, timer_snapshot v o w = (w', Ok t)).
Proof.
  intros D. destruct v; try discriminate.
  - destruct (r_timer_get (VTimer l) o w c xs s D) as (hi & m & E & Dh & Dm).
    assert (El : nth_error (heap w) l = Some (OTimer hi m)). { cbn [timer_get] in E. unfold bind, load in E. destruct (nth_error (heap w) l) as [[]|]; try discriminate. injection E as <- <-. reflexivity. }
    assert (Sn : snappable (heap w) (VTimer l) <-> snappable (heap w) hi /\ hi <> VNilHist /\ m <> VNilMeter).
    { cbn [snappable]. split.
      - intros (hi' & m' & E' & N1 & N2 & K). rewrite El in E'. injection E' as <- <-. destruct hi; try discriminate; auto.
      - intros (K & N1 & N2). exists hi, m. destruct hi; try discriminate; auto. }
    rewrite Sn. cbn [timer_snapshot]. rewrite (bind_ok _ _ _ _ _ _ E). pose proof (hist_snappable hi o w c xs Dh) as Hs.
    destruct (hist_snapshot_ok hi o w c xs Dh) as [(x & k & Es & D1 & Kk)|(x & Es)].
    + rewrite (bind_ok _ _ _ _ _ _ Es). assert (Sh : snappable (heap w) hi) by (apply Hs; eauto).
      assert (Dm1 : mdata (heap (set_heap (heap w ++ x) w)) m = Some s) by (apply (gentle_mdata (heap w)); [apply gentle_app|exact Dm]).
      destruct (meter_snapshot_ok m o _ s Dm1) as (y & mk & Em & _ & Km).
      destruct hi; try discriminate; [destruct Kk as (lh & kk & -> & _)|subst k|subst k].
      * rewrite (bind_ok _ _ _ _ _ _ Em). destruct m; try discriminate; [destruct Km as (lm & ->)|subst mk|subst mk]; unfold bind, alloc, ret; cbn [fst snd]; split; eauto; try (intros (_ & _ & N); congruence); try (intros (? & ? & H); discriminate H); intros _;
          repeat match goal with |- _ /\ _ => split end; auto; discriminate.
      * rewrite (bind_ok _ _ _ _ _ _ Em). destruct m; try discriminate; [destruct Km as (lm & ->)|subst mk|subst mk]; unfold bind, alloc, ret; cbn [fst snd]; split; eauto; try (intros (_ & _ & N); congruence); try (intros (? & ? & H); discriminate H); intros _;
          repeat match goal with |- _ /\ _ => split end; auto; discriminate.
      * split; [intros (_ & N & _); congruence|intros (? & ? & H); discriminate H].
    + rewrite (bind_panic _ _ _ _ _ _ Es). split; [intros (Sh & _ & _)|intros (? & ? & H); discriminate H]. apply Hs in Sh. destruct Sh as (? & ? & H). rewrite Es in H. discriminate H.
  - cbn. unfold ret. split; eauto.
  - cbn. unfold ret. split; eauto.
Qed.
(** what lets one metric be reported *)
Definition reportable (o : orc) (h : list obj) (v : val) : Prop :=
  match cls v with
  | CHealth => forall l e f, v = VHealth l -> nth_error h l = Some (OHealth e f) -> forall e', panics (o_health o f e') = false
  | CHist | CTimer => snappable h v /\ forall d xs, vdata o h v = Some d -> dist d = Some xs -> exists ps, snd (SamplePercentiles xs ps5) = Ok ps
  | _ => True
  end.
Lemma reportable_gentle o h h' v : gentle h h' -> (exists d, vdata o h v = Some d) \/ readable v = false -> vok h v -> reportable o h v -> reportable o h' v.
Proof.
  intros G X V. unfold reportable. destruct (cls v) eqn:C; auto.
  - intros H l e f -> E. cbn in V. destruct V as (ob & Eo & T). destruct ob; cbn in T; try discriminate. destruct (G _ _ Eo) as (o' & E' & M). rewrite E' in E. injection E as ->. cbn in M. subst f0. eapply H; eauto.
  - intros (S & P). split; [eapply gentle_snappable; eauto|]. intros d xs D Ds. destruct X as [(d0 & D0)|R]; [|unfold readable in R; rewrite C in R; discriminate].
    destruct (gentle_vdata _ _ _ _ _ G D0) as (d1 & D1 & Q). rewrite D in D1. injection D1 as <-.
    destruct d0, d; cbn in Q, Ds; try discriminate; try (destruct Q as (-> & Q)); injection Ds as <-; destruct (P _ _ D0 eq_refl) as (ps & Ps); exists ps; rewrite <- (SamplePercentiles_perm xs0 xs1); auto. apply Q.
  - intros (S & P). split; [eapply gentle_snappable; eauto|]. intros d xs D Ds. destruct X as [(d0 & D0)|R]; [|unfold readable in R; rewrite C in R; discriminate].
    destruct (gentle_vdata _ _ _ _ _ G D0) as (d1 & D1 & Q). rewrite D in D1. injection D1 as <-.
    destruct d0, d; cbn in Q, Ds; try discriminate; try (destruct Q as (-> & Q)); injection Ds as <-; destruct (P _ _ D0 eq_refl) as (ps & Ps); exists ps; rewrite <- (SamplePercentiles_perm xs0 xs1); auto. apply Q.
Qed.
Lemma one_returns v o w : (exists d, vdata o (heap w) v = Some d) \/ readable v = false -> vok (heap w) v -> reportable o (heap w) v ->
  exists w' fs, get_all_one v o w = (w', Ok fs).
Proof.
  intros X V R. unfold reportable in R. unfold get_all_one. destruct (cls v) eqn:C; try (unfold ret; eauto; fail).
  - destruct v; try discriminate; cbn in V.
    + destruct V as (ob & E & T). destruct ob; cbn in T; try discriminate. unfold counter_count, c_do, c_load, bind, load. rewrite E. do 2 eexists; reflexivity.
    + unfold counter_count, bind, ret. do 2 eexists; reflexivity.
    + unfold counter_count, bind, ret. do 2 eexists; reflexivity.
  - destruct v; try discriminate; cbn in V.
    + destruct V as (ob & E & T). destruct ob; cbn in T; try discriminate. unfold gauge_value, g_do, bind, load. rewrite E. do 2 eexists; reflexivity.
    + unfold gauge_value, bind, ret. do 2 eexists; reflexivity.
    + unfold gauge_value, bind, ask, ret. do 2 eexists; reflexivity.
    + unfold gauge_value, bind, ret. do 2 eexists; reflexivity.
  - destruct v; try discriminate; cbn in V.
    + destruct V as (ob & E & T). destruct ob; cbn in T; try discriminate. unfold gaugef_value, gf_do, bind, load. rewrite E. unfold store, ret. do 2 eexists; reflexivity.
    + unfold gaugef_value, bind, ret. do 2 eexists; reflexivity.
    + unfold gaugef_value, bind, ask, ret. do 2 eexists; reflexivity.
    + unfold gaugef_value, bind, ret. do 2 eexists; reflexivity.
  - destruct v; try discriminate; cbn in V.
    + destruct V as (ob & E & T). destruct ob; cbn in T; try discriminate. specialize (R l e f eq_refl E).
      destruct (health_check_ok o l f w e E) as (w' & H & E' & _). unfold outcome in H. rewrite R in H. rewrite (bind_ok _ _ _ _ _ _ H). unfold health_error, bind, load. rewrite E'. unfold ret. do 2 eexists; reflexivity.
    + unfold health_check, health_error, bind, ret. do 2 eexists; reflexivity.
  - destruct X as [(d & D)|X]; [|unfold readable in X; rewrite C in X; discriminate]. destruct R as (S & P).
    assert (Hd : exists c xs, hdata (heap w) v = Some (c, xs) /\ d = DHist c xs).
    { destruct v; try discriminate C; unfold vdata in D; (destruct (hdata _ _) as [[c xs]|]; [|discriminate]); cbn in D; injection D as <-; eauto. }
    destruct Hd as (c & xs & Hd & ->). destruct (P _ xs D eq_refl) as (ps & Ps).
    destruct (hist_snapshot_ok v o w c xs Hd) as [(x & s & E & D1 & K)|(x & E)].
    2: { apply (hist_snappable v o w c xs Hd) in S. destruct S as (? & ? & H). rewrite E in H. discriminate. }
    rewrite (bind_ok _ _ _ _ _ _ E).
    assert (Ks : match s with VHistSnap _ | VNilHist => True | _ => False end). { destruct v; try discriminate; [destruct K as (l' & k & -> & _)|subst|subst]; exact I. }
    destruct (hist_read ps5 s o (set_heap (heap w ++ x) w) c xs Ks D1) as (w2 & Pq & D2 & _). rewrite Ps in Pq. rewrite (bind_ok _ _ _ _ _ _ Pq).
    rewrite (bind_ok _ _ _ _ _ _ (r_hist_count s o w2 _ _ D2)). do 4 (rewrite (bind_ok _ _ _ _ _ _ (r_hist_stat _ s o w2 _ _ D2))). unfold ret. do 2 eexists; reflexivity.
  - destruct X as [(d & D)|X]; [|unfold readable in X; rewrite C in X; discriminate].
    assert (Hd : exists s, mdata (heap w) v = Some s). { destruct v; try discriminate C; unfold vdata in D; (destruct (mdata _ _) as [s|]; [|discriminate]); eauto. }
    destruct Hd as (s & Hd). destruct (meter_snapshot_ok v o w s Hd) as (x & k & E & D1 & K). rewrite (bind_ok _ _ _ _ _ _ E).
    set (w1 := set_heap (heap w ++ x) w) in *. change (heap w ++ x) with (heap w1) in D1.
    rewrite (bind_ok _ _ _ _ _ _ (r_meter_count k o w1 _ D1)). do 4 (rewrite (bind_ok _ _ _ _ _ _ (r_meter_rate _ k o w1 _ D1))). unfold ret. do 2 eexists; reflexivity.
  - destruct X as [(d & D)|X]; [|unfold readable in X; rewrite C in X; discriminate]. destruct R as (S & P).
    assert (Hd : exists c xs s, tdata (heap w) v = Some (c, xs, s) /\ d = DTimer c xs s).
    { destruct v; try discriminate C; unfold vdata in D; (destruct (tdata _ _) as [[[c xs] s]|]; [|discriminate]); cbn in D; injection D as <-; eauto. }
    destruct Hd as (c & xs & s & Hd & ->). destruct (P _ xs D eq_refl) as (ps & Ps).
    destruct (timer_snapshot_ok v o w c xs s Hd) as [(x & t & E & D1 & K)|(x & E)].
    2: { apply (timer_snappable v o w c xs s Hd) in S. destruct S as (? & ? & H). rewrite E in H. discriminate. }
    rewrite (bind_ok _ _ _ _ _ _ E).
    assert (Kt : match t with VTimerSnap _ | VNilTimer => True | _ => False end). { destruct v; try discriminate; [destruct K as (l' & hl & ml & k & -> & _)|subst|subst]; exact I. }
    set (w1 := set_heap (heap w ++ x) w) in *. change (heap w ++ x) with (heap w1) in D1.
    destruct (timer_read ps5 t o w1 c xs s Kt D1) as (w2 & Pq & D2). rewrite Ps in Pq. rewrite (bind_ok _ _ _ _ _ _ Pq).
    rewrite (bind_ok _ _ _ _ _ _ (r_timer_count t o w2 _ _ _ D2)). do 4 (rewrite (bind_ok _ _ _ _ _ _ (r_timer_stat _ t o w2 _ _ _ D2))). do 4 (rewrite (bind_ok _ _ _ _ _ _ (r_timer_rate _ t o w2 _ _ _ D2))). unfold ret. do 2 eexists; reflexivity.
Qed.
Lemma each_returns o es : forall w, wf w -> Forall (vok (heap w)) (map snd es) -> Forall (reportable o (heap w)) (map snd es) ->
  exists w' l, get_all_each es o w = (w', Ok l).
Proof.
  induction es as [|[n v] es IH]; intros w W V R; cbn [get_all_each map snd] in *; [unfold ret; eauto|].
  inversion V as [|? ? V1 V2]; subst. inversion R as [|? ? R1 R2]; subst.
  assert (X : (exists d, vdata o (heap w) v = Some d) \/ readable v = false) by (destruct (readable v) eqn:Rv; [left; apply vdata_ok; auto|auto]).
  destruct (one_returns v o w X V1 R1) as (w1 & fs & E). pose proof (gm_get_all_one v o w) as G. destruct (t_get_all_one (fun _ => False) (fun x => x) 0 v o w W V1) as (W1 & L1 & _). rewrite E in *. cbn [fst] in *.
  rewrite (bind_ok _ _ _ _ _ _ E).
  destruct (IH w1) as (w2 & l & E2); auto.
  - eapply Forall_impl; [|exact V2]. intros u. apply (legalh_vok _ _ _ _ L1).
  - clear - G W V2 R2. induction es as [|[n v] es IH]; cbn [map snd] in *; constructor; inversion V2; inversion R2; subst; auto.
    eapply reportable_gentle; eauto. destruct (readable v) eqn:Rv; [left; apply vdata_ok; auto|auto].
  - rewrite (bind_ok _ _ _ _ _ _ E2). unfold ret. eauto.
Qed.

(** ** health checks *)
Lemma count_cons l v vs : count l (v :: vs) = count l [v] + count l vs.
Proof. unfold count. cbn [filter]. destruct (is_check l v); reflexivity. Qed.
Lemma each_names o es : forall w w' l, get_all_each es o w = (w', Ok l) -> map fst l = map fst es.
Proof.
  induction es as [|[n v] es IH]; intros w w' l H; cbn [get_all_each] in H; [injection H as _ <-; reflexivity|].
  destruct (get_all_one v o w) as [w1 [f|msg]] eqn:E; [rewrite (bind_ok _ _ _ _ _ _ E) in H|rewrite (bind_panic _ _ _ _ _ _ E) in H; discriminate].
  destruct (get_all_each es o w1) as [w2 [fs|msg]] eqn:E2; [rewrite (bind_ok _ _ _ _ _ _ E2) in H|rewrite (bind_panic _ _ _ _ _ _ E2) in H; discriminate]. unfold ret in H. injection H as _ <-.
  cbn [map fst]. f_equal. eapply IH; eauto.
Qed.
Lemma each_health l o f nm fs es : forall w e w' rs, wf w -> Forall (vok (heap w)) (map snd es) -> nth_error (heap w) l = Some (OHealth e f) -> NoDup (map fst es) ->
  get_all_each es o w = (w', Ok rs) -> In (nm, VHealth l) es -> In (nm, fs) rs ->
  exists k, 1 <= k <= count l (map snd es) /\ fs = [("error"%string, GE (Nat.iter k (run_of o f) e))].
Proof.
  induction es as [|[n v] es IH]; intros w e w' rs W F E ND H Hi Hr; [destruct Hi|]. cbn [get_all_each map snd fst] in *.
  inversion F as [|? ? V F']; subst. inversion ND as [|? ? N1 N2]; subst.
  pose proof (get_all_one_sees v l o f w e W V E) as E1. destruct (t_get_all_one (fun _ => False) (fun x => x) 0 v o w W V) as (W1 & L1 & _).
  destruct (get_all_one v o w) as [w1 [r|msg]] eqn:R; [rewrite (bind_ok _ _ _ _ _ _ R) in H|rewrite (bind_panic _ _ _ _ _ _ R) in H; discriminate]. cbn [fst] in *.
  destruct (get_all_each es o w1) as [w2 [rs2|msg]] eqn:R2; [rewrite (bind_ok _ _ _ _ _ _ R2) in H|rewrite (bind_panic _ _ _ _ _ _ R2) in H; discriminate]. unfold ret in H. injection H as _ <-.
  rewrite count_cons. pose proof (each_names _ _ _ _ _ R2) as Nm. destruct Hi as [Hi|Hi].
  - injection Hi as -> ->. assert (C1 : count l [VHealth l] = 1) by (unfold count; cbn [filter is_check]; rewrite Nat.eqb_refl; reflexivity). rewrite C1. exists 1. split; [lia|].
    destruct Hr as [Hr|Hr]; [|exfalso; apply N1; rewrite <- Nm; apply (in_map fst) in Hr; exact Hr]. injection Hr as ->.
    destruct (health_check_ok o l f w e E) as (w3 & Hc & E3 & _). unfold get_all_one in R. cbn [cls] in R. unfold outcome in Hc.
    destruct (panics (o_health o f e)); [rewrite (bind_panic _ _ _ _ _ _ Hc) in R; discriminate|]. rewrite (bind_ok _ _ _ _ _ _ Hc) in R.
    unfold health_error, bind, load in R. rewrite E3 in R. unfold ret in R. injection R as _ <-. reflexivity.
  - assert (Ne : nm <> n). { intros ->. apply N1. apply (in_map fst) in Hi. exact Hi. }
    destruct Hr as [Hr|Hr]; [injection Hr as -> ->; congruence|].
    destruct (IH w1 _ w2 rs2 W1 (Forall_impl _ (fun u => legalh_vok _ _ _ _ L1) F') E1 N2 R2 Hi Hr) as (k & K & ->).
    assert (B : count l [v] <= 1) by (unfold count; cbn; destruct (is_check l v); cbn; lia). exists (count l [v] + k). split; [lia|]. f_equal. f_equal. f_equal.
    destruct (count l [v]) as [|[|j]]; [reflexivity| |lia]. cbn [Nat.add]. apply iter_S.
Qed.
Lemma each_nil_health o nm fs es : forall w w' rs, NoDup (map fst es) -> get_all_each es o w = (w', Ok rs) -> In (nm, VNilHealth) es -> In (nm, fs) rs -> fs = [("error"%string, GE None)].
Proof.
  induction es as [|[n v] es IH]; intros w w' rs ND H Hi Hr; [destruct Hi|]. cbn [get_all_each map snd fst] in *. inversion ND as [|? ? N1 N2]; subst.
  destruct (get_all_one v o w) as [w1 [r|msg]] eqn:R; [rewrite (bind_ok _ _ _ _ _ _ R) in H|rewrite (bind_panic _ _ _ _ _ _ R) in H; discriminate].
  destruct (get_all_each es o w1) as [w2 [rs2|msg]] eqn:R2; [rewrite (bind_ok _ _ _ _ _ _ R2) in H|rewrite (bind_panic _ _ _ _ _ _ R2) in H; discriminate]. unfold ret in H. injection H as _ <-.
  pose proof (each_names _ _ _ _ _ R2) as Nm. destruct Hi as [Hi|Hi].
  - injection Hi as -> ->. destruct Hr as [Hr|Hr]; [|exfalso; apply N1; rewrite <- Nm; apply (in_map fst) in Hr; exact Hr]. injection Hr as ->. cbn in R. injection R as _ <-. reflexivity.
  - assert (Ne : nm <> n). { intros ->. apply N1. apply (in_map fst) in Hi. exact Hi. } destruct Hr as [Hr|Hr]; [injection Hr as -> ->; congruence|]. eapply IH; eauto.
Qed.
