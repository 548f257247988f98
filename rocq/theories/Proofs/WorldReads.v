(** What the reading methods return, as a function of the contents of the metric. *)
From Coq Require Import ZArith List String Bool Lia Permutation Arith.
From Verif.Model Require Import GoInt GoFloat GoBase Stats Uniform ExpDecay Conc CounterGauge Ewma Meter World.
From Verif.Spec Require Import ApiSpec.
From Verif.Proofs Require Import SortFacts StatsInt EwmaSeq WorldBase WorldOps WorldCalls WorldStep.
Import ListNotations.
Local Open Scope nat_scope.
Local Open Scope list_scope.

Definition arrdata (h : list obj) (a : nat) : option (list Z) := match nth_error h a with Some (OArr xs) => Some xs | _ => None end.
Definition sdata (h : list obj) (v : val) : option (Z * list Z) :=
  match v with
  | VUniform l => match nth_error h l with Some (OUniform c _ a) => option_map (pair c) (arrdata h a) | _ => None end
  | VExp l => match nth_error h l with Some (OExp x) => Some (exp_Count x, exp_Values x) | _ => None end
  | VSampleSnap l => match nth_error h l with Some (OSampleSnap c a) => option_map (pair c) (arrdata h a) | _ => None end
  | VNilSample => Some (0%Z, [])
  | _ => None
  end.
Definition hdata (h : list obj) (v : val) : option (Z * list Z) :=
  match v with
  | VHist l => match nth_error h l with Some (OHist s) => sdata h s | _ => None end
  | VHistSnap l => match nth_error h l with Some (OHistSnap s) => sdata h (VSampleSnap s) | _ => None end
  | VNilHist => Some (0%Z, [])
  | _ => None
  end.
Definition msdata (h : list obj) (l : nat) : option msnap := match nth_error h l with Some (OMeterSnap c a b d m) => Some (MkS c a b d m) | _ => None end.
Definition mdata (h : list obj) (v : val) : option msnap :=
  match v with
  | VMeter l => match nth_error h l with Some (OMeter s _ _ _ _ _) => msdata h s | _ => None end
  | VMeterSnap l => msdata h l
  | VNilMeter => Some (MkS 0 0 0 0 0)
  | _ => None
  end.
Definition opair {A B} (a : option A) (b : option B) : option (A * B) := match a, b with Some x, Some y => Some (x, y) | _, _ => None end.
Definition tdata (h : list obj) (v : val) : option (Z * list Z * msnap) :=
  match v with
  | VTimer l => match nth_error h l with Some (OTimer hi m) => opair (hdata h hi) (mdata h m) | _ => None end
  | VTimerSnap l => match nth_error h l with Some (OTimerSnap hi m) => opair (hdata h (VHistSnap hi)) (mdata h (VMeterSnap m)) | _ => None end
  | VNilTimer => Some (0%Z, [], MkS 0 0 0 0 0)
  | _ => None
  end.

Inductive data := DCounter (n : Z) | DGauge (n : Z) | DGaugeF (x : f64) | DSample (c : Z) (xs : list Z) | DHist (c : Z) (xs : list Z)
| DEwma (x : f64) | DMeter (s : msnap) | DTimer (c : Z) (xs : list Z) (s : msnap).
Definition vdata (o : orc) (h : list obj) (v : val) : option data :=
  match v with
  | VCounter l => match nth_error h l with Some (OCounter n) => Some (DCounter n) | _ => None end
  | VCounterSnap n => Some (DCounter n)
  | VNilCounter => Some (DCounter 0)
  | VGauge l => match nth_error h l with Some (OGauge n) => Some (DGauge n) | _ => None end
  | VGaugeSnap n => Some (DGauge n)
  | VFuncGauge f => Some (DGauge (o_fun o f))
  | VNilGauge => Some (DGauge 0)
  | VGaugeF l => match nth_error h l with Some (OGaugeF b) => Some (DGaugeF (float64frombits b)) | _ => None end
  | VGaugeFSnap x => Some (DGaugeF x)
  | VFuncGaugeF f => Some (DGaugeF (o_funf o f))
  | VNilGaugeF => Some (DGaugeF f_zero)
  | VUniform _ | VExp _ | VSampleSnap _ | VNilSample => option_map (fun p => DSample (fst p) (snd p)) (sdata h v)
  | VHist _ | VHistSnap _ | VNilHist => option_map (fun p => DHist (fst p) (snd p)) (hdata h v)
  | VEwma l => match nth_error h l with Some (OEwma e) => Some (DEwma (rate_of (w_rate e))) | _ => None end
  | VEwmaSnap x => Some (DEwma x)
  | VNilEwma => Some (DEwma f_zero)
  | VMeter _ | VMeterSnap _ | VNilMeter => option_map DMeter (mdata h v)
  | VTimer _ | VTimerSnap _ | VNilTimer => option_map (fun p => DTimer (fst (fst p)) (snd (fst p)) (snd p)) (tdata h v)
  | _ => None
  end.

Definition res_map {A B} (f : A -> B) (r : res A) : res B := match r with Ok a => Ok (f a) | Panic m => Panic m end.
Definition dist (d : data) : option (list Z) := match d with DSample _ xs | DHist _ xs | DTimer _ xs _ => Some xs | _ => None end.
Definition read_data (c : op) (d : data) : option (res rv) :=
  match c with
  | OCount _ => match d with DCounter n | DSample n _ | DHist n _ | DTimer n _ _ => Some (Ok (RZ n)) | DMeter s => Some (Ok (RZ (s_count s))) | _ => None end
  | OValue _ => match d with DGauge n => Some (Ok (RZ n)) | DGaugeF x => Some (Ok (RF x)) | _ => None end
  | OStat _ s => option_map (fun xs => Ok (stat_of s xs)) (dist d)
  | OPercentile _ p => option_map (fun xs => res_map RF (res_bind (snd (SamplePercentiles xs [p])) (fun l => sget l 0))) (dist d)
  | OPercentiles _ ps => option_map (fun xs => res_map RFs (snd (SamplePercentiles xs ps))) (dist d)
  | OSize _ => match d with DSample _ xs => Some (Ok (RZ (slen xs))) | _ => None end
  | ORate _ => match d with DEwma x => Some (Ok (RF x)) | _ => None end
  | OMRate _ k => match d with DMeter s | DTimer _ _ s => Some (Ok (RF (float64frombits (rate_bits k s)))) | _ => None end
  | _ => None
  end.
Section Exp.
Variable mexp : f64 -> f64.

Ltac opt H := repeat match type of H with
  | context [match nth_error ?h ?l with _ => _ end] => let E := fresh "E" in destruct (nth_error h l) as [[]|] eqn:E; cbn in H; try discriminate
  | context [arrdata ?h ?l] => unfold arrdata in H; cbn in H
  end.
Lemma stat_nil s : stat_zero s = stat_of s [].
Proof. destruct s; reflexivity. Qed.
Lemma zeros_eq ps : snd (SamplePercentiles [] ps) = Ok (map (fun _ => f_zero) ps).
Proof. reflexivity. Qed.
Lemma r_arr a o w xs : arrdata (heap w) a = Some xs -> arr_get a o w = (w, Ok xs).
Proof. unfold arrdata, arr_get, bind, load. destruct (nth_error _ _) as [[]|]; try discriminate. intros H; inversion H. reflexivity. Qed.
Lemma r_contents v o w c xs : sdata (heap w) v = Some (c, xs) -> sample_contents v o w = (w, Ok xs).
Proof.
  destruct v; cbn [sdata sample_contents]; try discriminate; unfold uni_get, exp_get, ssnap_get, bind, load.
  - destruct (nth_error _ _) as [[]|]; try discriminate. cbn [ret]. destruct (arrdata _ _) eqn:A; [|discriminate]. intros H; inversion H; subst. apply r_arr; auto.
  - destruct (nth_error _ _) as [[]|]; try discriminate. cbn [ret]. intros H; inversion H; subst. reflexivity.
  - destruct (nth_error _ _) as [[]|]; try discriminate. cbn [ret]. destruct (arrdata _ _) eqn:A; [|discriminate]. intros H; inversion H; subst. apply r_arr; auto.
  - intros H; inversion H; subst. reflexivity.
Qed.
Lemma r_count v o w c xs : sdata (heap w) v = Some (c, xs) -> sample_count v o w = (w, Ok c).
Proof.
  destruct v; cbn [sdata sample_count]; try discriminate; unfold uni_get, exp_get, ssnap_get, bind, load;
    try (destruct (nth_error _ _) as [[]|]; try discriminate); cbn [ret]; try (destruct (arrdata _ _); [|discriminate]);
    intros H; inversion H; subst; reflexivity.
Qed.
Lemma r_stat s v o w c xs : sdata (heap w) v = Some (c, xs) -> sample_stat s v o w = (w, Ok (stat_of s xs)).
Proof.
  intros H. pose proof (r_contents _ o _ _ _ H) as R.
  destruct v; try discriminate; cbn [sample_stat]; try (unfold bind; rewrite R; reflexivity).
  inversion H; subst. rewrite stat_nil. reflexivity.
Qed.
Lemma r_percentiles ps v o w c xs : sdata (heap w) v = Some (c, xs) -> snd (sample_percentiles ps v o w) = snd (SamplePercentiles xs ps).
Proof.
  destruct v; cbn [sdata sample_percentiles]; try discriminate; unfold uni_get, exp_get, ssnap_get, bind, load.
  - destruct (nth_error _ _) as [[]|]; try discriminate. cbn [ret]. destruct (arrdata _ _) eqn:A; [|discriminate]. intros H; inversion H; subst.
    unfold arr_get, bind, load, arrdata in *. destruct (nth_error _ arr) as [[]|]; try discriminate. inversion A; subst. cbn [ret].
    destruct (SamplePercentiles xs ps). reflexivity.
  - destruct (nth_error _ _) as [[]|]; try discriminate. cbn [ret]. intros H; inversion H; subst. reflexivity.
  - destruct (nth_error _ _) as [[]|]; try discriminate. cbn [ret]. destruct (arrdata _ _) eqn:A; [|discriminate]. intros H; inversion H; subst.
    unfold arr_get, bind, load, arrdata in *. destruct (nth_error _ arr) as [[]|]; try discriminate. inversion A; subst. cbn [ret].
    destruct (SamplePercentiles xs ps). reflexivity.
  - intros H; inversion H; subst. rewrite zeros_eq. reflexivity.
Qed.
Lemma r_hist_sample v o w c xs : hdata (heap w) v = Some (c, xs) -> exists s, hist_sample v o w = (w, Ok s) /\ sdata (heap w) s = Some (c, xs).
Proof.
  destruct v; cbn [hdata hist_sample]; try discriminate; unfold bind, load; try (destruct (nth_error _ _) as [[]|]; try discriminate);
    intros H; eexists; (split; [reflexivity|auto]).
Qed.
Lemma r_hist_count v o w c xs : hdata (heap w) v = Some (c, xs) -> hist_count v o w = (w, Ok c).
Proof. intros H. destruct (r_hist_sample _ o _ _ _ H) as (s & E & D). unfold hist_count, bind. rewrite E. eapply r_count; eauto. Qed.
Lemma r_hist_stat s v o w c xs : hdata (heap w) v = Some (c, xs) -> hist_stat s v o w = (w, Ok (stat_of s xs)).
Proof. intros H. destruct (r_hist_sample _ o _ _ _ H) as (sm & E & D). unfold hist_stat, bind. rewrite E. eapply r_stat; eauto. Qed.
Lemma r_hist_percentiles ps v o w c xs : hdata (heap w) v = Some (c, xs) -> snd (hist_percentiles ps v o w) = snd (SamplePercentiles xs ps).
Proof. intros H. destruct (r_hist_sample _ o _ _ _ H) as (sm & E & D). unfold hist_percentiles, bind. rewrite E. eapply r_percentiles; eauto. Qed.
Lemma r_msnap l o w s : msdata (heap w) l = Some s -> msnap_get l o w = (w, Ok s).
Proof. unfold msdata, msnap_get, bind, load. destruct (nth_error _ _) as [[]|]; try discriminate. intros H; inversion H. reflexivity. Qed.
Lemma r_meter_view v o w s : mdata (heap w) v = Some s -> meter_view v o w = (w, Ok s).
Proof.
  destruct v; cbn [mdata meter_view]; try discriminate.
  - unfold meter_get, bind, load. destruct (nth_error _ _) as [[]|]; try discriminate. cbn [ret mo_snap]. apply r_msnap.
  - apply r_msnap.
  - intros H; inversion H; reflexivity.
Qed.
Lemma r_meter_count v o w s : mdata (heap w) v = Some s -> meter_count v o w = (w, Ok (s_count s)).
Proof. intros H. unfold meter_count, bind. now rewrite (r_meter_view _ _ _ _ H). Qed.
Lemma r_meter_rate k v o w s : mdata (heap w) v = Some s -> meter_rate k v o w = (w, Ok (float64frombits (rate_bits k s))).
Proof. intros H. unfold meter_rate, bind. now rewrite (r_meter_view _ _ _ _ H). Qed.
Lemma r_timer_get v o w c xs s : tdata (heap w) v = Some (c, xs, s) -> exists hi m, timer_get v o w = (w, Ok (hi, m)) /\
  hdata (heap w) hi = Some (c, xs) /\ mdata (heap w) m = Some s.
Proof.
  destruct v; cbn [tdata timer_get]; try discriminate; unfold bind, load; try (destruct (nth_error _ _) as [[]|]; try discriminate).
  - destruct (hdata _ h) as [[]|] eqn:A; [|discriminate]. destruct (mdata _ m) eqn:B; [|discriminate]. cbn. intros H; inversion H; subst. eexists _, _. split; [reflexivity|auto].
  - destruct (hdata _ _) as [[]|] eqn:A; [|discriminate]. destruct (mdata _ _) eqn:B; [|discriminate]. cbn. intros H; inversion H; subst. eexists _, _. split; [reflexivity|auto].
  - intros H; inversion H; subst. eexists _, _. split; [reflexivity|auto].
Qed.
Lemma r_ewma v o w d : vdata o (heap w) (VEwma v) = Some (DEwma d) -> snd (ewma_do v WRate o w) = Ok d /\ snd (ewma_do v WSnapshot o w) = Ok d.
Proof.
  cbn [vdata]. unfold ewma_do, bind, load. destruct (nth_error _ _) as [[]|]; try discriminate. intros H; inversion H; subst.
  rewrite rate_seq, snapshot_seq. split; reflexivity.
Qed.

Lemma snd_step (st : state) c o m : call mexp (snd st) c = Some m -> snd (step mexp st (c, o)) = Some (snd (m o (fst st))).
Proof. intros H. unfold step. cbn [fst snd]. rewrite H. destruct (m o (fst st)) as [w [r|msg]]; reflexivity. Qed.
Lemma read_ok (st : state) c o x v d : reads c = Some x -> nth_error (snd st) x = Some v -> vdata o (heap (fst st)) v = Some d ->
  snd (step mexp st (c, o)) = read_data c d.
Proof.
  intros R E D. destruct st as [w e]. cbn [fst snd] in *.
  assert (HS : match v with VUniform _ | VExp _ | VSampleSnap _ | VNilSample => exists n xs, sdata (heap w) v = Some (n, xs) /\ d = DSample n xs | _ => True end).
  { destruct v; auto; unfold vdata in D; (destruct (sdata _ _) as [[n xs]|]; [|discriminate]); inversion D; eauto. }
  assert (HH : match v with VHist _ | VHistSnap _ | VNilHist => exists n xs, hdata (heap w) v = Some (n, xs) /\ d = DHist n xs | _ => True end).
  { destruct v; auto; unfold vdata in D; (destruct (hdata _ _) as [[n xs]|]; [|discriminate]); inversion D; eauto. }
  assert (HM : match v with VMeter _ | VMeterSnap _ | VNilMeter => exists s, mdata (heap w) v = Some s /\ d = DMeter s | _ => True end).
  { destruct v; auto; unfold vdata in D; (destruct (mdata _ _) as [s|]; [|discriminate]); inversion D; eauto. }
  assert (HT : match v with VTimer _ | VTimerSnap _ | VNilTimer => exists n xs s hi m, timer_get v o w = (w, Ok (hi, m)) /\
     hdata (heap w) hi = Some (n, xs) /\ mdata (heap w) m = Some s /\ d = DTimer n xs s | _ => True end).
  { destruct v; auto; unfold vdata in D; (destruct (tdata _ _) as [[[n xs] s]|] eqn:T; [|discriminate]);
      destruct (r_timer_get _ o _ _ _ _ T) as (hi & m & A & B & C); inversion D; subst; exists n, xs, s, hi, m; auto. }
  destruct c; cbn in R; try discriminate; inversion R; subst; unfold step; cbn [fst snd call]; rewrite E; cbn [obind]; clear E R.
  - (* Count *) unfold m_count. destruct v; cbn [cls] in *; try (cbn in D; inversion D; reflexivity); unfold z_rv.
    + cbn [vdata] in D. cbn [counter_count]. unfold c_do, c_load, bind, load. destruct (nth_error _ _) as [[]|]; try discriminate. inversion D. reflexivity.
    + cbn [vdata] in D. destruct (nth_error _ _) as [[]|]; inversion D; reflexivity.
    + cbn [vdata] in D. destruct (nth_error _ _) as [[]|]; inversion D; reflexivity.
    + destruct HS as (n & xs & A & ->). unfold bind. now rewrite (r_count _ o _ _ _ A).
    + destruct HS as (n & xs & A & ->). unfold bind. now rewrite (r_count _ o _ _ _ A).
    + destruct HS as (n & xs & A & ->). unfold bind. now rewrite (r_count _ o _ _ _ A).
    + destruct HH as (n & xs & A & ->). unfold bind. now rewrite (r_hist_count _ o _ _ _ A).
    + destruct HH as (n & xs & A & ->). unfold bind. now rewrite (r_hist_count _ o _ _ _ A).
    + cbn [vdata] in D. destruct (nth_error _ _) as [[]|]; inversion D; reflexivity.
    + destruct HM as (s & A & ->). unfold bind. now rewrite (r_meter_count _ o _ _ A).
    + destruct HM as (s & A & ->). unfold bind. now rewrite (r_meter_count _ o _ _ A).
    + destruct HT as (n & xs & s & hi & m & T & A & B & ->). unfold timer_count, bind. rewrite T. now rewrite (r_hist_count _ o _ _ _ A).
    + destruct HT as (n & xs & s & hi & m & T & A & B & ->). unfold timer_count, bind. rewrite T. now rewrite (r_hist_count _ o _ _ _ A).
  - (* Value *) unfold m_value. destruct v; cbn [cls] in *; try (cbn in D; inversion D; reflexivity); unfold z_rv, f_rv.
    + cbn [vdata] in D. destruct (nth_error _ _) as [[]|]; inversion D; reflexivity.
    + cbn [vdata] in D. cbn [gauge_value]. unfold g_do, bind, load. destruct (nth_error _ _) as [[]|]; try discriminate. inversion D. reflexivity.
    + cbn [vdata] in D. cbn [gaugef_value]. unfold gf_do, bind, load. destruct (nth_error _ _) as [[]|]; try discriminate. inversion D. reflexivity.
    + destruct HS as (n & xs & A & ->). reflexivity.
    + destruct HS as (n & xs & A & ->). reflexivity.
    + destruct HS as (n & xs & A & ->). reflexivity.
    + destruct HH as (n & xs & A & ->). reflexivity.
    + destruct HH as (n & xs & A & ->). reflexivity.
    + cbn [vdata] in D. destruct (nth_error _ _) as [[]|]; inversion D; reflexivity.
    + destruct HM as (s & A & ->). reflexivity.
    + destruct HM as (s & A & ->). reflexivity.
    + destruct HT as (n & xs & s & hi & m & T & A & B & ->). reflexivity.
    + destruct HT as (n & xs & s & hi & m & T & A & B & ->). reflexivity.
  - (* Stat *) unfold m_stat. destruct v; cbn [cls] in *;
      try (destruct HS as (n & xs & A & ->); rewrite (r_stat s _ o _ _ _ A); destruct s; reflexivity);
      try (destruct HH as (n & xs & A & ->); rewrite (r_hist_stat s _ o _ _ _ A); destruct s; reflexivity);
      try (destruct HT as (n & xs & sn & hi & m & T & A & B & ->); unfold timer_stat, bind; rewrite T; rewrite (r_hist_stat s _ o _ _ _ A); destruct s; reflexivity);
      try (cbn in D; inversion D; reflexivity);
      try (destruct HM as (sn & A & ->); reflexivity);
      cbn [vdata] in D; (destruct (nth_error _ _) as [[]|]; inversion D; reflexivity).
  - (* Percentile *) unfold m_percentiles.
    assert (G : forall mm xs, snd (mm o w) = snd (SamplePercentiles xs [p]) ->
      snd (match f_rv (bind mm first_score) o w with (w0, Ok r) => (w0, e ++ yields r, Some (Ok r)) | (w0, Panic msg) => (w0, e, Some (Panic msg)) end) =
      option_map (fun xs => res_map RF (res_bind (snd (SamplePercentiles xs [p])) (fun l => sget l 0))) (Some xs)).
    { intros mm xs H. unfold f_rv, bind, first_score, lift. destruct (mm o w) as [w' r]. cbn [snd] in H. subst r. cbn [option_map].
      destruct (snd (SamplePercentiles xs [p])) as [l|msg]; cbn; auto. destruct (sget l 0); reflexivity. }
    destruct v; cbn [cls obind] in *;
      try (destruct HS as (n & xs & A & ->); exact (G _ _ (r_percentiles [p] _ o _ _ _ A)));
      try (destruct HH as (n & xs & A & ->); exact (G _ _ (r_hist_percentiles [p] _ o _ _ _ A)));
      try (destruct HT as (n & xs & sn & hi & m & T & A & B & ->); apply G; unfold timer_percentiles, bind; rewrite T; exact (r_hist_percentiles [p] _ o _ _ _ A));
      try (cbn in D; inversion D; reflexivity);
      try (destruct HM as (sn & A & ->); reflexivity);
      cbn [vdata] in D; (destruct (nth_error _ _) as [[]|]; inversion D; reflexivity).
  - (* Percentiles *) unfold m_percentiles.
    assert (G : forall mm xs, snd (mm o w) = snd (SamplePercentiles xs ps) ->
      snd (match bind mm (fun l => ret (RFs l)) o w with (w0, Ok r) => (w0, e ++ yields r, Some (Ok r)) | (w0, Panic msg) => (w0, e, Some (Panic msg)) end) =
      option_map (fun xs => res_map RFs (snd (SamplePercentiles xs ps))) (Some xs)).
    { intros mm xs H. unfold bind. destruct (mm o w) as [w' r]. cbn [snd] in H. subst r. cbn [option_map].
      destruct (snd (SamplePercentiles xs ps)) as [l|msg]; reflexivity. }
    destruct v; cbn [cls obind] in *;
      try (destruct HS as (n & xs & A & ->); exact (G _ _ (r_percentiles ps _ o _ _ _ A)));
      try (destruct HH as (n & xs & A & ->); exact (G _ _ (r_hist_percentiles ps _ o _ _ _ A)));
      try (destruct HT as (n & xs & sn & hi & m & T & A & B & ->); apply G; unfold timer_percentiles, bind; rewrite T; exact (r_hist_percentiles ps _ o _ _ _ A));
      try (cbn in D; inversion D; reflexivity);
      try (destruct HM as (sn & A & ->); reflexivity);
      cbn [vdata] in D; (destruct (nth_error _ _) as [[]|]; inversion D; reflexivity).
  - (* Size *) unfold only. destruct v; cbn [cls class_eqb] in *;
      try (destruct HS as (n & xs & A & ->); unfold z_rv, sample_size, bind; rewrite (r_contents _ o _ _ _ A); reflexivity);
      try (destruct HH as (n & xs & A & ->); reflexivity);
      try (destruct HT as (n & xs & sn & hi & m & T & A & B & ->); reflexivity);
      try (cbn in D; inversion D; reflexivity);
      try (destruct HM as (sn & A & ->); reflexivity);
      cbn [vdata] in D; (destruct (nth_error _ _) as [[]|]; inversion D; reflexivity).
  - (* Rate *) unfold only. destruct v; cbn [cls class_eqb] in *;
      try (destruct HS as (n & xs & A & ->); reflexivity);
      try (destruct HH as (n & xs & A & ->); reflexivity);
      try (destruct HT as (n & xs & sn & hi & m & T & A & B & ->); reflexivity);
      try (cbn in D; inversion D; reflexivity);
      try (destruct HM as (sn & A & ->); reflexivity);
      try (cbn [vdata] in D; (destruct (nth_error _ _) as [[]|]; inversion D; reflexivity)).
    cbn [vdata] in D. unfold f_rv, ewma_rate, ewma_do, bind, load. destruct (nth_error _ _) as [[]|]; inversion D; subst. now rewrite rate_seq.
  - (* MRate *) destruct v; cbn [cls] in *;
      try (destruct HS as (n & xs & A & ->); reflexivity);
      try (destruct HH as (n & xs & A & ->); reflexivity);
      try (destruct HT as (n & xs & sn & hi & m & T & A & B & ->); unfold f_rv, timer_rate, bind; rewrite T; rewrite (r_meter_rate k _ o _ _ B); reflexivity);
      try (destruct HM as (sn & A & ->); unfold f_rv, bind; rewrite (r_meter_rate k _ o _ _ A); reflexivity);
      try (cbn in D; inversion D; reflexivity);
      cbn [vdata] in D; (destruct (nth_error _ _) as [[]|]; inversion D; reflexivity).
Qed.

(** ** in well-formed worlds, the contents are there *)
Lemma sdata_ok w v : wf w -> cls v = CSample -> vok (heap w) v -> exists n xs, sdata (heap w) v = Some (n, xs).
Proof.
  intros W C V. destruct v; cbn in C, V; try discriminate; cbn [sdata].
  - destruct V as (x & E & T). rewrite E. destruct x; cbn in T; try discriminate. destruct (wf_obj w W _ _ E) as [(y & E' & T') _].
    unfold arrdata. rewrite E'. destruct y; cbn in T'; try discriminate. cbn. eauto.
  - destruct V as (x & E & T). rewrite E. destruct x; cbn in T; try discriminate. eauto.
  - destruct V as (x & E & T). rewrite E. destruct x; cbn in T; try discriminate. destruct (wf_obj w W _ _ E) as (y & E' & T').
    unfold arrdata. rewrite E'. destruct y; cbn in T'; try discriminate. cbn. eauto.
  - eauto.
Qed.
Lemma hdata_ok w v : wf w -> cls v = CHist -> vok (heap w) v -> exists n xs, hdata (heap w) v = Some (n, xs).
Proof.
  intros W C V. destruct v; cbn in C, V; try discriminate; cbn [hdata].
  - destruct V as (x & E & T). rewrite E. destruct x; cbn in T; try discriminate. destruct (wf_obj w W _ _ E) as [A B]. apply sdata_ok; auto.
  - destruct V as (x & E & T). rewrite E. destruct x; cbn in T; try discriminate. apply sdata_ok; auto. apply (wf_obj w W _ _ E).
  - eauto.
Qed.
Lemma msdata_ok w l : tagat (heap w) l TMeterSnap -> exists s, msdata (heap w) l = Some s.
Proof. intros (x & E & T). unfold msdata. rewrite E. destruct x; cbn in T; try discriminate. eauto. Qed.
Lemma mdata_ok w v : wf w -> cls v = CMeter -> vok (heap w) v -> exists s, mdata (heap w) v = Some s.
Proof.
  intros W C V. destruct v; cbn in C, V; try discriminate; cbn [mdata].
  - destruct V as (x & E & T). rewrite E. destruct x; cbn in T; try discriminate. apply msdata_ok. apply (wf_obj w W _ _ E).
  - apply msdata_ok. apply V.
  - eauto.
Qed.
Lemma tdata_ok w v : wf w -> cls v = CTimer -> vok (heap w) v -> exists n xs s, tdata (heap w) v = Some (n, xs, s).
Proof.
  intros W C V. destruct v; cbn in C, V; try discriminate; cbn [tdata].
  - destruct V as (x & E & T). rewrite E. destruct x; cbn in T; try discriminate. destruct (wf_obj w W _ _ E) as [[A1 A2] [B1 B2]].
    destruct (hdata_ok w h W A1 A2) as (n & xs & A). destruct (mdata_ok w m W B1 B2) as (s & B). rewrite A, B. cbn. eauto.
  - destruct V as (x & E & T). rewrite E. destruct x; cbn in T; try discriminate. destruct (wf_obj w W _ _ E) as [A2 B2].
    destruct (hdata_ok w (VHistSnap h) W eq_refl A2) as (n & xs & A). destruct (mdata_ok w (VMeterSnap m) W eq_refl B2) as (s & B). rewrite A, B. cbn. eauto.
  - eauto.
Qed.
Definition readable (v : val) : bool :=
  match cls v with CCounter | CGauge | CGaugeF | CSample | CHist | CEwma | CMeter | CTimer => true | _ => false end.
Lemma vdata_ok o w v : wf w -> vok (heap w) v -> readable v = true -> exists d, vdata o (heap w) v = Some d.
Proof.
  intros W V R. unfold readable in R. destruct (cls v) eqn:C; try discriminate;
    try (destruct (sdata_ok w v W C V) as (n & xs & D); destruct v; try discriminate; unfold vdata; rewrite D; cbn; eauto; fail);
    try (destruct (hdata_ok w v W C V) as (n & xs & D); destruct v; try discriminate; unfold vdata; rewrite D; cbn; eauto; fail);
    try (destruct (mdata_ok w v W C V) as (s & D); destruct v; try discriminate; unfold vdata; rewrite D; cbn; eauto; fail);
    try (destruct (tdata_ok w v W C V) as (n & xs & s & D); destruct v; try discriminate; unfold vdata; rewrite D; cbn; eauto; fail);
    (destruct v; cbn in C, V; try discriminate; cbn [vdata]; eauto; destruct V as (x & E & T); rewrite E; destruct x; cbn in T; try discriminate; eauto).
Qed.
Lemma read_none (st : state) c o x v : reads c = Some x -> nth_error (snd st) x = Some v -> readable v = false -> snd (step mexp st (c, o)) = None.
Proof.
  intros R E B. unfold step. cbn [fst snd]. destruct c; cbn in R; try discriminate; inversion R; subst; cbn [call]; rewrite E; cbn [obind];
    destruct v; cbn in B; try discriminate; reflexivity.
Qed.

(** ** equal up to the order of the sample *)
Definition deq (d d' : data) : Prop :=
  match d, d' with
  | DSample n xs, DSample n' xs' | DHist n xs, DHist n' xs' => n = n' /\ Permutation xs xs'
  | DTimer n xs s, DTimer n' xs' s' => n = n' /\ Permutation xs xs' /\ s = s'
  | _, _ => d = d'
  end.
Lemma read_deq c d d' : order_free c = true -> deq d d' -> read_data c d = read_data c d'.
Proof.
  intros O Q.
  assert (S : forall s xs ys, Permutation xs ys -> match s with SVariance | SStdDev => False | _ => True end -> stat_of s xs = stat_of s ys).
  { intros s xs ys P N. destruct s; cbn; try contradiction; f_equal; auto using SampleMax_perm, SampleMin_perm, SampleSum_perm, SampleMean_perm. }
  assert (L : forall xs ys : list Z, Permutation xs ys -> slen xs = slen ys) by (intros; unfold slen; f_equal; now apply Permutation_length).
  destruct d, d'; cbn in Q; try discriminate; try (inversion Q; subst; reflexivity).
  all: repeat match goal with H : _ /\ _ |- _ => destruct H end; subst; destruct c; cbn [read_data dist option_map]; auto;
    try (erewrite S; eauto; destruct s; auto; discriminate); try (erewrite S; eauto; destruct s0; auto; discriminate);
    try (erewrite SamplePercentiles_perm; eauto); try (erewrite L; eauto).
Qed.
Lemma same_ssnap_data h h' l : same_ssnap h h' l -> exists n xs ys, sdata h (VSampleSnap l) = Some (n, xs) /\ sdata h' (VSampleSnap l) = Some (n, ys) /\ Permutation xs ys.
Proof.
  intros (c & a & xs & ys & A1 & A2 & A3 & A4 & P). exists c, xs, ys. cbn [sdata]. unfold arrdata. rewrite A1, A2, A3, A4. cbn. auto.
Qed.
Lemma same_hsnap_data h h' l : same_hsnap h h' l -> exists n xs ys, hdata h (VHistSnap l) = Some (n, xs) /\ hdata h' (VHistSnap l) = Some (n, ys) /\ Permutation xs ys.
Proof.
  intros (s & A1 & A2 & S). destruct (same_ssnap_data _ _ _ S) as (n & xs & ys & B1 & B2 & P). exists n, xs, ys.
  unfold hdata. rewrite A1, A2. auto.
Qed.
Lemma same_msnap_data h h' l : same_msnap h h' l -> exists s, msdata h l = Some s /\ msdata h' l = Some s.
Proof. intros (c & a & b & d & m & A & B). unfold msdata. rewrite A, B. eauto. Qed.
Definition is_snap (v : val) : bool := is_snapshot v || is_stub v && negb (match v with VNilHealth => true | _ => false end).
Lemma same_snap_data o o' h h' v : is_snap v = true -> same_snap h h' v -> exists d d', vdata o h v = Some d /\ vdata o' h' v = Some d' /\ deq d d'.
Proof.
  intros S K. destruct v; cbn in S; try discriminate; cbn [same_snap] in K;
    try (cbn; eexists _, _; split; [reflexivity|split; [reflexivity|cbn; auto]]; fail).
  - destruct (same_ssnap_data _ _ _ K) as (n & xs & ys & A & B & P). unfold vdata. rewrite A, B. cbn. eexists _, _. split; [reflexivity|split; [reflexivity|cbn; auto]].
  - destruct (same_hsnap_data _ _ _ K) as (n & xs & ys & A & B & P). unfold vdata. rewrite A, B. cbn. eexists _, _. split; [reflexivity|split; [reflexivity|cbn; auto]].
  - destruct (same_msnap_data _ _ _ K) as (s & A & B). unfold vdata, mdata. rewrite A, B. cbn. eexists _, _. split; [reflexivity|split; [reflexivity|cbn; auto]].
  - destruct K as (hl & ml & A & B & Kh & Km). destruct (same_hsnap_data _ _ _ Kh) as (n & xs & ys & A1 & B1 & P). destruct (same_msnap_data _ _ _ Km) as (s & A2 & B2).
    unfold vdata, tdata. rewrite A, B, A1, B1. unfold mdata. rewrite A2, B2. cbn. eexists _, _. split; [reflexivity|split; [reflexivity|cbn; auto]].
Qed.
End Exp.
