(** Reports read the metrics without changing what their accessors return. *)
From Coq Require Import ZArith List String Bool Lia Permutation Arith.
From Verif.Model Require Import GoInt GoFloat GoBase Stats World Fmt Report.
From Verif.Spec Require Import ApiSpec RegistrySpec HealthSpec GetAllSpec TextSpec ReportSpec.
From Verif.Proofs Require Import SortFacts StatsInt WorldBase WorldOps WorldCalls WorldStep WorldFrame WorldReads WorldSnap RegistryProofs RegistryStep HealthProofs GetAllProofs TextProofs.
From Verif.Props Require Import SnapshotProps HealthProps GetAllProps.
Import ListNotations.
Local Open Scope nat_scope.
Local Open Scope list_scope.

(** ** reading one metric *)
Lemma gm_read_metric health ps v : gm (read_metric health ps v).
Proof. unfold read_metric. destruct (cls v); gms. Qed.
#[export] Hint Resolve gm_read_metric : gm.

Definition reading_of (ps : list f64) (d : data) (rd : reading) : Prop :=
  match d with
  | DCounter n => rd = RdCounter n
  | DGauge n => rd = RdGauge n
  | DGaugeF x => rd = RdGaugeF x
  | DMeter s => rd = RdMeter (s_count s) (float64frombits (s_r1 s)) (float64frombits (s_r5 s)) (float64frombits (s_r15 s)) (float64frombits (s_mean s))
  | DHist c xs => exists q, snd (SamplePercentiles xs ps) = Ok q /\
      rd = RdHist c (SampleMin xs) (SampleMax xs) (SampleMean xs) (SampleStdDev (sortz xs)) q
  | DTimer c xs s => exists q, snd (SamplePercentiles xs ps) = Ok q /\
      rd = RdTimer c (SampleMin xs) (SampleMax xs) (SampleMean xs) (SampleStdDev (sortz xs)) q
        (float64frombits (s_r1 s)) (float64frombits (s_r5 s)) (float64frombits (s_r15 s)) (float64frombits (s_mean s))
  | _ => False
  end.
Lemma stat_min xs : rv_z (stat_of SMin (sortz xs)) = SampleMin xs. Proof. rewrite (stat_sorted SMin) by exact I. reflexivity. Qed.
Lemma stat_max xs : rv_z (stat_of SMax (sortz xs)) = SampleMax xs. Proof. rewrite (stat_sorted SMax) by exact I. reflexivity. Qed.
Lemma stat_mean xs : rv_f (stat_of SMean (sortz xs)) = SampleMean xs. Proof. rewrite (stat_sorted SMean) by exact I. reflexivity. Qed.

Lemma hist_reading health ps v o w c xs : hdata (heap w) v = Some (c, xs) -> cls v = CHist -> forall w' r, read_metric health ps v o w = (w', Ok r) ->
  exists rd, r = Some rd /\ reading_of ps (DHist c xs) rd /\ snappable (heap w) v.
Proof.
  intros D C w' r H. unfold read_metric in H. rewrite C in H. pose proof (hist_snappable v o w c xs D) as Sn.
  destruct (hist_snapshot_ok v o w c xs D) as [(x & s & E & D1 & K)|(x & E)]; [rewrite (bind_ok _ _ _ _ _ _ E) in H|rewrite (bind_panic _ _ _ _ _ _ E) in H; discriminate].
  assert (Ks : match s with VHistSnap _ | VNilHist => True | _ => False end). { destruct v; try discriminate; [destruct K as (l' & k & -> & _)|subst|subst]; exact I. }
  destruct (hist_read ps s o (set_heap (heap w ++ x) w) c xs Ks D1) as (w2 & P & D2 & _).
  destruct (snd (SamplePercentiles xs ps)) as [q|msg] eqn:Ep; [rewrite (bind_ok _ _ _ _ _ _ P) in H|rewrite (bind_panic _ _ _ _ _ _ P) in H; discriminate].
  rewrite (bind_ok _ _ _ _ _ _ (r_hist_count s o w2 _ _ D2)) in H.
  do 4 (rewrite (bind_ok _ _ _ _ _ _ (r_hist_stat _ s o w2 _ _ D2)) in H). unfold ret in H. apply pair_ok in H. subst r.
  rewrite stat_min, stat_max, stat_mean. eexists. split; [reflexivity|]. split; [exists q; split; [exact Ep|reflexivity]|]. apply Sn. eauto.
Qed.
Lemma meter_reading health ps v o w s : mdata (heap w) v = Some s -> cls v = CMeter -> forall w' r, read_metric health ps v o w = (w', Ok r) ->
  exists rd, r = Some rd /\ reading_of ps (DMeter s) rd.
Proof.
  intros D C w' r H. unfold read_metric in H. rewrite C in H.
  destruct (meter_snapshot_ok v o w s D) as (x & k & E & D1 & K). rewrite (bind_ok _ _ _ _ _ _ E) in H.
  set (w1 := set_heap (heap w ++ x) w) in *. change (heap w ++ x) with (heap w1) in D1.
  rewrite (bind_ok _ _ _ _ _ _ (r_meter_count k o w1 _ D1)) in H.
  do 4 (rewrite (bind_ok _ _ _ _ _ _ (r_meter_rate _ k o w1 _ D1)) in H). unfold ret in H. apply pair_ok in H. subst r. eexists. split; reflexivity.
Qed.
Lemma timer_reading health ps v o w c xs s : tdata (heap w) v = Some (c, xs, s) -> cls v = CTimer -> forall w' r, read_metric health ps v o w = (w', Ok r) ->
  exists rd, r = Some rd /\ reading_of ps (DTimer c xs s) rd /\ snappable (heap w) v.
Proof.
  intros D C w' r H. unfold read_metric in H. rewrite C in H. pose proof (timer_snappable v o w c xs s D) as Sn.
  destruct (timer_snapshot_ok v o w c xs s D) as [(x & t & E & D1 & K)|(x & E)]; [rewrite (bind_ok _ _ _ _ _ _ E) in H|rewrite (bind_panic _ _ _ _ _ _ E) in H; discriminate].
  assert (Kt : match t with VTimerSnap _ | VNilTimer => True | _ => False end). { destruct v; try discriminate; [destruct K as (l' & hl & ml & k & -> & _)|subst|subst]; exact I. }
  set (w1 := set_heap (heap w ++ x) w) in *. change (heap w ++ x) with (heap w1) in D1.
  destruct (timer_read ps t o w1 c xs s Kt D1) as (w2 & P & D2).
  destruct (snd (SamplePercentiles xs ps)) as [q|msg] eqn:Ep; [rewrite (bind_ok _ _ _ _ _ _ P) in H|rewrite (bind_panic _ _ _ _ _ _ P) in H; discriminate].
  rewrite (bind_ok _ _ _ _ _ _ (r_timer_count t o w2 _ _ _ D2)) in H. do 4 (rewrite (bind_ok _ _ _ _ _ _ (r_timer_stat _ t o w2 _ _ _ D2)) in H). do 4 (rewrite (bind_ok _ _ _ _ _ _ (r_timer_rate _ t o w2 _ _ _ D2)) in H). unfold ret in H. apply pair_ok in H. subst r.
  rewrite stat_min, stat_max, stat_mean. eexists. split; [reflexivity|]. split; [exists q; split; [exact Ep|reflexivity]|]. apply Sn. eauto.
Qed.
Lemma one_reading health ps v o w d : vdata o (heap w) v = Some d -> is_metric v = true -> forall w' r, read_metric health ps v o w = (w', Ok r) ->
  exists rd, r = Some rd /\ reading_of ps d rd /\ snappable (heap w) v.
Proof.
  intros D Mt w' r H. destruct v; cbn [vdata] in *; try discriminate.
  - destruct (nth_error (heap w) l) as [[]|] eqn:E; try discriminate. injection D as <-. unfold read_metric in H. cbn [cls counter_count] in H. unfold c_do, c_load, bind, load in H. rewrite E in H. cbn in H. injection H as _ <-. eexists; repeat split.
  - injection D as <-. cbn in H. injection H as _ <-. eexists; repeat split.
  - injection D as <-. cbn in H. injection H as _ <-. eexists; repeat split.
  - destruct (nth_error (heap w) l) as [[]|] eqn:E; try discriminate. injection D as <-. unfold read_metric in H. cbn [cls gauge_value] in H. unfold g_do, bind, load in H. rewrite E in H. cbn in H. injection H as _ <-. eexists; repeat split.
  - injection D as <-. cbn in H. injection H as _ <-. eexists; repeat split.
  - injection D as <-. cbn in H. injection H as _ <-. eexists; repeat split.
  - injection D as <-. cbn in H. injection H as _ <-. eexists; repeat split.
  - destruct (nth_error (heap w) l) as [[]|] eqn:E; try discriminate. injection D as <-. unfold read_metric in H. cbn [cls gaugef_value] in H. unfold gf_do, bind, load in H. rewrite E in H. unfold store, ret in H. injection H as _ <-. eexists; repeat split.
  - injection D as <-. unfold read_metric in H. cbn [cls gaugef_value] in H. unfold bind, ret in H. injection H as _ <-. eexists; repeat split.
  - injection D as <-. unfold read_metric in H. cbn [cls gaugef_value] in H. unfold bind, ask, ret in H. injection H as _ <-. eexists; repeat split.
  - injection D as <-. unfold read_metric in H. cbn [cls gaugef_value] in H. unfold bind, ret in H. injection H as _ <-. eexists; repeat split.
  - destruct (hdata (heap w) (VHist l)) as [[c xs]|] eqn:E; [|discriminate]. cbn in D. injection D as <-. eapply hist_reading; eauto.
  - destruct (hdata (heap w) (VHistSnap l)) as [[c xs]|] eqn:E; [|discriminate]. cbn in D. injection D as <-. eapply hist_reading; eauto.
  - cbn [hdata option_map fst snd] in D. injection D as <-. eapply hist_reading; eauto; reflexivity.
  - destruct (mdata (heap w) (VMeter l)) as [s|] eqn:E; [|discriminate]. cbn in D. injection D as <-. destruct (meter_reading health ps (VMeter l) o w s E eq_refl w' r H) as (rd & A & B). exists rd. split; [exact A|]. split; [exact B|exact Logic.I].
  - destruct (mdata (heap w) (VMeterSnap l)) as [s|] eqn:E; [|discriminate]. cbn in D. injection D as <-. destruct (meter_reading health ps (VMeterSnap l) o w s E eq_refl w' r H) as (rd & A & B). exists rd. split; [exact A|]. split; [exact B|exact Logic.I].
  - cbn [mdata option_map] in D. injection D as <-. destruct (meter_reading health ps VNilMeter o w _ eq_refl eq_refl w' r H) as (rd & A & B). exists rd. split; [exact A|]. split; [exact B|exact Logic.I].
  - destruct (tdata (heap w) (VTimer l)) as [[[c xs] s]|] eqn:E; [|discriminate]. cbn in D. injection D as <-. eapply timer_reading; eauto.
  - destruct (tdata (heap w) (VTimerSnap l)) as [[[c xs] s]|] eqn:E; [|discriminate]. cbn in D. injection D as <-. eapply timer_reading; eauto.
  - cbn [tdata option_map fst snd] in D. injection D as <-. eapply timer_reading; eauto; reflexivity.
Qed.
Lemma gentle_snappable_back h h' v : gentle h h' -> vok h v -> (forall k hi m, nth_error h k = Some (OTimer hi m) -> vok h hi) -> snappable h' v -> snappable h v.
Proof.
  intros G V T. destruct v; cbn [snappable vok] in *; auto.
  - destruct V as (z & E & Tg). destruct z; cbn in Tg; try discriminate. intros (s' & E' & N). pose proof (gentle_obj _ _ _ _ G E) as K. cbn in K. rewrite K in E'. injection E' as <-. eauto.
  - destruct V as (z & E & Tg). destruct z; cbn in Tg; try discriminate. intros (hi & m' & E' & N1 & N2 & K). pose proof (gentle_obj _ _ _ _ G E) as Q. cbn in Q. rewrite Q in E'. injection E' as <- <-.
    exists h0, m. repeat match goal with |- _ /\ _ => split end; auto. specialize (T _ _ _ E). destruct h0; auto. destruct K as (s & E2 & N). destruct T as (z & Ez & Tz). destruct z; cbn in Tz; try discriminate.
    pose proof (gentle_obj _ _ _ _ G Ez) as Q2. cbn in Q2. rewrite Q2 in E2. injection E2 as <-. eauto.
Qed.

(** ** one metric after another *)
Lemma forall2_impl {A B} (R S : A -> B -> Prop) l m : (forall a b, R a b -> S a b) -> Forall2 R l m -> Forall2 S l m.
Proof. intros H. induction 1; constructor; auto. Qed.
Lemma each_steps {A} health ps (render : string -> reading -> res (list A)) o es : forall w w' out, report_each health ps render es o w = (w', Ok out) ->
  gentle (heap w) (heap w') /\
  exists outs, out = List.concat outs /\ Forall2 (fun kv a => exists w1 w2 r, gentle (heap w) (heap w1) /\ read_metric health ps (snd kv) o w1 = (w2, Ok r) /\
    match r with Some rd => render (fst kv) rd = Ok a | None => a = [] end) es outs.
Proof.
  induction es as [|[n v] es IH]; intros w w' out H; cbn [report_each] in H; [unfold ret in H; injection H as <- <-; split; [apply gentle_refl|]; exists []; auto|].
  pose proof (gm_read_metric health ps v o w) as G. destruct (read_metric health ps v o w) as [w1 [r|msg]] eqn:E; [rewrite (bind_ok _ _ _ _ _ _ E) in H|rewrite (bind_panic _ _ _ _ _ _ E) in H; discriminate]. cbn [fst] in G.
  assert (R : exists a, match r with Some rd => render n rd = Ok a | None => a = [] end /\ (match r with Some d => lift (render n d) | None => ret [] end) o w1 = (w1, Ok a)).
  { destruct r as [rd|]; [|exists []; split; reflexivity]. unfold lift in *. destruct (render n rd) as [a|msg]; [exists a; split; reflexivity|discriminate H]. }
  destruct R as (a & Ra & Ea). rewrite (bind_ok _ _ _ _ _ _ Ea) in H.
  destruct (report_each health ps render es o w1) as [w2 [rs|msg]] eqn:E2; [rewrite (bind_ok _ _ _ _ _ _ E2) in H|rewrite (bind_panic _ _ _ _ _ _ E2) in H; discriminate]. unfold ret in H. injection H as <- <-.
  destruct (IH _ _ _ E2) as (G2 & outs & -> & F). split; [eapply gentle_trans; eauto|]. exists (a :: outs). split; [reflexivity|]. constructor.
  - exists w, w1, r. cbn [fst snd]. auto using gentle_refl.
  - eapply forall2_impl; [|exact F]. cbv beta. intros kv b (u1 & u2 & r' & Gu & Eu & Ru). exists u1, u2, r'. split; [eapply gentle_trans; eauto|auto].
Qed.

(** ** the readings are what the accessors answer *)
Definition kind_rd (rd : reading) : class :=
  match rd with RdCounter _ => CCounter | RdGauge _ => CGauge | RdGaugeF _ => CGaugeF | RdHealth _ => CHealth | RdHist _ _ _ _ _ _ => CHist | RdMeter _ _ _ _ _ => CMeter | RdTimer _ _ _ _ _ _ _ _ _ _ => CTimer end.
Definition answered (Q : op -> rv -> Prop) (x : nat) (ps : list f64) (rd : reading) : Prop :=
  let dist n mn mx me sd q := Q (OCount x) (RZ n) /\ Q (OStat x SMin) (RZ mn) /\ Q (OStat x SMax) (RZ mx) /\ Q (OStat x SMean) (RF me) /\ Q (OStat x SStdDev) (RF sd) /\
    Forall2 (fun p s => Q (OPercentile x p) (RF s)) ps q in
  let rates r1 r5 r15 rm := Q (OMRate x RK1) (RF r1) /\ Q (OMRate x RK5) (RF r5) /\ Q (OMRate x RK15) (RF r15) /\ Q (OMRate x RKMean) (RF rm) in
  match rd with
  | RdCounter n => Q (OCount x) (RZ n)
  | RdGauge n => Q (OValue x) (RZ n)
  | RdGaugeF y => Q (OValue x) (RF y)
  | RdHealth _ => True
  | RdHist n mn mx me sd q => dist n mn mx me sd q
  | RdMeter n r1 r5 r15 rm => Q (OCount x) (RZ n) /\ rates r1 r5 r15 rm
  | RdTimer n mn mx me sd q r1 r5 r15 rm => dist n mn mx me sd q /\ rates r1 r5 r15 rm
  end.
Lemma scores xs ps q : snd (SamplePercentiles xs ps) = Ok q -> Forall2 (fun p s => res_bind (snd (SamplePercentiles xs [p])) (fun l => sget l 0) = Ok s) ps q.
Proof.
  intros H. assert (L : List.length q = List.length ps).
  { destruct xs as [|a xs]; [cbn in H; injection H as <-; apply map_length|]. unfold SamplePercentiles in H. cbn [snd] in H. apply (loop_sget _ _ _ H). }
  pose proof (one_of_many _ _ _ H) as N. clear H. revert q L N. induction ps as [|p ps IH]; intros [|s q] L N; try discriminate; constructor.
  - apply (N 0). reflexivity.
  - apply IH; [cbn in L; lia|]. intros i p' Hi. apply (N (S i) p'). exact Hi.
Qed.
Lemma snapshot_returns mexp (st : state) x i o c xs : (exists s, vdata o (heap (fst st)) i = Some (DTimer c xs s)) \/ vdata o (heap (fst st)) i = Some (DHist c xs) ->
  nth_error (snd st) x = Some i -> snappable (heap (fst st)) i -> exists s, snd (step mexp st (OSnapshot x, o)) = Some (Ok (RVal s)).
Proof.
  intros D Ex Sn. unfold World.step. cbn [fst snd World.call]. rewrite Ex. cbn [obind]. unfold m_snapshot, v_rv. destruct D as [(s & D)|D]; pose proof (kind_vdata _ _ _ _ D) as K; cbn [kind_of] in K; rewrite <- K.
  - assert (Hd : tdata (heap (fst st)) i = Some (c, xs, s)).
    { destruct i; try discriminate K; unfold vdata in D; (destruct (tdata _ _) as [[[c' xs'] s']|]; [|discriminate]); cbn in D; injection D as <- <- <-; reflexivity. }
    apply (timer_snappable i o (fst st) c xs s Hd) in Sn. destruct Sn as (w' & t & E). rewrite (bind_ok _ _ _ _ _ _ E). unfold ret. cbn [fst snd]. eauto.
  - assert (Hd : hdata (heap (fst st)) i = Some (c, xs)).
    { destruct i; try discriminate K; unfold vdata in D; (destruct (hdata _ _) as [[c' xs']|]; [|discriminate]); cbn in D; injection D as <- <-; reflexivity. }
    apply (hist_snappable i o (fst st) c xs Hd) in Sn. destruct Sn as (w' & t & E). rewrite (bind_ok _ _ _ _ _ _ E). unfold ret. cbn [fst snd]. eauto.
Qed.
Lemma stddev_answer mexp (st : state) x i o ps c xs q : inv st -> nth_error (snd st) x = Some i ->
  (exists s, vdata o (heap (fst st)) i = Some (DTimer c xs s)) \/ vdata o (heap (fst st)) i = Some (DHist c xs) ->
  snappable (heap (fst st)) i -> snd (SamplePercentiles xs ps) = Ok q ->
  answer mexp st o ps x (OStat x SStdDev) = Some (Ok (RF (SampleStdDev (sortz xs)))).
Proof.
  intros I Ex D Sn Pq. unfold answer. cbn [order_free at_index]. set (y := List.length (snd st)).
  destruct (snapshot_returns mexp st x i o c xs D Ex Sn) as (s & S1).
  assert (S1e : step mexp st (OSnapshot x, o) = (fst (step mexp st (OSnapshot x, o)), Some (Ok (RVal s)))) by (rewrite <- S1; apply surjective_pairing).
  cbn [run fold_left fst]. change (run mexp st [(OSnapshot x, o); (OPercentiles y ps, o)]) with (fst (step mexp (fst (step mexp st (OSnapshot x, o))) (OPercentiles y ps, o))).
  set (st1 := fst (step mexp st (OSnapshot x, o))) in *.
  assert (Dd : exists d, vdata o (heap (fst st)) i = Some d /\ dist d = Some xs /\ (kind_of d = CHist \/ kind_of d = CTimer)).
  { destruct D as [(s0 & D)|D]; eexists; (split; [exact D|]); cbn; auto. }
  destruct Dd as (d & Dd & Dx & Kd).
  destruct (snapshot_ok mexp st x i o st1 s d I Ex Dd S1e) as (Eq1 & Ds & Sp & _).
  assert (Ey : nth_error (snd st1) y = Some s) by (rewrite Eq1; cbn [snd]; unfold y; rewrite nth_error_app2, Nat.sub_diag by lia; reflexivity).
  assert (Cs : cls s = CHist \/ cls s = CTimer) by (rewrite <- (kind_vdata _ _ _ _ Ds); exact Kd).
  assert (D2 : exists d2, vdata o (heap (fst (fst (step mexp st1 (OPercentiles y ps, o))))) s = Some d2 /\ dist d2 = Some (sortz xs) /\ nth_error (snd (fst (step mexp st1 (OPercentiles y ps, o)))) y = Some s).
  { assert (Ey2 : nth_error (snd (fst (step mexp st1 (OPercentiles y ps, o)))) y = Some s) by (apply step_env; exact Ey).
    unfold World.step in Ey2 |- *. cbn [fst snd World.call] in Ey2 |- *. rewrite Ey in Ey2 |- *. cbn [obind] in Ey2 |- *. unfold m_percentiles in Ey2 |- *. destruct Cs as [C|C]; rewrite C in Ey2 |- *; cbn [obind] in Ey2 |- *.
    - assert (exists c', hdata (heap (fst st1)) s = Some (c', xs)) as (c' & Hd).
      { destruct s; try discriminate C; unfold vdata in Ds; (destruct (hdata _ _) as [[c0 xs0]|]; [|discriminate]); cbn in Ds; injection Ds as <-; cbn in Dx; injection Dx as <-; eauto. }
      assert (Ks : match s with VHistSnap _ | VNilHist => True | _ => False end) by (destruct s; try discriminate C; try discriminate Sp; exact Logic.I).
      destruct (hist_read ps s o (fst st1) c' xs Ks Hd) as (w2 & Pw & Dw & _). rewrite Pq in Pw.
      rewrite (bind_ok _ _ _ _ _ _ Pw) in Ey2 |- *. unfold ret in Ey2 |- *. cbn [fst snd] in Ey2 |- *.
      exists (DHist c' (sortz xs)). split; [|split; [reflexivity|exact Ey2]]. destruct s; try discriminate C; try discriminate Sp; unfold vdata; rewrite Dw; reflexivity.
    - assert (exists c' ms, tdata (heap (fst st1)) s = Some (c', xs, ms)) as (c' & ms & Hd).
      { destruct s; try discriminate C; unfold vdata in Ds; (destruct (tdata _ _) as [[[c0 xs0] ms]|]; [|discriminate]); cbn in Ds; injection Ds as <-; cbn in Dx; injection Dx as <-; eauto. }
      assert (Ks : match s with VTimerSnap _ | VNilTimer => True | _ => False end) by (destruct s; try discriminate C; try discriminate Sp; exact Logic.I).
      destruct (timer_read ps s o (fst st1) c' xs ms Ks Hd) as (w2 & Pw & Dw). rewrite Pq in Pw.
      rewrite (bind_ok _ _ _ _ _ _ Pw) in Ey2 |- *. unfold ret in Ey2 |- *. cbn [fst snd] in Ey2 |- *.
      exists (DTimer c' (sortz xs) ms). split; [|split; [reflexivity|exact Ey2]]. destruct s; try discriminate C; try discriminate Sp; unfold vdata; rewrite Dw; reflexivity. }
  destruct D2 as (d2 & D2 & Dx2 & Ey2).
  rewrite (read_ok mexp _ (OStat y SStdDev) o y s d2); auto. cbn [read_data]. rewrite Dx2. reflexivity.
Qed.
Lemma reading_answers mexp (st : state) x i o ps d d' rd : inv st -> nth_error (snd st) x = Some i -> vdata o (heap (fst st)) i = Some d -> deq d d' ->
  reading_of ps d' rd -> snappable (heap (fst st)) i ->
  kind_rd rd = cls i /\ answered (fun c a => answer mexp st o ps x c = Some (Ok a)) x ps rd.
Proof.
  intros I Ex D Q R Sn. rewrite <- (kind_vdata _ _ _ _ D), (deq_kind _ _ Q).
  assert (A : forall c, reads c = Some x -> order_free c = true -> answer mexp st o ps x c = read_data c d').
  { intros c Rc Oc. unfold answer. rewrite Oc. rewrite (read_ok mexp st c o x i d Rc Ex D). apply read_deq; auto. }
  assert (Pc : forall xs q, dist d' = Some xs -> snd (SamplePercentiles xs ps) = Ok q -> Forall2 (fun p s => answer mexp st o ps x (OPercentile x p) = Some (Ok (RF s))) ps q).
  { intros xs q Dx Hq. eapply forall2_impl; [|exact (scores xs ps q Hq)]. cbv beta. intros p s Hs. rewrite A by reflexivity. cbn [read_data]. rewrite Dx. cbn [option_map]. rewrite Hs. reflexivity. }
  assert (Sd : forall c xs xs' q, (exists s, d = DTimer c xs' s) \/ d = DHist c xs' -> Permutation xs' xs -> snd (SamplePercentiles xs ps) = Ok q -> answer mexp st o ps x (OStat x SStdDev) = Some (Ok (RF (SampleStdDev (sortz xs))))).
  { intros c xs xs' q Dd P Hq. rewrite <- (sortz_unique xs' xs) by auto. eapply stddev_answer; eauto; [|rewrite (SamplePercentiles_perm xs' xs ps P); exact Hq].
    destruct Dd as [(s & ->)| ->]; eauto. }
  destruct d'; cbn [reading_of] in R; try contradiction; subst; try (split; [reflexivity|]; cbn [answered]; rewrite A by reflexivity; reflexivity).
  - destruct R as (q & Hq & ->). split; [reflexivity|]. cbn [answered]. repeat match goal with |- _ /\ _ => split end; try (rewrite A by reflexivity; reflexivity); try (eapply Pc; [reflexivity|exact Hq]).
    destruct d; cbn in Q; try discriminate; try (destruct Q; discriminate). destruct Q as (-> & P). eapply Sd; eauto.
  - split; [reflexivity|]. cbn [answered]. repeat match goal with |- _ /\ _ => split end; rewrite A by reflexivity; reflexivity.
  - destruct R as (q & Hq & ->). split; [reflexivity|]. cbn [answered]. repeat match goal with |- _ /\ _ => split end; try (rewrite A by reflexivity; reflexivity); try (eapply Pc; [reflexivity|exact Hq]).
    destruct d; cbn in Q; try discriminate; try (destruct Q; discriminate). destruct Q as (-> & P & ->). eapply Sd; eauto.
Qed.

(** ** what Each visits *)
Lemma filter_all {A} (f : A -> bool) l : (forall a, In a l -> f a = true) -> filter f l = l.
Proof. induction l as [|a l IH]; intros H; cbn; [reflexivity|]. rewrite (H a (or_introl eq_refl)), IH; auto. intros b Hb. apply H. now right. Qed.
Lemma reg_each_run (st : state) v b o : inv st -> vok (heap (fst st)) v -> base v = Some b ->
  exists es, reg_each v o (fst st) = (fst st, Ok es) /\ NoDup (map fst es) /\ (forall nm i, In (nm, i) es <-> shown st v nm = Some i) /\
    Forall (fun kv => is_metric (snd kv) = true /\ vok (heap (fst st)) (snd kv)) es.
Proof.
  intros I V B. destruct (base_ok _ v b V B) as (z & Ez & T). destruct z; cbn in T; try discriminate. destruct (wf_obj _ (proj1 I) _ _ Ez) as [ND F].
  assert (F' : Forall (vok (heap (fst st))) (map snd entries)). { rewrite Forall_forall in F |- *. intros u Hu. apply in_map_iff in Hu. destruct Hu as (kv & <- & Hu). apply (F _ Hu). }
  destruct (order_facts (o_order o) entries (in_order_perm _ _) _ ND F') as (ND' & F2 & Lk).
  assert (Rg : forall nm, registered (fst st) b nm = lookup nm entries) by (intros nm; unfold registered; now rewrite Ez, <- lookup_find).
  assert (R : std_registered b o (fst st) = (fst st, Ok (in_order (o_order o) entries))).
  { unfold std_registered. unfold bind at 1. rewrite (entries_get_ok b entries (fst st) o Ez). reflexivity. }
  exists (filter (fun kv => String.prefix (full v "") (fst kv)) (in_order (o_order o) entries)). repeat match goal with |- _ /\ _ => split end.
  - destruct v; try discriminate B.
    + injection B as <-. cbn [reg_each]. rewrite R. f_equal. f_equal. unfold full. cbn [prefixes app String.concat]. clear. symmetry. apply filter_all. intros kv _. destruct (fst kv); reflexivity.
    + unfold reg_each. rewrite (find_prefix_spec b _ B). rewrite (bind_ok _ _ _ _ _ _ R). reflexivity.
  - clear - ND'. induction (in_order (o_order o) entries) as [|kv l IH]; [constructor|]. cbn [map filter] in *. inversion ND'; subst. destruct (String.prefix _ _); auto. cbn [map]. constructor; auto.
    intros H. apply H1. apply in_map_iff in H. destruct H as (x & <- & H). apply filter_In in H. apply in_map. apply H.
  - intros nm i. rewrite filter_In. cbn [fst]. unfold shown. rewrite B, <- Lk, <- Rg. destruct (String.prefix (full v "") nm); intuition discriminate.
  - rewrite Forall_forall in F |- *. intros kv Hk. apply filter_In in Hk. destruct Hk as (Hk & _). destruct kv as [nm i]. apply Lk, lookup_in in Hk. apply (F _ Hk).
Qed.
Lemma map_forall2 {A B C} (f : A -> B) (R : B -> C -> Prop) l m : Forall2 (fun a c => R (f a) c) l m -> Forall2 R (map f l) m.
Proof. induction 1; cbn; constructor; auto. Qed.
Lemma forall2_with {A B} (P : A -> Prop) (R : A -> B -> Prop) l m : Forall P l -> Forall2 R l m -> Forall2 (fun a b => P a /\ R a b) l m.
Proof. intros F H. induction H; constructor; inversion F; subst; auto. Qed.
(** the outcome of a report in terms of the accessors *)
Definition told {A} mexp (st : state) o ps health (render : string -> reading -> res (list A)) v (at_ : string -> nat) (nm : string) (a : list A) : Prop :=
  exists i, shown st v nm = Some i /\ is_metric i = true /\
    if class_eqb (cls i) CHealth then if (health : bool) then exists e, render nm (RdHealth e) = Ok a else a = []
    else exists rd, kind_rd rd = cls i /\ answered (fun c r => answer mexp st o ps (at_ nm) c = Some (Ok r)) (at_ nm) ps rd /\ render nm rd = Ok a.
Lemma health_reading health ps v o w w' r : cls v = CHealth -> read_metric health ps v o w = (w', Ok r) -> if health then exists e, r = Some (RdHealth e) else r = None.
Proof.
  intros C H. unfold read_metric in H. rewrite C in H. destruct health; [|unfold ret in H; injection H as _ <-; reflexivity].
  destruct (health_check v o w) as [w1 [u|msg]] eqn:E; [rewrite (bind_ok _ _ _ _ _ _ E) in H|rewrite (bind_panic _ _ _ _ _ _ E) in H; discriminate].
  destruct (health_error v o w1) as [w2 [e|msg]] eqn:E2; [rewrite (bind_ok _ _ _ _ _ _ E2) in H|rewrite (bind_panic _ _ _ _ _ _ E2) in H; discriminate].
  unfold ret in H. injection H as _ <-. eauto.
Qed.
Lemma each_told {A} mexp (st : state) v o ps health (render : string -> reading -> res (list A)) at_ es w' out : inv st ->
  (forall nm i, In (nm, i) es <-> shown st v nm = Some i) -> Forall (fun kv => is_metric (snd kv) = true /\ vok (heap (fst st)) (snd kv)) es ->
  (forall nm i, shown st v nm = Some i -> nth_error (snd st) (at_ nm) = Some i) ->
  report_each health ps render es o (fst st) = (w', Ok out) ->
  exists outs, out = List.concat outs /\ Forall2 (told mexp st o ps health render v at_) (map fst es) outs.
Proof.
  intros I Sh F At H. destruct (each_steps _ _ _ _ _ _ _ _ H) as (_ & outs & -> & S). exists outs. split; [reflexivity|]. apply map_forall2.
  assert (F2 : Forall (fun kv => (is_metric (snd kv) = true /\ vok (heap (fst st)) (snd kv)) /\ shown st v (fst kv) = Some (snd kv)) es).
  { rewrite Forall_forall in F |- *. intros [nm i] Hk. split; [exact (F _ Hk)|]. apply Sh. exact Hk. }
  pose proof (forall2_with _ _ _ _ F2 S) as S2. eapply forall2_impl; [|exact S2]. cbv beta. intros [nm i] a (((Mt & Vi) & Si) & w1 & w2 & r & G & E & R). cbn [fst snd] in *.
  exists i. split; [exact Si|]. split; [exact Mt|].
  destruct (class_eqb (cls i) CHealth) eqn:Ch.
  - assert (C : cls i = CHealth) by (destruct (cls i); try discriminate Ch; reflexivity). pose proof (health_reading health ps i o w1 w2 r C E) as Hr. destruct health.
    + destruct Hr as (e & ->). eauto.
    + subst r. exact R.
  - assert (Rd : readable i = true). { unfold is_metric in Mt. unfold readable. destruct (cls i); try discriminate Mt; try discriminate Ch; reflexivity. }
    destruct (vdata_ok o (fst st) i (proj1 I) Vi Rd) as (d & D). destruct (gentle_vdata _ _ _ _ _ G D) as (d' & D' & Q).
    destruct (one_reading health ps i o w1 d' D' Mt w2 r E) as (rd & -> & Hrd & Sn).
    assert (Sn0 : snappable (heap (fst st)) i). { eapply gentle_snappable_back; eauto. intros k hi m Ek. destruct (wf_obj _ (proj1 I) _ _ Ek) as [[_ X] _]. exact X. }
    destruct (reading_answers mexp st (at_ nm) i o ps d d' rd I (At _ _ Si) D Q Hrd Sn0) as (K & A'). exists rd. auto.
Qed.
Lemma report_told {A} mexp (st : state) r v b o ps health (render : string -> reading -> res (list A)) at_ w' out : inv st -> nth_error (snd st) r = Some v -> base v = Some b ->
  (forall nm i, shown st v nm = Some i -> nth_error (snd st) (at_ nm) = Some i) ->
  Report.report health ps render v o (fst st) = (w', Ok out) ->
  exists names outs, visits st v names /\ out = List.concat outs /\ Forall2 (told mexp st o ps health render v at_) names outs.
Proof.
  intros I E B At H. assert (V : vok (heap (fst st)) v) by (destruct I as [_ F]; rewrite Forall_forall in F; apply F; eapply nth_error_In; eauto).
  destruct (reg_each_run st v b o I V B) as (es & R & ND & Sh & F). unfold Report.report in H. rewrite (bind_ok _ _ _ _ _ _ R) in H.
  destruct (each_told mexp st v o ps health render at_ es w' out I Sh F At H) as (outs & -> & T). exists (map fst es), outs. repeat match goal with |- _ /\ _ => split end; auto.
  split; [exact ND|]. intros nm. split.
  - intros Hn. apply in_map_iff in Hn. destruct Hn as ([n i] & <- & Hn). apply Sh in Hn. cbn. congruence.
  - intros Hn. destruct (shown st v nm) as [i|] eqn:Si; [|congruence]. apply Sh in Si. apply (in_map fst) in Si. exact Si.
Qed.

(** ** when a report returns *)
(** the objects a metric refers to exist *)
Definition wok (h : list obj) (v : val) : Prop := match v with VMeterSnap _ | VPref _ _ => True | _ => vok h v end.
Lemma vok_wok h v : vok h v -> wok h v.
Proof. destruct v; cbn [wok]; auto. Qed.
(** what lets one metric be reported *)
Definition ready (health : bool) (ps : list f64) (o : orc) (h : list obj) (v : val) : Prop :=
  match cls v with
  | CHealth => health = true -> forall l e f, v = VHealth l -> nth_error h l = Some (OHealth e f) -> forall e', panics (o_health o f e') = false
  | CHist | CTimer => snappable h v /\ forall d xs, vdata o h v = Some d -> dist d = Some xs -> exists q, snd (SamplePercentiles xs ps) = Ok q
  | _ => True
  end.
Lemma ready_gentle health ps o h h' v : gentle h h' -> (exists d, vdata o h v = Some d) \/ readable v = false -> wok h v -> ready health ps o h v -> ready health ps o h' v.
Proof.
  intros G X V. unfold ready. destruct (cls v) eqn:C; auto.
  - intros H Ht l e f -> E. cbn in V. destruct V as (ob & Eo & T). destruct ob; cbn in T; try discriminate. destruct (G _ _ Eo) as (o' & E' & M). rewrite E' in E. injection E as ->. cbn in M. subst f0. eapply H; eauto.
  - intros (S & P). split; [eapply gentle_snappable; eauto|]. intros d xs D Ds. destruct X as [(d0 & D0)|R]; [|unfold readable in R; rewrite C in R; discriminate].
    destruct (gentle_vdata _ _ _ _ _ G D0) as (d1 & D1 & Q). rewrite D in D1. injection D1 as <-.
    destruct d0, d; cbn in Q, Ds; try discriminate; try (destruct Q as (-> & Q)); injection Ds as <-; destruct (P _ _ D0 eq_refl) as (q & Ps); exists q; rewrite <- (SamplePercentiles_perm xs0 xs1); auto. apply Q.
  - intros (S & P). split; [eapply gentle_snappable; eauto|]. intros d xs D Ds. destruct X as [(d0 & D0)|R]; [|unfold readable in R; rewrite C in R; discriminate].
    destruct (gentle_vdata _ _ _ _ _ G D0) as (d1 & D1 & Q). rewrite D in D1. injection D1 as <-.
    destruct d0, d; cbn in Q, Ds; try discriminate; try (destruct Q as (-> & Q)); injection Ds as <-; destruct (P _ _ D0 eq_refl) as (q & Ps); exists q; rewrite <- (SamplePercentiles_perm xs0 xs1); auto. apply Q.
Qed.
Lemma read_returns health ps v o w : (exists d, vdata o (heap w) v = Some d) \/ readable v = false -> wok (heap w) v -> ready health ps o (heap w) v ->
  exists w' r, read_metric health ps v o w = (w', Ok r).
Proof.
  intros X V R. unfold ready in R. unfold read_metric. destruct (cls v) eqn:C; try (unfold ret; eauto; fail).
  - destruct v; try discriminate; cbn in V.
    + destruct V as (ob & E & T). destruct ob; cbn in T; try discriminate. unfold counter_count, c_do, c_load, bind, load. rewrite E. do 2 eexists; reflexivity.
    + unfold counter_count, bind, ret. do 2 eexists; reflexivity.
    + unfold counter_count, bind, ret. do 2 eexists; reflexivity.
  - destruct v; try discriminate; cbn in V.
    + destruct V as (ob & E & T). destruct ob; cbn in T; try discriminate. unfold gauge_value, g_do, bind, load. rewrite E. do 2 eexists; reflexivity.
    + unfold gauge_value, bind, ret. do 2 eexists; reflexivity.
    + unfold gauge_value, bind, ask, ret. do 2 eexists; reflexivity.
    + unfold gauge_value, bind, ret. do 2 eexists; reflexivity.
  - destruct v; try discriminate; cbn in V.
    + destruct V as (ob & E & T). destruct ob; cbn in T; try discriminate. unfold gaugef_value, gf_do, bind, load. rewrite E. unfold store, ret. do 2 eexists; reflexivity.
    + unfold gaugef_value, bind, ret. do 2 eexists; reflexivity.
    + unfold gaugef_value, bind, ask, ret. do 2 eexists; reflexivity.
    + unfold gaugef_value, bind, ret. do 2 eexists; reflexivity.
  - destruct health; [|unfold ret; eauto]. destruct v; try discriminate; cbn in V.
    + destruct V as (ob & E & T). destruct ob; cbn in T; try discriminate. specialize (R eq_refl l e f eq_refl E).
      destruct (health_check_ok o l f w e E) as (w' & H & E' & _). unfold outcome in H. rewrite R in H. rewrite (bind_ok _ _ _ _ _ _ H). unfold health_error, bind, load. rewrite E'. unfold ret. do 2 eexists; reflexivity.
    + unfold health_check, health_error, bind, ret. do 2 eexists; reflexivity.
  - destruct X as [(d & D)|X]; [|unfold readable in X; rewrite C in X; discriminate]. destruct R as (S & P).
    assert (Hd : exists c xs, hdata (heap w) v = Some (c, xs) /\ d = DHist c xs).
    { destruct v; try discriminate C; unfold vdata in D; (destruct (hdata _ _) as [[c xs]|]; [|discriminate]); cbn in D; injection D as <-; eauto. }
    destruct Hd as (c & xs & Hd & ->). destruct (P _ xs D eq_refl) as (q & Ps).
    destruct (hist_snapshot_ok v o w c xs Hd) as [(x & s & E & D1 & K)|(x & E)].
    2: { apply (hist_snappable v o w c xs Hd) in S. destruct S as (? & ? & H). rewrite E in H. discriminate. }
    rewrite (bind_ok _ _ _ _ _ _ E).
    assert (Ks : match s with VHistSnap _ | VNilHist => True | _ => False end). { destruct v; try discriminate; [destruct K as (l' & k & -> & _)|subst|subst]; exact Logic.I. }
    destruct (hist_read ps s o (set_heap (heap w ++ x) w) c xs Ks D1) as (w2 & Pq & D2 & _). rewrite Ps in Pq. rewrite (bind_ok _ _ _ _ _ _ Pq).
    rewrite (bind_ok _ _ _ _ _ _ (r_hist_count s o w2 _ _ D2)). do 4 (rewrite (bind_ok _ _ _ _ _ _ (r_hist_stat _ s o w2 _ _ D2))). unfold ret. do 2 eexists; reflexivity.
  - destruct X as [(d & D)|X]; [|unfold readable in X; rewrite C in X; discriminate].
    assert (Hd : exists s, mdata (heap w) v = Some s). { destruct v; try discriminate C; unfold vdata in D; (destruct (mdata _ _) as [s|]; [|discriminate]); eauto. }
    destruct Hd as (s & Hd). destruct (meter_snapshot_ok v o w s Hd) as (x & k & E & D1 & K). rewrite (bind_ok _ _ _ _ _ _ E).
    set (w1 := set_heap (heap w ++ x) w) in *. change (heap w ++ x) with (heap w1) in D1.
    rewrite (bind_ok _ _ _ _ _ _ (r_meter_count k o w1 _ D1)). do 4 (rewrite (bind_ok _ _ _ _ _ _ (r_meter_rate _ k o w1 _ D1))). unfold ret. do 2 eexists; reflexivity.
  - destruct X as [(d & D)|X]; [|unfold readable in X; rewrite C in X; discriminate]. destruct R as (S & P).
    assert (Hd : exists c xs s, tdata (heap w) v = Some (c, xs, s) /\ d = DTimer c xs s).
    { destruct v; try discriminate C; unfold vdata in D; (destruct (tdata _ _) as [[[c xs] s]|]; [|discriminate]); cbn in D; injection D as <-; eauto. }
    destruct Hd as (c & xs & s & Hd & ->). destruct (P _ xs D eq_refl) as (q & Ps).
    destruct (timer_snapshot_ok v o w c xs s Hd) as [(x & t & E & D1 & K)|(x & E)].
    2: { apply (timer_snappable v o w c xs s Hd) in S. destruct S as (? & ? & H). rewrite E in H. discriminate. }
    rewrite (bind_ok _ _ _ _ _ _ E).
    assert (Kt : match t with VTimerSnap _ | VNilTimer => True | _ => False end). { destruct v; try discriminate; [destruct K as (l' & hl & ml & k & -> & _)|subst|subst]; exact Logic.I. }
    set (w1 := set_heap (heap w ++ x) w) in *. change (heap w ++ x) with (heap w1) in D1.
    destruct (timer_read ps t o w1 c xs s Kt D1) as (w2 & Pq & D2). rewrite Ps in Pq. rewrite (bind_ok _ _ _ _ _ _ Pq).
    rewrite (bind_ok _ _ _ _ _ _ (r_timer_count t o w2 _ _ _ D2)). do 4 (rewrite (bind_ok _ _ _ _ _ _ (r_timer_stat _ t o w2 _ _ _ D2))). do 4 (rewrite (bind_ok _ _ _ _ _ _ (r_timer_rate _ t o w2 _ _ _ D2))). unfold ret. do 2 eexists; reflexivity.
Qed.
Lemma gentle_tag h h' l t : gentle h h' -> tagat h l t -> tagat h' l t.
Proof. intros G (x & E & T). destruct (G _ _ E) as (y & Ey & M). exists y. split; auto. rewrite <- T. destruct x, y; cbn in M |- *; try discriminate M; reflexivity. Qed.
Lemma gentle_wok h h' v : gentle h h' -> wok h v -> wok h' v.
Proof. intros G. destruct v; cbn [wok vok]; eauto using gentle_tag. Qed.
Definition set (health : bool) (ps : list f64) (o : orc) (h : list obj) (v : val) : Prop :=
  is_metric v = true /\ wok h v /\ ready health ps o h v /\ ((exists d, vdata o h v = Some d) \/ readable v = false).
Lemma set_gentle health ps o h h' v : gentle h h' -> set health ps o h v -> set health ps o h' v.
Proof.
  intros G (M & V & R & X). unfold set. repeat match goal with |- _ /\ _ => split end; auto; [eapply gentle_wok; eauto|eapply ready_gentle; eauto|]. destruct X as [(d & D)|X]; [|auto].
  destruct (gentle_vdata _ _ _ _ _ G D) as (d' & D' & _). eauto.
Qed.
Lemma one_set health ps o w v : set health ps o (heap w) v -> exists w' r, read_metric health ps v o w = (w', Ok r) /\ gentle (heap w) (heap w') /\
  match r with Some rd => kind_rd rd = cls v | None => cls v = CHealth end.
Proof.
  intros (M & V & R & X). destruct (read_returns health ps v o w X V R) as (w' & r & E). exists w', r. split; [exact E|]. split; [pose proof (gm_read_metric health ps v o w) as G; rewrite E in G; exact G|].
  destruct (class_eqb (cls v) CHealth) eqn:C.
  - assert (C' : cls v = CHealth) by (destruct (cls v); try discriminate C; reflexivity). pose proof (health_reading health ps v o w w' r C' E) as Hr. destruct health; [destruct Hr as (e & ->); symmetry; exact C'|subst; exact C'].
  - destruct X as [(d & D)|X]; [|unfold is_metric in M; unfold readable in X; destruct (cls v); try discriminate; discriminate].
    destruct (one_reading health ps v o w d D M w' r E) as (rd & -> & Hr & _). rewrite <- (kind_vdata _ _ _ _ D). destruct d; cbn [reading_of] in Hr; try (destruct Hr as (q & _ & ->)); try subst rd; try contradiction; reflexivity.
Qed.
Lemma each_set_ok {A} health ps o (render : string -> reading -> res (list A)) es : forall w, Forall (fun kv => set health ps o (heap w) (snd kv)) es ->
  (forall nm v rd, In (nm, v) es -> kind_rd rd = cls v -> exists a, render nm rd = Ok a) ->
  exists w' out, report_each health ps render es o w = (w', Ok out).
Proof.
  induction es as [|[nm v] es IH]; intros w F R; cbn [report_each]; [unfold ret; eauto|]. inversion F as [|? ? S1 S2]; subst. cbn [snd] in S1.
  destruct (one_set health ps o w v S1) as (w1 & r & E & G & K). rewrite (bind_ok _ _ _ _ _ _ E).
  assert (Ra : exists a, (match r with Some d => lift (render nm d) | None => ret [] end) o w1 = (w1, Ok a)).
  { destruct r as [rd|]; [|exists []; reflexivity]. destruct (R nm v rd (or_introl eq_refl) K) as (a & Ea). exists a. unfold lift. now rewrite Ea. }
  destruct Ra as (a & Ea). rewrite (bind_ok _ _ _ _ _ _ Ea). destruct (IH w1) as (w2 & out & E2).
  - eapply Forall_impl; [|exact S2]. intros kv. apply set_gentle. exact G.
  - intros n u rd Hi. apply R. now right.
  - rewrite (bind_ok _ _ _ _ _ _ E2). unfold ret. eauto.
Qed.
(** the first metric that cannot be rendered stops the report *)
Lemma each_set_panic {A} health ps o msg (render : string -> reading -> res (list A)) es : forall w, Forall (fun kv => set health ps o (heap w) (snd kv)) es ->
  (forall nm rd, kind_rd rd = CTimer -> render nm rd = Panic msg) -> (forall nm rd, kind_rd rd <> CTimer -> exists a, render nm rd = Ok a) ->
  (exists nm v, In (nm, v) es /\ cls v = CTimer) ->
  exists w', report_each health ps render es o w = (w', Panic msg).
Proof.
  induction es as [|[nm v] es IH]; intros w F T N X; [destruct X as (? & ? & [] & _)|]. cbn [report_each]. inversion F as [|? ? S1 S2]; subst. cbn [snd] in S1.
  destruct (one_set health ps o w v S1) as (w1 & r & E & G & K). rewrite (bind_ok _ _ _ _ _ _ E).
  assert (D : cls v = CTimer \/ cls v <> CTimer) by (destruct (cls v); auto; right; discriminate). destruct D as [D|D].
  - destruct r as [rd|]; [|congruence]. exists w1. apply bind_panic. unfold lift. rewrite T by congruence. reflexivity.
  - assert (Ra : exists a, (match r with Some d => lift (render nm d) | None => ret [] end) o w1 = (w1, Ok a)).
    { destruct r as [rd|]; [|exists []; reflexivity]. destruct (N nm rd) as (a & Ea); [congruence|]. exists a. unfold lift. now rewrite Ea. }
    destruct Ra as (a & Ea). rewrite (bind_ok _ _ _ _ _ _ Ea). destruct (IH w1) as (w2 & E2); auto.
    + eapply Forall_impl; [|exact S2]. intros kv. apply set_gentle. exact G.
    + destruct X as (n & u & [Hi|Hi] & C); [injection Hi as -> ->; congruence|eauto].
    + exists w2. now apply bind_panic.
Qed.
Lemma prepared_set mexp (st : state) v o ps health es : inv st -> prepared mexp st v o ps health ->
  (forall nm i, In (nm, i) es -> shown st v nm = Some i) -> Forall (fun kv => is_metric (snd kv) = true /\ vok (heap (fst st)) (snd kv)) es ->
  Forall (fun kv => set health ps o (heap (fst st)) (snd kv)) es.
Proof.
  intros I (Hs & Hh) Sh F. rewrite Forall_forall in F |- *. intros [nm u] Hi. destruct (F _ Hi) as (M & V). cbn [snd] in *. specialize (Sh _ _ Hi).
  unfold set. split; [exact M|]. split; [now apply vok_wok|]. split; [|destruct (readable u) eqn:Rv; [left; apply vdata_ok; auto; exact (proj1 I)|auto]].
  unfold ready. destruct (cls u) eqn:Cu; auto.
  - intros Ht lh e f -> Eh. eapply Hh; eauto.
  - destruct (Hs nm u Sh (or_introl Cu)) as (x & r1 & r2 & Ex & S1 & S2).
    destruct (hdata_ok (fst st) u (proj1 I) Cu V) as (c & xs & Du). split.
    + apply (hist_snappable u o (fst st) c xs Du). unfold World.step in S1. cbn [fst snd World.call] in S1. rewrite Ex in S1. cbn [obind] in S1. unfold m_snapshot in S1. rewrite Cu in S1. unfold v_rv in S1.
      destruct (hist_snapshot u o (fst st)) as [w1 [s|msg]] eqn:Es; [eauto|rewrite (bind_panic _ _ _ _ _ _ Es) in S1; discriminate S1].
    + intros d xs0 D Dx. rewrite (read_ok mexp st (OPercentiles x ps) o x u d eq_refl Ex D) in S2. cbn [read_data] in S2. rewrite Dx in S2. cbn [option_map] in S2. destruct (snd (SamplePercentiles xs0 ps)) as [q|]; [eauto|discriminate S2].
  - destruct (Hs nm u Sh (or_intror Cu)) as (x & r1 & r2 & Ex & S1 & S2).
    destruct (tdata_ok (fst st) u (proj1 I) Cu V) as (c & xs & ms & Du). split.
    + apply (timer_snappable u o (fst st) c xs ms Du). unfold World.step in S1. cbn [fst snd World.call] in S1. rewrite Ex in S1. cbn [obind] in S1. unfold m_snapshot in S1. rewrite Cu in S1. unfold v_rv in S1.
      destruct (timer_snapshot u o (fst st)) as [w1 [s|msg]] eqn:Es; [eauto|rewrite (bind_panic _ _ _ _ _ _ Es) in S1; discriminate S1].
    + intros d xs0 D Dx. rewrite (read_ok mexp st (OPercentiles x ps) o x u d eq_refl Ex D) in S2. cbn [read_data] in S2. rewrite Dx in S2. cbn [option_map] in S2. destruct (snd (SamplePercentiles xs0 ps)) as [q|]; [eauto|discriminate S2].
Qed.
