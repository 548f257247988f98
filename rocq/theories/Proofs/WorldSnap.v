(** Snapshots: what they show, and that they keep showing it. *)
From Coq Require Import ZArith List String Bool Lia Permutation Arith.
From Verif.Model Require Import GoInt GoFloat GoBase Stats Uniform ExpDecay Conc CounterGauge Ewma Meter World.
From Verif.Spec Require Import ApiSpec.
From Verif.Proofs Require Import SortFacts StatsInt EwmaSeq WorldBase WorldOps WorldCalls WorldStep WorldReads.
Import ListNotations.
Local Open Scope nat_scope.
Local Open Scope list_scope.

(** ** contents in an extended heap *)
Lemma arrdata_app h x a xs : arrdata h a = Some xs -> arrdata (h ++ x) a = Some xs.
Proof. unfold arrdata. destruct (nth_error h a) eqn:E; [|discriminate]. now rewrite (nth_app_l _ _ _ _ E). Qed.
Lemma sdata_app h x v d : sdata h v = Some d -> sdata (h ++ x) v = Some d.
Proof.
  destruct v; cbn [sdata]; auto; destruct (nth_error h l) eqn:E; try discriminate; rewrite (nth_app_l _ _ _ _ E); destruct o; try discriminate; auto;
    (destruct (arrdata h arr) eqn:A; [|discriminate]; rewrite (arrdata_app _ _ _ _ A); auto).
Qed.
Lemma hdata_app h x v d : hdata h v = Some d -> hdata (h ++ x) v = Some d.
Proof.
  destruct v; cbn [hdata]; auto; destruct (nth_error h l) eqn:E; try discriminate; rewrite (nth_app_l _ _ _ _ E); destruct o; try discriminate; apply sdata_app.
Qed.
Lemma msdata_app h x l d : msdata h l = Some d -> msdata (h ++ x) l = Some d.
Proof. unfold msdata. destruct (nth_error h l) eqn:E; [|discriminate]. now rewrite (nth_app_l _ _ _ _ E). Qed.
Lemma mdata_app h x v d : mdata h v = Some d -> mdata (h ++ x) v = Some d.
Proof.
  destruct v; cbn [mdata]; auto using msdata_app. destruct (nth_error h l) eqn:E; try discriminate; rewrite (nth_app_l _ _ _ _ E); destruct o; try discriminate; apply msdata_app.
Qed.
Lemma nth_end {A} (l : list A) a : nth_error (l ++ [a]) (List.length l) = Some a.
Proof. rewrite nth_error_app2, Nat.sub_diag by lia. reflexivity. Qed.

(** ** snapshots extend the heap and show the contents *)
Lemma sample_snapshot_ok v o w n xs : sdata (heap w) v = Some (n, xs) -> exists x s,
  sample_snapshot v o w = (set_heap (heap w ++ x) w, Ok s) /\ sdata (heap w ++ x) s = Some (n, xs) /\
  match v with
  | VUniform _ | VExp _ => exists l, s = VSampleSnap l /\ List.length (heap w) <= l
  | VSampleSnap _ => s = v | _ => s = VNilSample end.
Proof.
  intros D. destruct v; cbn [sdata] in D; try discriminate.
  - destruct (nth_error (heap w) l) as [[]|] eqn:E; try discriminate. destruct (arrdata (heap w) arr) eqn:A; [|discriminate].
    inversion D; subst. exists ([OArr xs] ++ [OSampleSnap n (List.length (heap w))]), (VSampleSnap (S (List.length (heap w)))).
    cbn [sample_snapshot]. unfold uni_get, bind, load. rewrite E. cbn [ret]. pose proof (r_arr arr o w xs A) as R.
    unfold arr_get, bind, load in R |- *. destruct (nth_error (heap w) arr) as [[]|]; try discriminate. cbn [ret] in R |- *. inversion R; subst.
    unfold new_slice, alloc. cbn [set_heap heap]. rewrite app_length. cbn [List.length]. rewrite Nat.add_1_r. cbn [ret]. rewrite app_assoc.
    split; [reflexivity|]. split; [|eauto].
    assert (E1 : nth_error ((heap w ++ [OArr xs]) ++ [OSampleSnap n (List.length (heap w))]) (S (List.length (heap w))) = Some (OSampleSnap n (List.length (heap w)))).
    { replace (S (List.length (heap w))) with (List.length (heap w ++ [OArr xs])) by (rewrite app_length; cbn; lia). apply nth_end. }
    cbn [sdata]. rewrite E1. unfold arrdata. rewrite (nth_app_l _ _ _ _ (nth_end (heap w) (OArr xs))). reflexivity.
  - destruct (nth_error (heap w) l) as [[]|] eqn:E; try discriminate. inversion D; subst.
    exists ([OArr (exp_Values x)] ++ [OSampleSnap (exp_Count x) (List.length (heap w))]), (VSampleSnap (S (List.length (heap w)))).
    cbn [sample_snapshot]. unfold exp_get, bind, load. rewrite E. cbn [ret].
    unfold new_slice, alloc. cbn [set_heap heap]. rewrite app_length. cbn [List.length]. rewrite Nat.add_1_r. cbn [ret]. rewrite app_assoc.
    split; [reflexivity|]. split; [|eauto].
    assert (E1 : nth_error ((heap w ++ [OArr (exp_Values x)]) ++ [OSampleSnap (exp_Count x) (List.length (heap w))]) (S (List.length (heap w))) = Some (OSampleSnap (exp_Count x) (List.length (heap w)))).
    { replace (S (List.length (heap w))) with (List.length (heap w ++ [OArr (exp_Values x)])) by (rewrite app_length; cbn; lia). apply nth_end. }
    cbn [sdata]. rewrite E1. unfold arrdata. rewrite (nth_app_l _ _ _ _ (nth_end (heap w) (OArr (exp_Values x)))). reflexivity.
  - exists [], (VSampleSnap l). rewrite app_nil_r. destruct w. cbn in *. auto.
  - exists [], VNilSample. rewrite app_nil_r. destruct w. cbn in *. auto.
Qed.
Lemma meter_snapshot_ok v o w d : mdata (heap w) v = Some d -> exists x s,
  meter_snapshot v o w = (set_heap (heap w ++ x) w, Ok s) /\ mdata (heap w ++ x) s = Some d /\
  match v with VMeter _ => exists l, s = VMeterSnap l | VMeterSnap _ => s = v | _ => s = VNilMeter end.
Proof.
  intros D. destruct v; cbn [mdata] in D; try discriminate.
  - pose proof (r_meter_view (VMeter l) o w d D) as R. exists [OMeterSnap (s_count d) (s_r1 d) (s_r5 d) (s_r15 d) (s_mean d)], (VMeterSnap (List.length (heap w))).
    cbn [meter_snapshot]. unfold bind. rewrite R. unfold alloc, ret. split; auto. split; [|eauto].
    cbn [mdata]. unfold msdata. rewrite nth_end. destruct d; reflexivity.
  - exists [], (VMeterSnap l). rewrite app_nil_r. destruct w. cbn in *. auto.
  - exists [], VNilMeter. rewrite app_nil_r. destruct w. cbn in *. auto.
Qed.
Lemma hist_snapshot_ok v o w n xs : hdata (heap w) v = Some (n, xs) ->
  (exists x s, hist_snapshot v o w = (set_heap (heap w ++ x) w, Ok s) /\ hdata (heap w ++ x) s = Some (n, xs) /\
   match v with
   | VHist _ => exists l k, s = VHistSnap l /\ nth_error (heap w ++ x) l = Some (OHistSnap k) /\
       (over_reservoir (heap w) v -> List.length (heap w) <= k)
   | VHistSnap _ => s = v | _ => s = VNilHist end) \/
  exists x, hist_snapshot v o w = (set_heap (heap w ++ x) w, Panic msg_type).
Proof.
  intros D. destruct v; try discriminate.
  - destruct (r_hist_sample _ o _ _ _ D) as (sm & E & Ds). destruct (sample_snapshot_ok sm o w n xs Ds) as (x & s & Es & D' & K).
    cbn [hist_snapshot]. unfold bind. rewrite E, Es.
    assert (O : nth_error (heap w) l = Some (OHist sm)).
    { cbn [hist_sample] in E. unfold bind, load in E. destruct (nth_error (heap w) l) as [[]|]; try discriminate. inversion E. reflexivity. }
    destruct s; try (right; exists x; reflexivity).
    left. exists (x ++ [OHistSnap l0]), (VHistSnap (List.length (heap w ++ x))). cbn [alloc set_heap heap ret]. rewrite app_assoc.
    split; [reflexivity|]. split.
    + unfold hdata. rewrite nth_end. now apply sdata_app.
    + eexists _, _. split; [reflexivity|]. split; [apply nth_end|]. intros (s0 & O' & R). rewrite O in O'. inversion O'; subst s0.
      destruct sm; cbn in R; try contradiction; destruct K as (k & K1 & K2); inversion K1; subst; auto.
  - left. exists [], (VHistSnap l). rewrite app_nil_r. destruct w. cbn in *. auto.
  - left. exists [], VNilHist. rewrite app_nil_r. destruct w. cbn in *. auto.
Qed.
Lemma timer_snapshot_ok v o w n xs d : tdata (heap w) v = Some (n, xs, d) ->
  (exists x s, timer_snapshot v o w = (set_heap (heap w ++ x) w, Ok s) /\ tdata (heap w ++ x) s = Some (n, xs, d) /\
   match v with
   | VTimer _ => exists l hl ml k, s = VTimerSnap l /\ nth_error (heap w ++ x) l = Some (OTimerSnap hl ml) /\ nth_error (heap w ++ x) hl = Some (OHistSnap k) /\
       (over_reservoir (heap w) v -> List.length (heap w) <= k)
   | VTimerSnap _ => s = v | _ => s = VNilTimer end) \/
  exists x, timer_snapshot v o w = (set_heap (heap w ++ x) w, Panic msg_type).
Proof.
  intros D. destruct v; try discriminate.
  - destruct (r_timer_get _ o _ _ _ _ D) as (hi & m & E & Dh & Dm).
    assert (O : nth_error (heap w) l = Some (OTimer hi m)).
    { cbn [timer_get] in E. unfold bind, load in E. destruct (nth_error (heap w) l) as [[]|]; try discriminate. inversion E. reflexivity. }
    cbn [timer_snapshot]. unfold bind. rewrite E.
    destruct (hist_snapshot_ok hi o w n xs Dh) as [(x & s & Es & D' & K)|(x & Es)]; rewrite Es; [|right; exists x; reflexivity].
    destruct s; try (right; exists x; reflexivity).
    set (w1 := set_heap (heap w ++ x) w) in *.
    destruct (meter_snapshot_ok m o w1 d) as (y & s & Em & Dm' & K'); [cbn; now apply mdata_app|]. rewrite Em. cbn [heap set_heap w1] in *.
    destruct s; try (right; exists (x ++ y); rewrite app_assoc; reflexivity).
    left. exists ((x ++ y) ++ [OTimerSnap l0 l1]), (VTimerSnap (List.length ((heap w ++ x) ++ y))). cbn [alloc set_heap heap ret]. rewrite !app_assoc.
    split; [reflexivity|]. split.
    + unfold tdata. rewrite nth_end. rewrite <- !app_assoc. rewrite (app_assoc (heap w) x). rewrite (hdata_app _ _ _ _ D'). rewrite <- !app_assoc in *.
      rewrite (app_assoc (heap w) x), (app_assoc (heap w ++ x) y). rewrite (mdata_app (((heap w ++ x) ++ y)) _ _ d) by (rewrite <- app_assoc; exact Dm'). reflexivity.
    + assert (Hk : exists k, nth_error (heap w ++ x) l0 = Some (OHistSnap k) /\ (over_reservoir (heap w) hi -> List.length (heap w) <= k)).
      { destruct hi; try discriminate.
        - destruct K as (l' & k & K1 & K2 & K3). inversion K1; subst. eauto.
        - inversion K; subst. unfold hdata in D'. match type of D' with context [nth_error ?h ?k] => destruct (nth_error h k) as [ob|] end; [|discriminate]. destruct ob; try discriminate. eexists. split; [reflexivity|]. intros []. }
      destruct Hk as (k & K1 & K2). eexists _, _, _, k. split; [reflexivity|]. split; [apply nth_end|]. split.
      * rewrite <- app_assoc. apply nth_app_l. exact K1.
      * intros (k0 & m0 & s0 & O' & Ok0 & R). rewrite O in O'. inversion O'; subst. apply K2. exists s0. auto.
  - left. exists [], (VTimerSnap l). rewrite app_nil_r. destruct w. cbn in *. auto.
  - left. exists [], VNilTimer. rewrite app_nil_r. destruct w. cbn in *. auto.
Qed.

Section Exp.
Variable mexp : f64 -> f64.
Notation step := (step mexp).
Notation run := (run mexp).

(** the result of Snapshot shows what the receiver shows, and is a snapshot (or a stub) *)
Lemma snapshot_ok (st : state) x v o st1 s d : inv st -> nth_error (snd st) x = Some v -> vdata o (heap (fst st)) v = Some d ->
  step st (OSnapshot x, o) = (st1, Some (Ok (RVal s))) ->
  st1 = (fst st1, snd st ++ [s]) /\ vdata o (heap (fst st1)) s = Some d /\ is_snap s = true /\
  (over_reservoir (heap (fst st)) v \/ snaps_quiet st -> frozen st1 s).
Proof.
  intros I E D H. pose proof H as Hst. unfold World.step in H. cbn [fst snd World.call] in H. rewrite E in H. cbn [obind] in H. unfold m_snapshot in H.
  pose proof (new_snap_quiet mexp st (OSnapshot x) o) as NQ. rewrite Hst in NQ. cbn [fst] in NQ. specialize (fun l => NQ l I Logic.I).
  pose proof (snaps_quiet_step mexp st (OSnapshot x) o I Logic.I) as SQ. rewrite Hst in SQ. cbn [fst] in SQ.
  assert (Env : st1 = (fst st1, snd st ++ [s])).
  { clear - H. destruct (match cls v with CCounter => _ | _ => _ end) as [m|]; [|discriminate]. destruct (m o (fst st)) as [w [r|msg]]; inversion H. reflexivity. }
  split; auto.
  assert (SD : forall n xs, (exists y t, sample_snapshot v o (fst st) = (set_heap (heap (fst st) ++ y) (fst st), Ok t)) -> cls v = CSample ->
     sample_snapshot v o (fst st) = (fst st1, Ok s) /\ (sdata (heap (fst st)) v = Some (n, xs) -> True)).
  { intros n xs (y & t & S) C. rewrite C in H. unfold v_rv, bind in H. rewrite S in H |- *. cbn [ret] in H. inversion H; subst. auto. }
  destruct v; cbn [cls] in H; try discriminate.
  - cbn [vdata] in D. unfold v_rv, counter_snapshot, c_do, c_load, bind, load in H. destruct (nth_error (heap (fst st)) l) as [[]|]; try discriminate. cbn in H. inversion H; subst. cbn. auto.
  - cbn in H. inversion H; subst. cbn. auto.
  - cbn in H. inversion H; subst. cbn. auto.
  - cbn [vdata] in D. unfold v_rv, gauge_snapshot, g_do, bind, load in H. destruct (nth_error (heap (fst st)) l) as [[]|]; try discriminate. cbn in H. inversion H; subst. cbn. auto.
  - cbn in H. inversion H; subst. cbn. auto.
  - cbn in H. inversion H; subst. cbn. auto.
  - cbn in H. inversion H; subst. cbn. auto.
  - cbn [vdata] in D. unfold v_rv, gaugef_snapshot, gf_do, bind, load in H. destruct (nth_error (heap (fst st)) l) as [[]|]; try discriminate. cbn in H. inversion H; subst. cbn. auto.
  - cbn in H. inversion H; subst. cbn. auto.
  - cbn in H. inversion H; subst. cbn. auto.
  - cbn in H. inversion H; subst. cbn. auto.
  - (* VUniform *) unfold vdata in D. destruct (sdata _ _) as [[n xs]|] eqn:S; [|discriminate]. inversion D; subst.
    destruct (sample_snapshot_ok _ o _ _ _ S) as (y & t & Es & Ds & k & -> & Hk). unfold v_rv, bind in H. rewrite Es in H. cbn [ret] in H. inversion H; subst.
    cbn [fst heap set_heap] in *. split; [unfold vdata; rewrite Ds; reflexivity|]. split; auto. intros _. cbn. apply NQ; auto.
  - unfold vdata in D. destruct (sdata _ _) as [[n xs]|] eqn:S; [|discriminate]. inversion D; subst.
    destruct (sample_snapshot_ok _ o _ _ _ S) as (y & t & Es & Ds & k & -> & Hk). unfold v_rv, bind in H. rewrite Es in H. cbn [ret] in H. inversion H; subst.
    cbn [fst heap set_heap] in *. split; [unfold vdata; rewrite Ds; reflexivity|]. split; auto. intros _. cbn. apply NQ; auto.
  - cbn in H. inversion H; subst. cbn [fst]. split; auto. split; auto. intros [R|R]; [destruct R|]. apply snaps_quiet_frozen. auto.
  - cbn in H. inversion H; subst. cbn. auto.
  - (* VHist *) unfold vdata in D. destruct (hdata _ _) as [[n xs]|] eqn:S; [|discriminate]. inversion D; subst.
    destruct (hist_snapshot_ok _ o _ _ _ S) as [(y & t & Es & Ds & k & s' & -> & Hk & Hf)|(y & Es)];
      unfold v_rv, bind in H; rewrite Es in H; [|discriminate]. cbn [ret] in H. inversion H; subst.
    cbn [fst heap set_heap] in *. split; [unfold vdata; rewrite Ds; reflexivity|]. split; auto.
    intros [R|R]; [|apply snaps_quiet_frozen; auto]. cbn [frozen fst]. intros s0 Hs. cbn [set_heap heap] in Hs. rewrite Hk in Hs. inversion Hs; subst. apply NQ; auto.
  - cbn in H. inversion H; subst. cbn [fst]. split; auto. split; auto. intros [R|R]; [destruct R|]. apply snaps_quiet_frozen. auto.
  - cbn in H. inversion H; subst. cbn. auto.
  - (* VEwma *) cbn [vdata] in D. unfold v_rv, ewma_snapshot, ewma_do, bind, load in H. destruct (nth_error (heap (fst st)) l) as [[]|]; try discriminate.
    rewrite snapshot_seq in H. cbn in H. inversion H; subst. cbn. auto.
  - cbn in H. inversion H; subst. cbn. auto.
  - cbn in H. inversion H; subst. cbn. auto.
  - (* VMeter *) unfold vdata in D. destruct (mdata _ _) as [n|] eqn:S; [|discriminate]. inversion D; subst.
    destruct (meter_snapshot_ok _ o _ _ S) as (y & t & Es & Ds & k & ->). unfold v_rv, bind in H. rewrite Es in H. cbn [ret] in H. inversion H; subst.
    cbn [fst heap set_heap] in *. split; [unfold vdata; rewrite Ds; reflexivity|]. split; auto. intros _. exact Logic.I.
  - cbn in H. inversion H; subst. cbn. auto.
  - cbn in H. inversion H; subst. cbn. auto.
  - (* VTimer *) unfold vdata in D. destruct (tdata _ _) as [[[n xs] sn]|] eqn:S; [|discriminate]. inversion D; subst.
    destruct (timer_snapshot_ok _ o _ _ _ _ S) as [(y & t & Es & Ds & k & hl & ml & s' & -> & Hk & Hh & Hf)|(y & Es)];
      unfold v_rv, bind in H; rewrite Es in H; [|discriminate]. cbn [ret] in H. inversion H; subst.
    cbn [fst heap set_heap] in *. split; [unfold vdata; rewrite Ds; reflexivity|]. split; auto.
    intros [R|R]; [|apply snaps_quiet_frozen; auto]. cbn [frozen fst]. intros hl0 ml0 s0 Hs. cbn [set_heap heap] in Hs |- *. rewrite Hk in Hs. inversion Hs; subst. rewrite Hh. intros X; inversion X; subst. apply NQ; auto.
  - cbn in H. inversion H; subst. cbn [fst]. split; auto. split; auto. intros [R|R]; [destruct R|]. apply snaps_quiet_frozen. auto.
  - cbn in H. inversion H; subst. cbn. auto.
Qed.

(** taking a snapshot only adds objects *)
Lemma lset_same {A} (l : list A) i a : nth_error l i = Some a -> lset l i a = l.
Proof. revert i. induction l as [|x l IH]; intros [|i] H; try discriminate; cbn in *; [now inversion H|]. now rewrite IH. Qed.
Lemma set_heap_same w : set_heap (heap w) w = w.
Proof. destruct w. reflexivity. Qed.
Lemma snapshot_extends (st : state) x v o : nth_error (snd st) x = Some v -> readable v = true -> inv st ->
  exists y, fst (fst (step st (OSnapshot x, o))) = set_heap (heap (fst st) ++ y) (fst st).
Proof.
  intros E R I. pose proof I as [W F].
  assert (V : vok (heap (fst st)) v) by (rewrite Forall_forall in F; apply F; eapply nth_error_In; eauto).
  assert (N : exists y, fst st = set_heap (heap (fst st) ++ y) (fst st)) by (exists []; rewrite app_nil_r; symmetry; apply set_heap_same).
  unfold World.step. cbn [fst snd World.call]. rewrite E. cbn [obind]. unfold m_snapshot. unfold readable in R.
  destruct (cls v) eqn:C; try discriminate.
  - destruct v; try discriminate; auto. cbn in V. destruct V as (ob & Eo & T). destruct ob; cbn in T; try discriminate.
    unfold v_rv, counter_snapshot, c_do, c_load, bind, load. rewrite Eo. cbn. rewrite (lset_same _ _ _ Eo). rewrite set_heap_same. auto.
  - destruct v; try discriminate; auto. cbn in V. destruct V as (ob & Eo & T). destruct ob; cbn in T; try discriminate.
    unfold v_rv, gauge_snapshot, g_do, bind, load. rewrite Eo. cbn. rewrite (lset_same _ _ _ Eo). rewrite set_heap_same. auto.
  - destruct v; try discriminate; auto. cbn in V. destruct V as (ob & Eo & T). destruct ob; cbn in T; try discriminate.
    unfold v_rv, gaugef_snapshot, gf_do, bind, load. rewrite Eo. cbn. rewrite (lset_same _ _ _ Eo). rewrite set_heap_same. auto.
  - destruct (sdata_ok _ _ W C V) as (n & xs & D). destruct (sample_snapshot_ok v o (fst st) n xs D) as (y & s & S & _). unfold v_rv, bind. rewrite S. cbn. eauto.
  - destruct (hdata_ok _ _ W C V) as (n & xs & D). destruct (hist_snapshot_ok v o (fst st) n xs D) as [(y & s & S & _)|(y & S)]; unfold v_rv, bind; rewrite S; cbn; eauto.
  - destruct v; try discriminate; auto. cbn in V. destruct V as (ob & Eo & T). destruct ob; cbn in T; try discriminate.
    unfold v_rv, ewma_snapshot, ewma_do, bind, load. rewrite Eo. rewrite snapshot_seq. cbn. rewrite (lset_same _ _ _ Eo). rewrite set_heap_same. auto.
  - destruct (mdata_ok _ _ W C V) as (d & D). destruct (meter_snapshot_ok v o (fst st) d D) as (y & s & S & _). unfold v_rv, bind. rewrite S. cbn. eauto.
  - destruct (tdata_ok _ _ W C V) as (n & xs & d & D). destruct (timer_snapshot_ok v o (fst st) n xs d D) as [(y & s & S & _)|(y & S)]; unfold v_rv, bind; rewrite S; cbn; eauto.
Qed.
Lemma tdata_app h x v d : tdata h v = Some d -> tdata (h ++ x) v = Some d.
Proof.
  destruct v; cbn [tdata]; auto; destruct (nth_error h l) as [ob|] eqn:E; try discriminate; rewrite (nth_app_l _ _ _ _ E); destruct ob; try discriminate; unfold opair;
    (destruct (hdata h _) eqn:A; [|discriminate]); (destruct (mdata h _) eqn:B; [|discriminate]); rewrite (hdata_app _ _ _ _ A), (mdata_app _ _ _ _ B); auto.
Qed.
Lemma vdata_app o h x v d : vdata o h v = Some d -> vdata o (h ++ x) v = Some d.
Proof.
  assert (S : forall f, option_map f (sdata h v) = Some d -> option_map f (sdata (h ++ x) v) = Some d).
  { intros f. destruct (sdata h v) eqn:E; [|discriminate]. now rewrite (sdata_app _ _ _ _ E). }
  assert (Hh : forall f, option_map f (hdata h v) = Some d -> option_map f (hdata (h ++ x) v) = Some d).
  { intros f. destruct (hdata h v) eqn:E; [|discriminate]. now rewrite (hdata_app _ _ _ _ E). }
  assert (Hm : forall f, option_map f (mdata h v) = Some d -> option_map f (mdata (h ++ x) v) = Some d).
  { intros f. destruct (mdata h v) eqn:E; [|discriminate]. now rewrite (mdata_app _ _ _ _ E). }
  assert (Ht : forall f, option_map f (tdata h v) = Some d -> option_map f (tdata (h ++ x) v) = Some d).
  { intros f. destruct (tdata h v) eqn:E; [|discriminate]. now rewrite (tdata_app _ _ _ _ E). }
  destruct v; unfold vdata; auto; destruct (nth_error h l) as [ob|] eqn:E; try discriminate; rewrite (nth_app_l _ _ _ _ E); auto.
Qed.
Lemma sample_values_data (st : state) k v o n xs : inv st -> nth_error (snd st) k = Some v -> sdata (heap (fst st)) v = Some (n, xs) ->
  values_of mexp st k o = Some (Ok (RZs xs)).
Proof.
  intros I E D. unfold values_of, World.step at 2. cbn [fst snd World.call]. rewrite E. cbn [obind]. unfold only.
  assert (C : cls v = CSample) by (destruct v; try discriminate; reflexivity). rewrite C. cbn [class_eqb].
  destruct st as [w e]. cbn [fst snd] in *.
  assert (G : exists a w', sample_values v o w = (w', Ok (VSlice a)) /\ nth_error (heap w') a = Some (OArr xs)).
  { pose proof (r_contents v o w n xs D) as R. destruct v; try discriminate;
      try (cbn [sample_values]; unfold bind; rewrite R; unfold new_slice, alloc; eexists _, _; (split; [reflexivity|]); cbn; apply nth_end).
    cbn in D. inversion D; subst. exists zero_base, w. split; auto. apply (wf_zero _ (proj1 I)). }
  destruct G as (a & w' & G1 & G2). unfold v_rv, bind. rewrite G1. cbn [ret fst snd yields].
  unfold World.step. cbn [fst snd World.call]. unfold arg. rewrite nth_end. cbn [cls obind slice_read]. unfold arr_get, bind, load. rewrite G2. reflexivity.
Qed.
End Exp.
