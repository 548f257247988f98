(** Property C42: histograms. *)
From Coq Require Import ZArith List String Bool Lia Arith.
From Verif.Model Require Import GoInt GoFloat GoBase Stats Uniform ExpDecay World.
From Verif.Spec Require Import ApiSpec.
From Verif.Proofs Require Import FloatFacts WorldBase WorldStep WorldReads WorldSnap.
From Verif.Props Require Import SnapshotProps.
Import ListNotations.
Local Open Scope nat_scope.
Local Open Scope list_scope.

(** the methods a histogram has in common with its sample *)
Inductive smethod := MClear | MCount | MStat (s : stat) | MPercentile (p : f64) | MPercentiles (ps : list f64) | MUpdate (n : Z).
Definition on (x : nat) (m : smethod) : op :=
  match m with
  | MClear => OClear x | MCount => OCount x | MStat s => OStat x s | MPercentile p => OPercentile x p
  | MPercentiles ps => OPercentiles x ps | MUpdate n => OUpdate x n
  end.
Definition reading (m : smethod) : bool := match m with MClear | MUpdate _ => false | _ => true end.
(** the histogram at [x] has the sample at [y] *)
Definition sample_at (mexp : f64 -> f64) (st : state) (x y : nat) (o : orc) : Prop :=
  exists s, nth_error (snd st) y = Some s /\ snd (step mexp st (OSample x, o)) = Some (Ok (RVal s)).

Lemma sample_at_eq mexp st x y o : sample_at mexp st x y o -> exists v s, nth_error (snd st) x = Some v /\ cls v = CHist /\ nth_error (snd st) y = Some s /\ forall o', hist_sample v o' (fst st) = (fst st, Ok s).
Proof.
  intros (s & Ey & H). unfold World.step in H. cbn [fst snd World.call] in H. unfold obind, only in H. destruct (nth_error (snd st) x) as [v|] eqn:Ex; [|discriminate].
  destruct v; cbn [cls class_eqb] in H; try discriminate; unfold v_rv, hist_sample, bind, load, ret in H; eexists _, s; (split; [reflexivity|]); (split; [reflexivity|]); (split; [exact Ey|]); intros o'; cbn [hist_sample]; unfold bind, load;
    try (destruct (nth_error (heap (fst st)) l) as [z|]; [|discriminate]; destruct z; cbn in H |- *; try discriminate); inversion H; subst; reflexivity.
Qed.
Lemma sample_cls w v o s : wf w -> vok (heap w) v -> hist_sample v o w = (w, Ok s) -> cls s = CSample /\ vok (heap w) s.
Proof.
  intros W V H. destruct v; cbn in H; try discriminate; [| |inversion H; subst; cbn; auto].
  - unfold bind, load in H. destruct V as (z & E & T). rewrite E in H. destruct z; cbn in T; try discriminate. inversion H; subst. pose proof (wf_obj _ W _ _ E) as O. exact O.
  - unfold bind, load in H. destruct V as (z & E & T). rewrite E in H. destruct z; cbn in T; try discriminate. inversion H; subst. pose proof (wf_obj _ W _ _ E) as O. cbn in O |- *. tauto.
Qed.

(** the sample given to NewHistogram is the histogram's sample for ever *)
Theorem C42_sample : forall mexp p y s o q o', let st := reach mexp p in
  usenil (fst st) = false -> nth_error (snd st) y = Some s -> cls s = CSample ->
  let st1 := fst (step mexp st (ONew (NHist y), o)) in
  snd (step mexp st (ONew (NHist y), o)) = Some (Ok (RVal (VHist (List.length (heap (fst st)))))) /\
  sample_at mexp (run mexp st1 q) (List.length (snd st)) y o'.
Proof.
  intros mexp p y s o q o' st. assert (I : inv st) by exact (reach_inv mexp p). clearbody st. intros U Ey C.
  pose proof (step_inv mexp st (ONew (NHist y)) o I) as (I1 & _).
  assert (S : step mexp st (ONew (NHist y), o) = ((set_heap (heap (fst st) ++ [OHist s]) (fst st), snd st ++ [VHist (List.length (heap (fst st)))]), Some (Ok (RVal (VHist (List.length (heap (fst st)))))))).
  { unfold World.step. cbn [fst snd World.call ctor_of]. unfold obind, arg. rewrite Ey, C. unfold v_rv, construct, new_hist, unless_nil, bind, gets. rewrite U. reflexivity. }
  rewrite S in *. cbn [fst snd] in *. split; [reflexivity|]. set (l := List.length (heap (fst st))) in *. set (st1 := (set_heap _ _, _)) in *.
  assert (H1 : nth_error (heap (fst st1)) l = Some (OHist s)) by (subst st1 l; cbn [fst heap set_heap]; apply nth_end).
  assert (H2 : forall q st1, inv st1 -> nth_error (heap (fst st1)) l = Some (OHist s) -> nth_error (heap (fst (run mexp st1 q))) l = Some (OHist s)).
  { clear. induction q as [|[c o] q IH]; intros st1 I E; [exact E|]. change (run mexp st1 ((c, o) :: q)) with (run mexp (fst (step mexp st1 (c, o))) q). apply IH; [apply step_inv; auto|].
    destruct (step_inv mexp st1 c o I) as (_ & (_ & L & _) & _). destruct (L _ _ E) as (z & Ez & X). rewrite Ez. destruct z; cbn in X; try discriminate X. congruence. }
  exists s. assert (N : nth_error (snd st1) y = Some s) by (apply nth_app_l; exact Ey). split; [apply run_env; exact N|].
  assert (Nx : nth_error (snd (run mexp st1 q)) (List.length (snd st)) = Some (VHist l)) by (apply run_env; apply nth_end).
  unfold World.step. cbn [fst snd World.call]. unfold obind, only. rewrite Nx. cbn [cls class_eqb]. unfold v_rv, hist_sample, bind, load. rewrite (H2 q st1 I1 H1). reflexivity.
Qed.

(** calling one of these methods on a histogram is calling it on its sample: same result, same effect *)
Theorem C42_delegates : forall mexp p x y m o, let st := reach mexp p in
  sample_at mexp st x y o -> step mexp st (on x m, o) = step mexp st (on y m, o).
Proof.
  intros mexp p x y m o st. assert (I : inv st) by exact (reach_inv mexp p). clearbody st. intros S.
  destruct (sample_at_eq mexp st x y o S) as (v & s & Ex & C & Ey & H).
  assert (V : vok (heap (fst st)) v) by (destruct I as [_ F]; rewrite Forall_forall in F; apply F; eapply nth_error_In; eauto).
  destruct (sample_cls (fst st) v o s (proj1 I) V (H o)) as [Cs _].
  assert (B : forall A (f : val -> M A) o', bind (hist_sample v) f o' (fst st) = f s o' (fst st)) by (intros; unfold bind; now rewrite H).
  assert (Sn : forall l, v = VHistSnap l -> exists k, s = VSampleSnap k).
  { intros l ->. specialize (H o). cbn in H. unfold bind, load in H. destruct (nth_error (heap (fst st)) l) as [z|]; [|discriminate]. destruct z; inversion H; eauto. }
  unfold World.step. cbn [fst snd]. destruct m; cbn [on World.call]; unfold obind; rewrite Ex, Ey; unfold m_clear, m_count, m_stat, m_percentiles, m_update; rewrite C, Cs.
  - assert (K : unit_rv (hist_clear v) o (fst st) = unit_rv (sample_clear s) o (fst st)).
    { unfold unit_rv. destruct v; try discriminate C; unfold hist_clear; try (unfold bind at 1 3; rewrite B; reflexivity).
      destruct (Sn l eq_refl) as (k & ->). reflexivity. }
    rewrite K. reflexivity.
  - unfold z_rv, hist_count. unfold bind at 1 3. rewrite B. reflexivity.
  - unfold hist_stat. rewrite B. reflexivity.
  - unfold f_rv, hist_percentiles. unfold bind at 1 2 4 5. rewrite B. reflexivity.
  - unfold hist_percentiles. unfold bind at 1 3. rewrite B. reflexivity.
  - assert (K : unit_rv (hist_update mexp n v) o (fst st) = unit_rv (sample_update mexp n s) o (fst st)).
    { unfold unit_rv. destruct v; try discriminate C; unfold hist_update; try (unfold bind at 1 3; rewrite B; reflexivity).
      destruct (Sn l eq_refl) as (k & ->). reflexivity. }
    rewrite K. reflexivity.
Qed.

(** Clear: afterwards Count is 0 and every statistic is that of no values *)
Theorem C42_clear : forall mexp p x v o o', let st := reach mexp p in
  nth_error (snd st) x = Some v -> cls v = CHist -> over_reservoir (heap (fst st)) v ->
  let st1 := fst (step mexp st (OClear x, o)) in
  snd (step mexp st (OClear x, o)) = Some (Ok RUnit) /\
  snd (step mexp st1 (OCount x, o')) = Some (Ok (RZ 0)) /\
  (forall k, snd (step mexp st1 (OStat x k, o')) = Some (Ok (match k with SMax | SMin | SSum => RZ 0 | _ => RF f_zero end))) /\
  (forall ps, snd (step mexp st1 (OPercentiles x ps, o')) = Some (Ok (RFs (map (fun _ => f_zero) ps)))).
Proof.
  intros mexp p x v o o' st. assert (I : inv st) by exact (reach_inv mexp p). clearbody st. intros Ex C O.
  assert (G : snd (step mexp st (OClear x, o)) = Some (Ok RUnit) /\ (v = VNilHist \/ vdata o' (heap (fst (fst (step mexp st (OClear x, o))))) v = Some (DHist 0 []))).
  { unfold World.step. cbn [fst snd World.call]. unfold obind. rewrite Ex. unfold m_clear. rewrite C. destruct v; try discriminate C; cbn in O; try contradiction; [|auto].
    destruct O as (s & El & R).
    assert (V : vok (heap (fst st)) s) by (pose proof (wf_obj _ (proj1 I) _ _ El) as K; cbn in K; tauto).
    assert (HS : hist_clear (VHist l) o (fst st) = sample_clear s o (fst st)) by (unfold hist_clear, hist_sample, bind, load; rewrite El; reflexivity).
    unfold unit_rv. unfold bind. rewrite HS.
    destruct s; cbn in R; try contradiction; cbn [sample_clear].
    - destruct V as (z & Ez & T). destruct z; cbn in T; try discriminate. unfold uni_get. unfold bind, load. rewrite Ez. cbn [ret new_slice alloc]. unfold alloc, store, ret. cbn [fst snd set_heap heap alloc]. split; [reflexivity|]. right.
      cbn [vdata hdata]. assert (D : l0 <> l) by congruence. pose proof (nth_lt _ _ _ El) as Ll. pose proof (nth_lt _ _ _ Ez) as Lz.
      rewrite lset_nth_neq by auto. rewrite (nth_app_l _ _ _ _ El). cbn [sdata]. rewrite lset_nth_eq by (rewrite app_length; lia). unfold arrdata. rewrite lset_nth_neq by lia. rewrite nth_end. reflexivity.
    - destruct V as (z & Ez & T). destruct z; cbn in T; try discriminate. unfold exp_get. unfold bind, load, ask. rewrite Ez. cbn [ret]. unfold store, ret. cbn [fst snd set_heap heap]. split; [reflexivity|]. right.
      cbn [vdata hdata]. assert (D : l0 <> l) by congruence. pose proof (nth_lt _ _ _ Ez) as Lz. rewrite lset_nth_neq by auto. rewrite El. cbn [sdata]. rewrite lset_nth_eq by auto. reflexivity. }
  destruct G as [G D]. cbv zeta. split; [exact G|]. pose proof (step_env mexp st (OClear x) o x v Ex) as E1.
  assert (D' : vdata o' (heap (fst (fst (step mexp st (OClear x, o))))) v = Some (DHist 0 [])) by (destruct D as [->|D]; [reflexivity|exact D]). clear D. set (st1 := fst (step mexp st (OClear x, o))) in *. clearbody st1.
  split; [|split].
  - rewrite (read_ok mexp st1 (OCount x) o' x v (DHist 0 []) eq_refl E1 D'). reflexivity.
  - intros k. rewrite (read_ok mexp st1 (OStat x k) o' x v (DHist 0 []) eq_refl E1 D'). destruct k; reflexivity.
  - intros ps. rewrite (read_ok mexp st1 (OPercentiles x ps) o' x v (DHist 0 []) eq_refl E1 D'). unfold read_data. cbn [dist option_map]. rewrite zeros_eq. reflexivity.
Qed.

(** Snapshot of a histogram panics exactly if its sample is a NilSample, otherwise returns a
    snapshot on which the readings are those of the sample *)
Theorem C42_snapshot : forall mexp p x y v s o, let st := reach mexp p in
  nth_error (snd st) x = Some v -> (exists l, v = VHist l) -> sample_at mexp st x y o -> nth_error (snd st) y = Some s ->
  if match s with VNilSample => true | _ => false end
  then step mexp st (OSnapshot x, o) = (st, Some (Panic msg_type))
  else exists k, snd (step mexp st (OSnapshot x, o)) = Some (Ok (RVal (VHistSnap k))) /\
    forall m, reading m = true -> snd (step mexp (fst (step mexp st (OSnapshot x, o))) (on (List.length (snd st)) m, o)) = snd (step mexp st (on y m, o)).
Proof.
  intros mexp p x y v s o st Ex [l ->] S Ey. pose proof (reach_inv mexp p) as I. fold st in I.
  destruct (sample_at_eq mexp st x y o S) as (v' & s' & Ex' & C & Ey' & H). rewrite Ex in Ex'. inversion Ex'; subst v'. rewrite Ey in Ey'. inversion Ey'; subst s'. clear Ex' Ey'.
  assert (V : vok (heap (fst st)) (VHist l)) by (destruct I as [_ F]; rewrite Forall_forall in F; apply F; eapply nth_error_In; eauto).
  destruct (sample_cls (fst st) _ o s (proj1 I) V (H o)) as [Cs Vs].
  assert (Sn : s <> VNilSample -> exists w k, sample_snapshot s o (fst st) = (w, Ok (VSampleSnap k))).
  { intros N. destruct (sdata_ok (fst st) s (proj1 I) Cs Vs) as (n & xs & D). destruct s; try discriminate Cs; try congruence; cbn [sample_snapshot sdata] in *.
    - destruct (nth_error (heap (fst st)) l0) as [z|] eqn:Ez; [|discriminate]. destruct z; try discriminate. unfold arrdata in D. destruct (nth_error (heap (fst st)) arr) as [z|] eqn:Ea; [|discriminate]. destruct z; try discriminate.
      unfold uni_get, arr_get, new_slice, bind, load, alloc, ret. rewrite Ez, Ea. eauto.
    - destruct (nth_error (heap (fst st)) l0) as [z|] eqn:Ez; [|discriminate]. destruct z; try discriminate. unfold exp_get, new_slice, bind, load, alloc, ret. rewrite Ez. eauto.
    - eexists _, _; reflexivity. }
  assert (R : step mexp st (OSnapshot x, o) = match hist_snapshot (VHist l) o (fst st) with (w, Ok u) => ((w, snd st ++ [u]), Some (Ok (RVal u))) | (w, Panic msg) => ((w, snd st), Some (Panic msg)) end).
  { unfold World.step. cbn [fst snd World.call]. unfold obind. rewrite Ex. unfold m_snapshot. cbn [cls]. unfold v_rv, bind at 1. destruct (hist_snapshot (VHist l) o (fst st)) as [w [u|msg]]; reflexivity. }
  assert (Hs : hist_snapshot (VHist l) o (fst st) = bind (sample_snapshot s) (fun c => match c with VSampleSnap k => h <- alloc (OHistSnap k);; ret (VHistSnap h) | _ => throw msg_type end) o (fst st)).
  { unfold hist_snapshot. unfold bind at 1. rewrite H. reflexivity. }
  destruct (match s with VNilSample => true | _ => false end) eqn:N.
  - assert (s = VNilSample) by (destruct s; try discriminate; reflexivity). subst s. rewrite R, Hs. unfold bind, ret. cbn [sample_snapshot ret throw]. destruct st; reflexivity.
  - destruct Sn as (w & k & Sn); [intros ->; discriminate|]. unfold bind at 1 in Hs. rewrite Sn in Hs. unfold bind, alloc, ret in Hs.
    rewrite Hs in R. exists (List.length (heap w)). split; [rewrite R; reflexivity|]. intros m Hm.
    assert (K : step mexp st (OSnapshot x, o) = (fst (step mexp st (OSnapshot x, o)), Some (Ok (RVal (VHistSnap (List.length (heap w))))))) by (rewrite R; reflexivity).
    pose proof (C42_delegates mexp p x y m o S) as Dl. fold st in Dl. rewrite <- Dl.
    assert (Rd : reads (on x m) = Some x) by (destruct m; try discriminate Hm; reflexivity).
    pose proof (C04_snapshot_agrees mexp p x o _ _ (on x m) K Rd) as Ag. fold st in Ag. rewrite <- Ag. destruct m; try discriminate Hm; reflexivity.
Qed.

(** a histogram over a uniform sample with two values, and one over a NilSample *)
Definition hist2 : list (op * orc) :=
  [(ONew (NUniform 3), orc0); (ONew (NHist 1), orc0); (OUpdate 2 7, orc0); (OUpdate 1 4, orc0);
   (OSetNil true, orc0); (ONew (NExp 3 f_half), orc0); (OSetNil false, orc0); (ONew (NHist 3), orc0)].
Example C42_example : forall mexp, let st := reach mexp hist2 in
  sample_at mexp st 2 1 orc0 /\ snd (step mexp st (OStat 2 SMax, orc0)) = Some (Ok (RZ 7)) /\ snd (step mexp st (OCount 2, orc0)) = Some (Ok (RZ 2)) /\
  (exists l, nth_error (snd st) 2 = Some (VHist l) /\ over_reservoir (heap (fst st)) (VHist l)) /\
  sample_at mexp st 4 3 orc0 /\ nth_error (snd st) 3 = Some VNilSample /\ (exists l, nth_error (snd st) 4 = Some (VHist l)) /\
  snd (step mexp st (OSnapshot 4, orc0)) = Some (Panic msg_type).
Proof.
  intros mexp. cbv zeta. split; [eexists; split; reflexivity|]. split; [reflexivity|]. split; [reflexivity|]. split; [eexists; split; [reflexivity|]; eexists; split; [reflexivity|exact Logic.I]|].
  split; [eexists; split; reflexivity|]. split; [reflexivity|]. split; [eexists; reflexivity|reflexivity].
Qed.
