(** What samples hold, after any program. *)
From Coq Require Import ZArith List String Bool Lia Arith Permutation.
From Verif.Model Require Import GoInt GoFloat GoBase Stats Uniform ExpDecay Conc CounterGauge Ewma Meter World.
From Verif.Spec Require Import Reservoir DecaySpec RegistrySpec TimerSpec ContentSpec.
From Verif.Proofs Require Import IntFacts FloatFacts SortFacts StatsInt ListFacts UniformProofs ExpDecayProofs WorldBase WorldStep WorldFrame WorldArrays WorldReads Calm Content.
Import ListNotations.
Local Open Scope nat_scope.
Local Open Scope list_scope.

Section Exp.
Variable mexp : f64 -> f64.

(** what the receiver of a writing call stands for, and the sample it feeds *)
Lemma saim_self w s t k : feeds w t = Some s -> same_sample s s = true -> saim (heap w) s k -> aim (heap w) t k.
Proof.
  intros F S A. destruct t; cbn in F; try discriminate.
  - inversion F; subst. exact A.
  - inversion F; subst. exact A.
  - destruct (nth_error (heap w) l) as [y|] eqn:E; [|discriminate]. destruct y; try discriminate. inversion F; subst. cbn. eauto.
  - destruct (nth_error (heap w) l) as [y|] eqn:E; [|discriminate]. destruct y; try discriminate. destruct h; try discriminate. cbn in F.
    destruct (nth_error (heap w) l0) as [y|] eqn:E1; [|discriminate]. destruct y; try discriminate. inversion F; subst. cbn. exists (VHist l0), m. split; auto. cbn. eauto.
Qed.
Lemma aim_feeds w t k : aim (heap w) t k -> match t with VCounter l | VGauge l | VGaugeF l | VSlice l => k = l | _ => exists s, feeds w t = Some s /\ saim (heap w) s k end.
Proof.
  destruct t; cbn; try contradiction; auto.
  - intros H. exists (VUniform l). auto.
  - intros H. exists (VExp l). auto.
  - intros (s & E & A). rewrite E. eauto.
  - intros (hi & m & E & A). rewrite E. destruct hi; cbn in A; try contradiction. destruct A as (s & E1 & A). cbn. rewrite E1. eauto.
Qed.

Lemma same_eq (s t : val) : same_sample s t = true -> t = s.
Proof. destruct s, t; cbn; try discriminate; intros H; apply Nat.eqb_eq in H; now subst. Qed.
Lemma hist_go {A} (s : val) (f : val -> M A) w v o : hist_on w v = Some s -> bind (hist_sample v) f o w = f s o w.
Proof. destruct v; cbn; try discriminate. unfold bind, load. destruct (nth_error (heap w) l) as [y|]; [|discriminate]. destruct y; try discriminate. intros H. inversion H; subst. reflexivity. Qed.
Lemma hist_on_hist (s : val) w v : hist_on w v = Some s -> exists l, v = VHist l.
Proof. destruct v; try discriminate. eauto. Qed.

Definition event_call (c : op) : option nat := match c with OUpdate y _ | OTimeEnd y _ | OUpdateSince y _ | OClear y => Some y | _ => None end.
Lemma noted_none (s : val) (st : state) c o : (forall y v, event_call c = Some y -> nth_error (snd st) y = Some v -> feeds (fst st) v <> Some s) -> noted s st c o = [].
Proof.
  intros H. destruct c; try reflexivity; cbn [event_call] in H; cbn [noted]; destruct (nth_error (snd st) x) as [v|] eqn:E; try reflexivity; specialize (H x v eq_refl E);
    destruct (feeds (fst st) v) as [t|]; try reflexivity; destruct (same_sample s t) eqn:S; try reflexivity; apply same_eq in S; congruence.
Qed.
Section Sample.
Variable s : val.
Hypothesis s_sample : same_sample s s = true.
(** what is known of the world after some events *)
Variable G : world -> list revent -> Prop.
Hypothesis G_update : forall w es d o, G w es -> few (es ++ [RecordV d]) -> G (fst (sample_update mexp d s o w)) (es ++ [RecordV d]) /\ snd (sample_update mexp d s o w) = Ok tt.
Hypothesis G_clear : forall w es o, G w es -> G (fst (sample_clear s o w)) (es ++ [ResetAll]) /\ snd (sample_clear s o w) = Ok tt.
Hypothesis G_spared : forall w w' es, G w es -> spared (fun _ => False) (heap w) (heap w') -> G w' es.

(** a timer: the histogram's update, then the meter's mark *)
Lemma timer_go w es d hi m o : G w es -> few (es ++ [RecordV d]) -> hist_on w hi = Some s ->
  G (fst (bind (hist_update mexp d hi) (fun _ => meter_mark 1 m) o w)) (es ++ [RecordV d]).
Proof using s_sample G_update G_spared.
  intros g F H. destruct (hist_on_hist _ _ _ H) as (l & ->). destruct (G_update w es d o g F) as [g' R]. unfold bind at 1.
  change (hist_update mexp d (VHist l) o w) with (bind (hist_sample (VHist l)) (sample_update mexp d) o w). rewrite (hist_go _ _ _ _ _ H).
  destruct (sample_update mexp d s o w) as [w1 r]. cbn [fst snd] in *. subst r. eapply G_spared; [exact g'|]. apply sp_mark.
Qed.
(** the call is aimed at the sample *)
Lemma event_step (st : state) es c o y v : event_call c = Some y -> nth_error (snd st) y = Some v -> feeds (fst st) v = Some s -> G (fst st) es -> few (es ++ noted s st c o) ->
  G (fst (fst (step mexp st (c, o)))) (es ++ noted s st c o) /\
  (noted s st c o <> [] -> (forall l, v <> VTimer l) -> snd (step mexp st (c, o)) = Some (Ok RUnit)).
Proof using s_sample G_update G_clear G_spared.
  intros Hc E F g Fw.
  assert (Nn : noted s st c o = match c, v with
    | OUpdate _ _, _ => [RecordV (duration c o)] | OTimeEnd _ _, VTimer _ | OUpdateSince _ _, VTimer _ => [RecordV (duration c o)]
    | OClear _, VTimer _ => [] | OClear _, _ => [ResetAll] | _, _ => [] end).
  { destruct c; cbn in Hc; try discriminate; inversion Hc; subst; cbn [noted]; rewrite E, F, s_sample; destruct v; reflexivity. }
  assert (U : forall n : M unit, World.call mexp (snd st) c = Some (unit_rv n) ->
     fst (fst (step mexp st (c, o))) = fst (n o (fst st)) /\ (snd (n o (fst st)) = Ok tt -> snd (step mexp st (c, o)) = Some (Ok RUnit))).
  { intros n C. unfold World.step. cbn [fst snd]. rewrite C. unfold unit_rv, bind. destruct (n o (fst st)) as [w1 [[]|m]]; cbn; split; auto; discriminate. }
  assert (Z : World.call mexp (snd st) c = None -> noted s st c o = [] -> G (fst (fst (step mexp st (c, o)))) (es ++ noted s st c o) /\ (noted s st c o <> [] -> (forall l, v <> VTimer l) -> snd (step mexp st (c, o)) = Some (Ok RUnit))).
  { intros C N. rewrite N, app_nil_r. unfold World.step. cbn [fst snd]. rewrite C. split; auto; congruence. }
  assert (RH : forall l d, v = VHist l -> hist_update mexp d v o (fst st) = sample_update mexp d s o (fst st)) by (intros l d ->; exact (hist_go s (sample_update mexp d) _ _ _ F)).
  assert (CH : forall l, v = VHist l -> hist_clear v o (fst st) = sample_clear s o (fst st)) by (intros l ->; exact (hist_go s sample_clear _ _ _ F)).
  assert (RT : forall l d, v = VTimer l -> few (es ++ [RecordV d]) -> G (fst (timer_update mexp d v o (fst st))) (es ++ [RecordV d])).
  { intros l d -> Fd. cbn [feeds] in F. destruct (nth_error (heap (fst st)) l) as [z|] eqn:El; [|discriminate]. destruct z; try discriminate.
    cbn [timer_update timer_get]. unfold bind at 1 2, load. rewrite El. cbn [ret]. now apply timer_go. }
  assert (RS : forall l ts, v = VTimer l -> few (es ++ [RecordV (time_sub (o_now o) ts)]) -> G (fst (timer_update_since mexp ts v o (fst st))) (es ++ [RecordV (time_sub (o_now o) ts)])).
  { intros l d -> Fd. cbn [feeds] in F. destruct (nth_error (heap (fst st)) l) as [z|] eqn:El; [|discriminate]. destruct z; try discriminate.
    cbn [timer_update_since]. unfold bind at 1, ask. cbn [timer_get]. unfold bind at 1 2, load. rewrite El. cbn [ret]. now apply timer_go. }
  assert (SK : forall l, (v = VUniform l \/ v = VExp l) -> v = s) by (intros l [-> | ->]; cbn in F; congruence).
  destruct c; cbn in Hc; try discriminate; inversion Hc; subst x; cbn [World.call] in *; rewrite E in *; cbn [obind] in *; rewrite Nn in *.
  - (* Clear *) destruct v; cbn in F; try discriminate.
    + assert (W : VUniform l = s) by eauto. destruct (U (sample_clear (VUniform l)) eq_refl) as [Hh Hr]. rewrite Hh, W. destruct (G_clear _ _ o g) as [g' R]. split; auto. intros _ _. apply Hr. now rewrite W.
    + assert (W : VExp l = s) by eauto. destruct (U (sample_clear (VExp l)) eq_refl) as [Hh Hr]. rewrite Hh, W. destruct (G_clear _ _ o g) as [g' R]. split; auto. intros _ _. apply Hr. now rewrite W.
    + destruct (U (hist_clear (VHist l)) eq_refl) as [Hh Hr]. rewrite Hh, (CH l eq_refl). destruct (G_clear _ _ o g) as [g' R]. split; auto. intros _ _. apply Hr. now rewrite (CH l eq_refl).
    + apply Z; reflexivity.
  - (* Update *) cbn [duration] in *. destruct v; cbn in F; try discriminate.
    + assert (W : VUniform l = s) by eauto. destruct (U (sample_update mexp n (VUniform l)) eq_refl) as [Hh Hr]. rewrite Hh, W. destruct (G_update _ _ n o g Fw) as [g' R]. split; auto. intros _ _. apply Hr. now rewrite W.
    + assert (W : VExp l = s) by eauto. destruct (U (sample_update mexp n (VExp l)) eq_refl) as [Hh Hr]. rewrite Hh, W. destruct (G_update _ _ n o g Fw) as [g' R]. split; auto. intros _ _. apply Hr. now rewrite W.
    + destruct (U (hist_update mexp n (VHist l)) eq_refl) as [Hh Hr]. rewrite Hh, (RH l n eq_refl). destruct (G_update _ _ n o g Fw) as [g' R]. split; auto. intros _ _. apply Hr. now rewrite (RH l n eq_refl).
    + destruct (U (timer_update mexp n (VTimer l)) eq_refl) as [Hh Hr]. rewrite Hh. split; [apply (RT l n eq_refl Fw)|]. intros _ K. exfalso. eapply K; reflexivity.
  - (* Time *) cbn [duration] in *. destruct v; cbn in F; try discriminate; try (apply Z; reflexivity).
    destruct (U (timer_end mexp ts (VTimer l)) eq_refl) as [Hh Hr]. rewrite Hh. split; [|intros _ K; exfalso; eapply K; reflexivity]. unfold timer_end, bind at 1, ask. apply (RT l _ eq_refl Fw).
  - (* UpdateSince *) cbn [duration] in *. destruct v; cbn in F; try discriminate; try (apply Z; reflexivity).
    destruct (U (timer_update_since mexp ts (VTimer l)) eq_refl) as [Hh Hr]. rewrite Hh. split; [|intros _ K; exfalso; eapply K; reflexivity]. apply (RS l _ eq_refl Fw).
Qed.
End Sample.

Lemma feeds_vok w v t : wf w -> vok (heap w) v -> feeds w v = Some t -> vok (heap w) t.
Proof.
  intros W V F.
  assert (H : forall l t, hist_on w (VHist l) = Some t -> vok (heap w) t).
  { intros l u E. cbn in E. destruct (nth_error (heap w) l) as [y|] eqn:El; [|discriminate]. destruct y; try discriminate. inversion E; subst. pose proof (wf_obj _ W _ _ El) as O. cbn in O. tauto. }
  destruct v; cbn [feeds] in F; try discriminate; try (inversion F; subst; exact V).
  - eapply H; eauto.
  - destruct (nth_error (heap w) l) as [y|] eqn:El; [|discriminate]. destruct y; try discriminate. destruct h; try discriminate. eapply H; eauto.
Qed.
(** a call on a sample, a histogram or a timer that writes is one of the four *)
Lemma writes_event (st : state) c v s : writes_on (snd st) c = Some v -> feeds (fst st) v = Some s -> World.call mexp (snd st) c <> None -> exists y, event_call c = Some y /\ nth_error (snd st) y = Some v.
Proof.
  intros W F C. destruct c; cbn in W; try discriminate; cbn [event_call]; eauto; exfalso; apply C; cbn [World.call]; unfold obind, arg, only; rewrite W; destruct v; try discriminate F; reflexivity.
Qed.
Definition elsewhere (s : val) (st : state) (c : op) : Prop := forall y v, event_call c = Some y -> nth_error (snd st) y = Some v -> feeds (fst st) v <> Some s.
Lemma here_or_elsewhere s (st : state) c : same_sample s s = true -> (exists y v, event_call c = Some y /\ nth_error (snd st) y = Some v /\ feeds (fst st) v = Some s) \/ elsewhere s st c.
Proof.
  intros S. unfold elsewhere. destruct (event_call c) as [y|]; [|right; discriminate]. destruct (nth_error (snd st) y) as [v|] eqn:E; [|right; intros ? ? H; inversion H; subst; congruence].
  destruct (feeds (fst st) v) as [t|] eqn:F; [|right; intros y' v' Hy Hv; inversion Hy; subst; rewrite E in Hv; inversion Hv; subst; congruence].
  destruct (same_sample s t) eqn:T.
  - left. exists y, v. repeat split; auto. rewrite F. f_equal. now apply same_eq.
  - right. intros y' v' Hy Hv. inversion Hy; subst. rewrite E in Hv. inversion Hv; subst. rewrite F. intros X. inversion X; subst. congruence.
Qed.

(** ** UniformSample *)
(** no sample's array is in the hands of the program *)
Definition hidden (st : state) : Prop := forall l c n a, nth_error (heap (fst st)) l = Some (OUniform c n a) -> ~ In (VSlice a) (snd st).
Lemma hidden_step (st : state) c o : inv st -> hidden st -> hidden (fst (step mexp st (c, o))).
Proof.
  intros I H l k n a E X. destruct (step_inv mexp st c o I) as (I' & (Len & L & LN) & (ex & Ee & Gv) & _). rewrite Ee in X.
  assert (V : forall b, In (VSlice b) (snd st) -> b < List.length (heap (fst st))).
  { intros b Hb. pose proof (proj2 I) as F. rewrite Forall_forall in F. destruct (F _ Hb) as (y & Ey & _). eapply nth_lt; eauto. }
  assert (P : ~ In (VSlice a) (snd st)).
  { destruct (nth_error (heap (fst st)) l) as [y|] eqn:El.
    - destruct (L _ _ El) as (y' & Ey & C). rewrite E in Ey. inversion Ey; subst y'. destruct y; cbn in C; try discriminate; try contradiction. destruct C as (-> & [-> | C]); [eapply H; eauto|]. intros Q. apply V in Q. lia.
    - apply nth_error_None in El. pose proof (LN _ _ El E) as Fr. cbn in Fr. intros Q. apply V in Q. lia. }
  apply in_app_iff in X. destruct X as [X|X]; [auto|]. rewrite Forall_forall in Gv. specialize (Gv _ X). cbn [gives] in Gv. destruct Gv as [Q|[Q|(Q & C)]]; [auto| |].
  - pose proof (wf_obj _ (proj1 I') _ _ E) as O. cbn in O. unfold zero_base in Q. lia.
  - assert (Hp : exists z, heap (fst (fst (step mexp st (c, o)))) = heap (fst st) ++ z /\ forall i y, nth_error z i = Some y -> tag_of y = TArr).
    { revert C. apply (step_heap mexp st c o (fun h => match c with OValues _ | OMakeSlice _ => True | _ => False end -> exists z, h = heap (fst st) ++ z /\ forall i y, nth_error z i = Some y -> tag_of y = TArr)).
      - intros _ _. exists []. rewrite app_nil_r. split; auto. intros [|] y; discriminate.
      - intros m Hm C. assert (Z0 : exists z, heap (fst st) = heap (fst st) ++ z /\ forall i y, nth_error z i = Some y -> tag_of y = TArr) by (exists []; rewrite app_nil_r; split; auto; intros [|] y; discriminate).
        assert (Z1 : forall xs, exists z, heap (fst st) ++ [OArr xs] = heap (fst st) ++ z /\ forall i y, nth_error z i = Some y -> tag_of y = TArr) by (intros xs; eexists; split; [reflexivity|]; intros [|[|]] y Y; inversion Y; reflexivity).
        destruct c; try contradiction; cbn [World.call] in Hm.
        + inversion Hm; subst. unfold v_rv, bind, new_slice, alloc, ret. cbn. apply Z1.
        + unfold obind, only in Hm. destruct (nth_error (snd st) x) as [v|]; [|discriminate]. destruct (class_eqb (cls v) CSample); [|discriminate]. inversion Hm; subst m. clear Hm. unfold v_rv.
          assert (SC : forall u, fst (sample_contents u o (fst st)) = fst st).
          { intros u. unfold sample_contents, uni_get, exp_get, ssnap_get, arr_get, bind, load. destruct u; try reflexivity; (destruct (nth_error (heap (fst st)) l0) as [y|]; [|reflexivity]); destruct y; try reflexivity; cbn [ret]; (destruct (nth_error (heap (fst st)) arr) as [y|]; [|reflexivity]); destruct y; reflexivity. }
          unfold bind. assert (SV : exists z, heap (fst (sample_values v o (fst st))) = heap (fst st) ++ z /\ forall i y, nth_error z i = Some y -> tag_of y = TArr).
          { assert (G : exists z, heap (fst (bind (sample_contents v) (fun xs => bind (new_slice xs) (fun a => ret (VSlice a))) o (fst st))) = heap (fst st) ++ z /\ forall i y, nth_error z i = Some y -> tag_of y = TArr).
            { unfold bind at 1. specialize (SC v). destruct (sample_contents v o (fst st)) as [w1 [xs|]]; cbn [fst] in SC; subst w1; [|exact Z0]. cbn. apply Z1. }
            unfold sample_values. destruct v; first [exact G|exact Z0]. }
          destruct (sample_values v o (fst st)) as [w1 [r|]]; cbn [fst] in *; exact SV. }
    destruct Hp as (z & Ez & Tz). rewrite Ez in E. destruct (le_lt_dec (List.length (heap (fst st))) l) as [Ll|Ll].
    + rewrite nth_error_app2 in E by auto. apply Tz in E. discriminate.
    + rewrite nth_error_app1 in E by auto. pose proof (wf_obj _ (proj1 I) _ _ E) as O. cbn in O. destruct O as [(y & Ey & _) _]. apply nth_lt in Ey. lia.
Qed.
Lemma hidden_init : hidden state_init.
Proof. intros l c n a E. destruct l as [|[|[|]]]; discriminate. Qed.
Lemma hidden_run q : forall st, inv st -> hidden st -> hidden (run mexp st q).
Proof. induction q as [|[c o] q IH]; intros st I H; auto. rewrite run_cons. apply IH; [apply (step_inv mexp st c o I)|now apply hidden_step]. Qed.

Definition ug (l : nat) (n : Z) (w : world) (es : list revent) : Prop :=
  exists a ys, nth_error (heap w) l = Some (OUniform (slen (recorded es)) n a) /\ nth_error (heap w) a = Some (OArr ys) /\ uinv n (MkUniform (slen (recorded es)) n ys) (recorded es).
Lemma uinv_perm n c ys zs r : uinv n (MkUniform c n ys) r -> Permutation ys zs -> uinv n (MkUniform c n zs) r.
Proof.
  intros (A & B & C & D) P. cbn in *. repeat split; cbn; auto.
  - rewrite <- C. unfold slen. now rewrite (Permutation_length P).
  - eapply submultiset_perm_l; eauto.
Qed.
Lemma few_last es v : few (es ++ [RecordV v]) -> (slen (recorded es) + 1 < 2 ^ 63)%Z.
Proof. intros F. specialize (F (es ++ [RecordV v]) [] ltac:(now rewrite app_nil_r)). rewrite recorded_snoc in F. cbn [rec_step] in F. rewrite slen_app in F. exact F. Qed.
Lemma ug_update l n w es d o : (0 <= n)%Z -> ug l n w es -> few (es ++ [RecordV d]) ->
  ug l n (fst (sample_update mexp d (VUniform l) o w)) (es ++ [RecordV d]) /\ snd (sample_update mexp d (VUniform l) o w) = Ok tt.
Proof.
  intros Hn (a & ys & E & Ea & U) F. cbn [sample_update]. unfold uni_get, arr_get, bind, load. rewrite E. cbn [ret]. rewrite Ea. cbn [ret]. unfold ask.
  destruct (uni_update_inv n _ _ d (o_draw o) Hn U (few_last _ _ F)) as [U' R]. destruct (uni_update _ d (o_draw o)) as [u r]. cbn [fst snd] in U', R. subst r.
  unfold store, lift. cbn [fst snd]. split; auto. assert (D : a <> l) by congruence.
  pose proof U' as (Us & Uc & _). exists a, (u_values u). cbn [heap set_heap]. rewrite recorded_snoc. cbn [rec_step]. split; [|split].
  - rewrite lset_nth_eq by (rewrite lset_length; eapply nth_lt; eauto). now rewrite Us, Uc.
  - rewrite lset_nth_neq by auto. apply lset_nth_eq. eapply nth_lt; eauto.
  - destruct u as [uc us uv]. cbn in Us, Uc |- *. subst. exact U'.
Qed.
Lemma ug_clear l n w es o : (0 <= n)%Z -> ug l n w es -> ug l n (fst (sample_clear (VUniform l) o w)) (es ++ [ResetAll]) /\ snd (sample_clear (VUniform l) o w) = Ok tt.
Proof.
  intros Hn (a & ys & E & Ea & U). cbn [sample_clear]. unfold uni_get, bind, load. rewrite E. cbn [ret]. unfold new_slice, alloc, store. cbn [fst snd]. split; auto.
  exists (List.length (heap w)), []. cbn [heap set_heap]. rewrite recorded_snoc. cbn [rec_step]. pose proof (nth_lt _ _ _ E) as L. split; [|split].
  - apply lset_nth_eq. rewrite app_length. cbn. lia.
  - rewrite lset_nth_neq by lia. rewrite nth_error_app2, Nat.sub_diag by lia. reflexivity.
  - repeat split; cbn; auto; [change (slen (@nil Z)) with 0%Z; lia|apply submultiset_nil].
Qed.
Lemma ug_spared l n w w' es : ug l n w es -> spared (fun _ => False) (heap w) (heap w') -> ug l n w' es.
Proof. intros (a & ys & E & Ea & U) S. exists a, ys. split; [apply S; auto; discriminate|]. split; [apply S; auto; discriminate|auto]. Qed.
Lemma ug_elsewhere l n (st : state) es c o : inv st -> apart (fst st) -> hidden st -> ug l n (fst st) es -> elsewhere (VUniform l) st c -> ug l n (fst (fst (step mexp st (c, o)))) es.
Proof.
  intros I (_ & Ap & _) Hd (a & ys & E & Ea & U) El.
  destruct (World.call mexp (snd st) c) as [m|] eqn:C.
  2: { unfold World.step. cbn [fst snd]. rewrite C. exists a, ys. auto. }
  assert (Aim : forall v, writes_on (snd st) c = Some v -> feeds (fst st) v <> Some (VUniform l)).
  { intros v W F. destruct (writes_event st c v _ W F ltac:(congruence)) as (y & Hy & Ey). exact (El y v Hy Ey F). }
  assert (T : tagat (heap (fst st)) l TUniform) by (eexists; split; [exact E|reflexivity]).
  assert (Ta : tagat (heap (fst st)) a TArr) by (eexists; split; [exact Ea|reflexivity]).
  assert (N1 : forall v, writes_on (snd st) c = Some v -> ~ aim (heap (fst st)) v l).
  { intros v W A. pose proof (written_vok _ _ _ I W) as V. pose proof (aim_kind _ _ _ A (wf_obj _ (proj1 I)) V) as K. pose proof (aim_feeds _ _ _ A) as F.
    assert (Q : forall t, feeds (fst st) v = Some t -> saim (heap (fst st)) t l -> False).
    { intros t Ft At. pose proof (feeds_vok _ _ _ (proj1 I) V Ft) as Vt. destruct t; cbn in At; try contradiction.
      - destruct At as [-> | (c0 & n0 & E0)]; [exact (Aim v W Ft)|]. pose proof (wf_obj _ (proj1 I) _ _ E0) as O. cbn in O. pose proof (tag_unique _ _ _ _ T (proj1 O)). discriminate.
      - subst. pose proof (tag_unique _ _ _ _ T Vt). discriminate. }
    destruct v; try contradiction; try (pose proof (tag_unique _ _ _ _ T K); discriminate); destruct F as (t & Ft & At); eauto. }
  assert (N2 : forall v, writes_on (snd st) c = Some v -> ~ aim (heap (fst st)) v a).
  { intros v W A. pose proof (written_vok _ _ _ I W) as V. pose proof (aim_kind _ _ _ A (wf_obj _ (proj1 I)) V) as K. pose proof (aim_feeds _ _ _ A) as F.
    assert (Q : forall t, feeds (fst st) v = Some t -> saim (heap (fst st)) t a -> False).
    { intros t Ft At. pose proof (feeds_vok _ _ _ (proj1 I) V Ft) as Vt. destruct t; cbn in At; try contradiction.
      - destruct At as [-> | (c0 & n0 & E0)]; [pose proof (tag_unique _ _ _ _ Ta Vt); discriminate|]. assert (l0 = l) as -> by (eapply Ap; eauto). exact (Aim v W Ft).
      - subst. pose proof (tag_unique _ _ _ _ Ta Vt). discriminate. }
    destruct v; try contradiction; try (pose proof (tag_unique _ _ _ _ Ta K); discriminate); try (destruct F as (t & Ft & At); eauto; fail).
    subst l0. eapply Hd; [exact E|]. destruct c; cbn in W; try discriminate; eapply nth_error_In; eauto. }
  destruct (keeps_step mexp st c o l _ I E Logic.I N1) as (y & Ey & Cy). cbn in Cy. subst y.
  destruct (keeps_step mexp st c o a _ I Ea Logic.I N2) as (y & Ey' & Cy). cbn in Cy. destruct Cy as (zs & -> & P & _).
  exists a, zs. split; auto. split; auto. eapply uinv_perm; eauto.
Qed.
Definition uj (l : nat) (n : Z) (st : state) (es : list revent) : Prop := apart (fst st) /\ hidden st /\ ug l n (fst st) es.
Lemma few_app es es' : few (es ++ es') -> few es.
Proof. intros F h1 h2 E. apply (F h1 (h2 ++ es')). rewrite E, <- app_assoc. reflexivity. Qed.
Lemma uj_step l n (st : state) es c o : (0 <= n)%Z -> inv st -> uj l n st es -> few (es ++ noted (VUniform l) st c o) -> uj l n (fst (step mexp st (c, o))) (es ++ noted (VUniform l) st c o).
Proof.
  intros Hn I (Ap & Hd & U) F. split; [now apply step_apart|]. split; [now apply hidden_step|].
  destruct (here_or_elsewhere (VUniform l) st c (Nat.eqb_refl l)) as [(y & v & Hc & E & Fd)|El].
  - apply (event_step (VUniform l) (Nat.eqb_refl l) (ug l n) (fun w es d o => ug_update l n w es d o Hn) (fun w es o => ug_clear l n w es o Hn) (ug_spared l n) st es c o y v Hc E Fd U F).
  - rewrite (noted_none (VUniform l) st c o El) in *. rewrite app_nil_r. now apply ug_elsewhere.
Qed.
Lemma uj_run l n q : forall st es, (0 <= n)%Z -> inv st -> uj l n st es -> few (es ++ along (noted (VUniform l)) mexp st q) -> uj l n (run mexp st q) (es ++ along (noted (VUniform l)) mexp st q).
Proof. intros st es Hn. apply (along_run mexp (noted (VUniform l)) few (uj l n)); [exact few_app|]. intros. now apply uj_step. Qed.

(** ** ExpDecaySample *)
Definition xg (l N : nat) (a : f64) (t0 : Z) (w : world) (es : list revent) : Prop :=
  exists h, nth_error (heap w) l = Some (OExp (exp_run mexp (NewExpDecaySample N a t0) h)) /\ map xop_event h = es.
Lemma exp_run_snoc s h x : exp_run mexp s (h ++ [x]) = fst (exp_step mexp (exp_run mexp s h) x).
Proof. unfold exp_run. rewrite fold_left_app. reflexivity. Qed.
Lemma xg_update l N a t0 w es d o : 1 <= N -> xg l N a t0 w es -> few (es ++ [RecordV d]) ->
  xg l N a t0 (fst (sample_update mexp d (VExp l) o w)) (es ++ [RecordV d]) /\ snd (sample_update mexp d (VExp l) o w) = Ok tt.
Proof.
  intros HN (h & E & <-) F. assert (F' : few (map xop_event (h ++ [XUpdate (o_now o) d (o_rand o)]))) by (rewrite map_app; exact F).
  pose proof (exp_no_panic mexp N a t0 h _ HN F') as R. cbn [exp_step] in R.
  cbn [sample_update]. unfold exp_get, bind, load. rewrite E. cbn [ret]. unfold ask.
  destruct (exp_update mexp (exp_run mexp (NewExpDecaySample N a t0) h) (o_now o) d (o_rand o)) as [s' r] eqn:Es. cbn [snd] in R. subst r. unfold store, lift. cbn [fst snd]. split; auto.
  exists (h ++ [XUpdate (o_now o) d (o_rand o)]). split; [|now rewrite map_app]. cbn [heap set_heap]. rewrite lset_nth_eq by (eapply nth_lt; eauto). rewrite exp_run_snoc. cbn [exp_step]. now rewrite Es.
Qed.
Lemma xg_clear l N a t0 w es o : xg l N a t0 w es -> xg l N a t0 (fst (sample_clear (VExp l) o w)) (es ++ [ResetAll]) /\ snd (sample_clear (VExp l) o w) = Ok tt.
Proof.
  intros (h & E & <-). cbn [sample_clear]. unfold exp_get, bind, load. rewrite E. cbn [ret]. unfold ask, store. cbn [fst snd]. split; auto.
  exists (h ++ [XClear (o_now o)]). split; [|now rewrite map_app]. cbn [heap set_heap]. rewrite lset_nth_eq by (eapply nth_lt; eauto). now rewrite exp_run_snoc.
Qed.
Lemma xg_spared l N a t0 w w' es : xg l N a t0 w es -> spared (fun _ => False) (heap w) (heap w') -> xg l N a t0 w' es.
Proof. intros (h & E & U) S. exists h. split; [apply S; auto; discriminate|auto]. Qed.
Lemma xg_elsewhere l N a t0 (st : state) es c o : inv st -> xg l N a t0 (fst st) es -> elsewhere (VExp l) st c -> xg l N a t0 (fst (fst (step mexp st (c, o)))) es.
Proof.
  intros I (h & E & U) El.
  destruct (World.call mexp (snd st) c) as [m|] eqn:C.
  2: { unfold World.step. cbn [fst snd]. rewrite C. exists h. auto. }
  assert (T : tagat (heap (fst st)) l TExp) by (eexists; split; [exact E|reflexivity]).
  assert (N1 : forall v, writes_on (snd st) c = Some v -> ~ aim (heap (fst st)) v l).
  { intros v W A. pose proof (written_vok _ _ _ I W) as V. pose proof (aim_kind _ _ _ A (wf_obj _ (proj1 I)) V) as K. pose proof (aim_feeds _ _ _ A) as F.
    assert (Q : forall t, feeds (fst st) v = Some t -> saim (heap (fst st)) t l -> False).
    { intros t Ft At. pose proof (feeds_vok _ _ _ (proj1 I) V Ft) as Vt. destruct t; cbn in At; try contradiction.
      - destruct At as [-> | (c0 & n0 & E0)]; [pose proof (tag_unique _ _ _ _ T Vt); discriminate|]. pose proof (wf_obj _ (proj1 I) _ _ E0) as O. cbn in O. pose proof (tag_unique _ _ _ _ T (proj1 O)). discriminate.
      - subst. destruct (writes_event st c v _ W Ft ltac:(congruence)) as (y & Hy & Ey). exact (El y v Hy Ey Ft). }
    destruct v; try contradiction; try (pose proof (tag_unique _ _ _ _ T K); discriminate); destruct F as (t & Ft & At); eauto. }
  destruct (keeps_step mexp st c o l _ I E Logic.I N1) as (y & Ey & Cy). cbn in Cy. subst y. exists h. auto.
Qed.
Lemma xg_step l N a t0 (st : state) es c o : 1 <= N -> inv st -> xg l N a t0 (fst st) es -> few (es ++ noted (VExp l) st c o) -> xg l N a t0 (fst (fst (step mexp st (c, o)))) (es ++ noted (VExp l) st c o).
Proof.
  intros Hn I U F.
  destruct (here_or_elsewhere (VExp l) st c (Nat.eqb_refl l)) as [(y & v & Hc & E & Fd)|El].
  - apply (event_step (VExp l) (Nat.eqb_refl l) (xg l N a t0) (fun w es d o => xg_update l N a t0 w es d o Hn) (xg_clear l N a t0) (xg_spared l N a t0) st es c o y v Hc E Fd U F).
  - rewrite (noted_none (VExp l) st c o El) in *. rewrite app_nil_r. now apply xg_elsewhere.
Qed.
Lemma xg_run l N a t0 q : forall st es, 1 <= N -> inv st -> xg l N a t0 (fst st) es -> few (es ++ along (noted (VExp l)) mexp st q) -> xg l N a t0 (fst (run mexp st q)) (es ++ along (noted (VExp l)) mexp st q).
Proof. intros st es Hn. apply (along_run mexp (noted (VExp l)) few (fun st => xg l N a t0 (fst st))); [exact few_app|]. intros. now apply xg_step. Qed.

(** ** readings through anything that feeds the sample *)
Lemma feeds_data (st : state) x v s c xs o : inv st -> nth_error (snd st) x = Some v -> feeds (fst st) v = Some s -> sdata (heap (fst st)) s = Some (c, xs) -> same_sample s s = true ->
  exists d, vdata o (heap (fst st)) v = Some d /\ dist d = Some xs /\ (forall y, read_data (OCount y) d = Some (Ok (RZ c))) /\ match v with VUniform _ | VExp _ => d = DSample c xs | _ => True end.
Proof.
  intros I E F D S. destruct v; cbn [feeds] in F; try discriminate.
  - inversion F; subst. exists (DSample c xs). cbn [vdata]. rewrite D. auto.
  - inversion F; subst. exists (DSample c xs). cbn [vdata]. rewrite D. auto.
  - exists (DHist c xs). cbn [hist_on] in F. cbn [vdata hdata]. destruct (nth_error (heap (fst st)) l) as [y|]; [|discriminate]. destruct y; try discriminate. inversion F; subst. rewrite D. auto.
  - destruct (nth_error (heap (fst st)) l) as [y|] eqn:El; [|discriminate]. destruct y; try discriminate. destruct h; try discriminate.
    pose proof (wf_obj _ (proj1 I) _ _ El) as O. cbn in O. destruct O as (_ & Cm & Vm).
    assert (M : exists ms, mdata (heap (fst st)) m = Some ms).
    { destruct m; cbn in Cm; try discriminate; cbn [mdata].
      - destruct Vm as (y & Ey & Ty). destruct y; try discriminate Ty. rewrite Ey. pose proof (wf_obj _ (proj1 I) _ _ Ey) as O. cbn in O. destruct O as ((z & Ez & Tz) & _). destruct z; try discriminate Tz. unfold msdata. rewrite Ez. eauto.
      - destruct Vm as ((z & Ez & Tz) & _). destruct z; try discriminate Tz. unfold msdata. rewrite Ez. eauto.
      - eauto. }
    destruct M as (ms & M). exists (DTimer c xs ms). cbn [vdata tdata]. rewrite El. cbn [hist_on] in F. cbn [hdata]. destruct (nth_error (heap (fst st)) l0) as [y|]; [|discriminate]. destruct y; try discriminate. inversion F; subst. rewrite D, M. auto.
Qed.
End Exp.
