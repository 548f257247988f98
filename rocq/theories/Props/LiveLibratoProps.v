(** Property C72, batches for Librato while the rest of the process goes on. *)
From Coq Require Import ZArith List String Bool Lia Permutation.
From Verif.Model Require Import GoInt GoFloat GoBase Stats World Fmt Report Librato Live LiveLibrato.
From Verif.Spec Require Import ApiSpec RegistrySpec HealthSpec GetAllSpec TextSpec ReportSpec ReadOnlySpec WriteSpec LibratoSpec LiveSpec LiveLibratoSpec.
From Verif.Proofs Require Import IntFacts WorldBase WorldCalls WorldStep WorldReads HealthProofs GetAllProofs TextProofs ReportProofs LineProofs WriteProofs JsonProofs LibratoProofs LiveProofs.
From Verif.Props Require Import SnapshotProps HealthProps GetAllProps ReportProps LiveProps.
From Verif.Model Require Import Live LiveLibrato.
Import ListNotations.
Local Open Scope nat_scope.
Local Open Scope string_scope.

(** ** the kinds of answers *)
Definition shaped (c : op) (r : rv) : Prop :=
  match c with
  | OCount _ | OStat _ (SMin | SMax | SSum) => r = RZ (rv_z r)
  | OStat _ _ | OPercentile _ _ | OMRate _ _ => r = RF (rv_f r)
  | OSample _ => exists v, r = RVal v
  | _ => True
  end.
Lemma z_rv_shape m o w w' r : z_rv m o w = (w', Ok r) -> r = RZ (rv_z r).
Proof. unfold z_rv, bind, ret. destruct (m o w) as [w1 [n|msg]]; intros H; [now injection H as <- <-|discriminate]. Qed.
Lemma f_rv_shape m o w w' r : f_rv m o w = (w', Ok r) -> r = RF (rv_f r).
Proof. unfold f_rv, bind, ret. destruct (m o w) as [w1 [n|msg]]; intros H; [now injection H as <- <-|discriminate]. Qed.
Lemma v_rv_shape m o w w' r : v_rv m o w = (w', Ok r) -> exists v, r = RVal v.
Proof. unfold v_rv, bind, ret. destruct (m o w) as [w1 [n|msg]]; intros H; [injection H as <- <-; eauto|discriminate]. Qed.
Lemma sample_stat_shape s v o w w' r : sample_stat s v o w = (w', Ok r) -> match s with SMin | SMax | SSum => r = RZ (rv_z r) | _ => r = RF (rv_f r) end.
Proof.
  intros H. assert (X : r = stat_zero s \/ exists xs, r = stat_of s xs).
  { unfold sample_stat in H. destruct v; try (unfold ret in H; injection H as _ <-; auto; fail);
      (match type of H with bind ?m _ _ _ = _ => destruct (m o w) as [w2 [xs|msg]] eqn:E2; [rewrite (bind_ok _ _ _ _ _ _ E2) in H|rewrite (bind_panic _ _ _ _ _ _ E2) in H; discriminate] end); unfold ret in H; injection H as _ <-; eauto. }
  destruct X as [->|(xs & ->)]; destruct s; reflexivity.
Qed.
Lemma step_shape mexp s c o s' r : step mexp s (c, o) = (s', Some (Ok r)) -> shaped c r.
Proof.
  unfold step. cbn [fst snd]. destruct (World.call mexp (snd s) c) as [m|] eqn:C; [|discriminate]. destruct (m o (fst s)) as [w [r1|msg]] eqn:M; intros H; [|discriminate]. injection H as _ <-.
  destruct c; cbn [shaped]; auto; cbn [World.call] in C; cbv zeta in C; destruct (nth_error (snd s) x) as [v|]; try discriminate C; cbn [obind] in C.
  - unfold m_count in C. destruct (cls v); try discriminate C; injection C as <-; eapply z_rv_shape; exact M.
  - unfold m_stat in C. destruct (cls v); try discriminate C; injection C as <-; [apply sample_stat_shape in M|apply hist_stat_shape in M|apply timer_stat_shape in M]; destruct s0; exact M.
  - destruct (m_percentiles [p] v); [|discriminate C]. injection C as <-. eapply f_rv_shape; exact M.
  - unfold only in C. destruct (class_eqb (cls v) CHist); [|discriminate C]. injection C as <-. eapply v_rv_shape; exact M.
  - destruct (cls v); try discriminate C; injection C as <-; eapply f_rv_shape; exact M.
Qed.
Lemma step_yields mexp s c o s' v : step mexp s (c, o) = (s', Some (Ok (RVal v))) -> nth_error (snd s') (List.length (snd s)) = Some v.
Proof.
  unfold step. cbn [fst snd]. destruct (World.call mexp (snd s) c) as [m|]; [|discriminate]. destruct (m o (fst s)) as [w [r1|msg]]; intros H; [|discriminate]. injection H as <- ->. cbn [snd yields]. rewrite nth_error_app2 by lia. now rewrite Nat.sub_diag.
Qed.
Lemma value_shape mexp s x i o s' r : nth_error (snd s) x = Some i -> step mexp s (OValue x, o) = (s', Some (Ok r)) ->
  (cls i = CGauge -> r = RZ (rv_z r)) /\ (cls i = CGaugeF -> r = RF (rv_f r)).
Proof.
  intros E. unfold step. cbn [fst snd]. change (World.call mexp (snd s) (OValue x)) with (obind (nth_error (snd s) x) m_value). rewrite E. cbn [obind]. unfold m_value. intros H.
  assert (X : forall m : M rv, (let (w, r1) := m o (fst s) in match r1 with Ok r1 => ((w, (snd s ++ yields r1)%list), Some (Ok r1)) | Panic msg => ((w, snd s), Some (Panic msg)) end) = (s', Some (Ok r)) -> exists w', m o (fst s) = (w', Ok r)).
  { intros m. destruct (m o (fst s)) as [w [r1|msg]]; intros Y; [|discriminate Y]. injection Y as _ <-. eauto. }
  split; intros K; rewrite K in H; cbv beta iota in H; apply X in H; destruct H as (w' & H); [eapply z_rv_shape|eapply f_rv_shape]; exact H.
Qed.

(** ** what was seen *)
Lemma seen_l mexp s1 s2 c a : seen mexp s1 c a -> seen mexp (s1 ++ s2)%list c a.
Proof. intros (s & o & H & E). exists s, o. split; [apply in_or_app; auto|exact E]. Qed.
Lemma seen_r mexp s1 s2 c a : seen mexp s2 c a -> seen mexp (s1 ++ s2)%list c a.
Proof. intros (s & o & H & E). exists s, o. split; [apply in_or_app; auto|exact E]. Qed.
Lemma asked_z mexp c g st z ss g' st' : ends (ask_z mexp c) g st z ss g' st' -> (forall r, shaped c r -> r = RZ (rv_z r)) -> seen mexp ss c (RZ z).
Proof.
  intros H Sh. destruct (ends_ask_z _ _ _ _ _ _ _ _ H) as (q & o & r & -> & -> & E & ->). rewrite <- (Sh r (step_shape _ _ _ _ _ _ E)). exists (run mexp st q), o. split; [now left|]. now rewrite E.
Qed.
Lemma asked_f mexp c g st z ss g' st' : ends (ask_f mexp c) g st z ss g' st' -> (forall r, shaped c r -> r = RF (rv_f r)) -> seen mexp ss c (RF z).
Proof.
  intros H Sh. destruct (ends_ask_f _ _ _ _ _ _ _ _ H) as (q & o & r & -> & -> & E & ->). rewrite <- (Sh r (step_shape _ _ _ _ _ _ E)). exists (run mexp st q), o. split; [now left|]. now rewrite E.
Qed.
Lemma seen_some mexp ss c a : seen mexp ss c a -> ss <> [].
Proof. intros (s & o & H & _) ->. contradiction. Qed.
Ltac seen_in := repeat first [assumption | apply seen_l; assumption | apply seen_r].
Ltac peel H a g ss st1 H1 := let T := fresh in pose proof (ends_bind _ _ _ _ _ _ _ _ H) as T; clear H; destruct T as (a & ss & g & st1 & ? & H1 & H & ->); cbv beta zeta in H.
Ltac learn H a H1 := let g := fresh "g" in let ss := fresh "ss" in let st1 := fresh "st" in
  peel H a g ss st1 H1;
  first [apply asked_z in H1; [|intros ? X; exact X] | apply asked_f in H1; [|intros ? X; exact X]].

Lemma moments_reached mexp cs : forall g st s, In s (moments mexp st g cs) -> exists p, s = run mexp st p.
Proof.
  induction cs as [|c cs IH]; intros [|[q o] g] st s H; cbn [moments] in H; try contradiction. destruct H as [<-|H]; [eauto|]. destruct (IH _ _ _ H) as (p & ->). rewrite <- run_app. eauto.
Qed.
Lemma weaves_gauges (P : op -> bool) mexp render x ps : (forall p, P (OPercentile x p) = true) -> weaves mexp P (live_gauges mexp render x ps).
Proof. intros H. induction ps; cbn [live_gauges]; [apply weaves_ret|]. apply weaves_bind; [now apply weaves_ask_f|]. intros. apply weaves_bind; [exact IHps|intros; apply weaves_ret]. Qed.
Local Hint Resolve weaves_gauges weaves_ret weaves_res weaves_kind weaves_call weaves_ask_z weaves_ask_f : wl.
Lemma weaves_measure sq mexp self nm x : weaves mexp (ReadOnlySpec.reading_call false) (live_measure sq mexp self nm x).
Proof.
  unfold live_measure. cbv zeta.
  repeat first [ solve [auto 2 with wl] | apply weaves_bind; [|intros ?] | match goal with |- weaves _ _ (match ?x with _ => _ end) => destruct x end ].
Qed.
Section Measured.
Variable sq : f64 -> f64.
Variable mexp : f64 -> f64.
Variable self : reporter.
Notation fitted := (fitted sq mexp self).
Notation came_from := (came_from sq mexp self).
Lemma fitted_pairs seg x e m : Forall2 (fun (ks : string * source_of) (kv : string * lval) => fst ks = fst kv /\ came_from seg x (snd ks) (snd kv)) e m -> fitted seg x e m.
Proof.
  intros F k. unfold lookup. induction F as [|[k1 s] [k2 v] e m (Ek & C) F IH]; cbn [List.find fst snd] in *; [reflexivity|]. subst k2. destruct (String.eqb k1 k); [exists v; auto|exact IH].
Qed.
Lemma asked_gauges render x : forall ps g st gs ss g' st', ends (live_gauges mexp render x ps) g st gs ss g' st' ->
  Forall2 (fun p m => exists q, seen mexp ss (OPercentile x p) (RF q) /\ m = render p q) ps gs.
Proof.
  induction ps as [|p ps IH]; intros g st gs ss g' st' H; cbn [live_gauges] in H.
  - destruct (ends_ret _ _ _ _ _ _ _ H) as (-> & _). constructor.
  - learn H q H1. peel H rest g2 ss2 st2 H2. destruct (ends_ret _ _ _ _ _ _ _ H) as (-> & -> & _). rewrite app_nil_r. constructor.
    + exists q. split; [seen_in|reflexivity].
    + pose proof (IH _ _ _ _ _ _ H2) as F. clear - F. induction F as [|p' m ps rest (q' & S & ->) F IH]; constructor; auto. exists q'. split; [now apply seen_r|reflexivity].
Qed.
Lemma number_z seg x c n : seen mexp seg c (RZ n) -> came_from seg x (Number c) (LF (f_of_int n)).
Proof. intros S. exists (RZ n), (f_of_int n). auto. Qed.
Lemma number_f seg x c y : seen mexp seg c (RF y) -> came_from seg x (Number c) (LF y).
Proof. intros S. exists (RF y), y. auto. Qed.
Lemma unsigned_z seg x c n : seen mexp seg c (RZ n) -> came_from seg x (Unsigned c) (LU (wrapu64 n)).
Proof. intros S. exists n. auto. Qed.
Lemma mean_times seg x n me : seen mexp seg (OCount x) (RZ n) -> seen mexp seg (OStat x SMean) (RF me) -> came_from seg x MeanTimesCount (LF (fmul me (f_of_int n))).
Proof. intros S S'. exists n, me. auto. Qed.
Lemma squared seg x n me sd : seen mexp seg (OCount x) (RZ n) -> seen mexp seg (OStat x SMean) (RF me) -> seen mexp seg (OStat x SStdDev) (RF sd) -> came_from seg x Squares (LF (sum_squares sq n me sd)).
Proof. intros S S' S2. exists n, me, sd. auto. Qed.
Ltac entry_ := apply fitted_pairs; repeat (apply Forall2_cons; [split; [reflexivity|cbn [fst snd]]|]); try apply Forall2_nil.
Ltac source_ := match goal with
  | |- LiveLibratoSpec.came_from _ _ _ _ _ (exactly _) _ => eexists; split; reflexivity
  | |- LiveLibratoSpec.came_from _ _ _ _ _ (Number _) _ => first [apply number_z; solve [seen_in] | apply number_f; solve [seen_in]]
  | |- LiveLibratoSpec.came_from _ _ _ _ _ (Unsigned _) _ => apply unsigned_z; solve [seen_in]
  | |- LiveLibratoSpec.came_from _ _ _ _ _ MeanTimesCount _ => apply mean_times; solve [seen_in]
  | |- LiveLibratoSpec.came_from _ _ _ _ _ Squares _ => apply squared; solve [seen_in]
  | |- LiveLibratoSpec.came_from _ _ _ _ _ _ _ => reflexivity
  end.
Lemma gauges_fitted seg y name ps gs : 
  Forall2 (fun p m => exists q, seen mexp seg (OPercentile y p) (RF q) /\ m = hist_gauge self (name ++ ".hist") p q) ps gs ->
  Forall2 (fitted seg y) (map (fun p => [("name", Named (fun s => exists t, s = name ++ ".hist." ++ t /\ shows_float 2 p t)); ("value", Number (OPercentile y p)); ("period", Seconds)]) ps) gs.
Proof.
  intros F. induction F as [|p m ps gs (q & S & ->) F IH]; cbn [map]; constructor; auto. unfold hist_gauge. entry_; try source_.
  eexists. split; [reflexivity|]. exists (fmt_f 2 p). split; [|apply shows_fmt_f]. now rewrite app_assoc'.
Qed.
Lemma timers_fitted seg y name ps gs :
  Forall2 (fun p m => exists q, seen mexp seg (OPercentile y p) (RF q) /\ m = timer_gauge self name p q) ps gs ->
  Forall2 (fitted seg y) (map (fun p => [("name", Named (fun s => exists t, s = name ++ ".timer." ++ t /\ shows_float 0 (fmul p (f_of_int 100)) (unpad t) /\ String.length t = Nat.max 2 (String.length (unpad t))));
                         ("value", Number (OPercentile y p)); ("period", WholeSeconds); ("attributes", Attr (timer_attributes self))]) ps) gs.
Proof.
  intros F. induction F as [|p m ps gs (q & S & ->) F IH]; cbn [map]; constructor; auto. unfold timer_gauge. entry_; try source_.
  eexists. split; [reflexivity|]. exists (pad 2 (fmt_f 0 (fmul p (f_of_int 100)))). split; [reflexivity|]. destruct (unpad_pad 2 (fmt_f 0 (fmul p (f_of_int 100))) (clean_fmt_f _ _)) as (U & Ln). rewrite U. split; [apply shows_fmt_f|exact Ln].
Qed.
Lemma live_measured nm x i g (st : state) gc ss g' st' : nth_error (snd st) x = Some i -> is_metric i = true -> ends (live_measure sq mexp self nm x) g st gc ss g' st' ->
  LiveLibratoSpec.measured sq mexp self ss nm i (fst gc) (snd gc).
Proof.
  intros Ex Mt H.
  assert (Pl : forall s, In s ss -> nth_error (snd s) x = Some i).
  { intros s Hs. destruct (weaves_measure sq mexp self nm x g st) as (cs & _ & _ & _ & _ & Ac). red in H. rewrite H in Ac. cbn [acted] in Ac. rewrite Ac in Hs. destruct (moments_reached _ _ _ _ _ Hs) as (p & ->). now apply run_env. }
  unfold live_measure in H. cbv zeta in H. rewrite name_eq in H. peel H k g0 ss0 st0 H0. destruct (ends_kind _ _ _ _ _ _ _ H0) as (-> & -> & -> & ->). rewrite Ex in H. clear H0. cbn [app] in *.
  unfold LiveLibratoSpec.measured. destruct (cls i) eqn:K; try (exfalso; unfold is_metric in Mt; rewrite K in Mt; discriminate Mt); cbn [class_eqb andb].
  - (* counters *) learn H n H1. exists x, x, (0 <? n)%Z. destruct (0 <? n)%Z eqn:B.
    + learn H n2 H2. destruct (ends_ret _ _ _ _ _ _ _ H) as (-> & -> & _). cbn [fst snd gauge_entries counter_entries]. split; [eapply seen_some, seen_l; exact H1|]. split; [exact Pl|]. split; [exists n; split; [seen_in|now rewrite B]|]. split; [reflexivity|]. split; [constructor|].
      constructor; [|constructor]. entry_; source_.
    + destruct (ends_ret _ _ _ _ _ _ _ H) as (-> & -> & _). cbn [fst snd gauge_entries counter_entries]. split; [eapply seen_some, seen_l; exact H1|]. split; [exact Pl|]. split; [exists n; split; [seen_in|now rewrite B]|]. split; [reflexivity|]. split; constructor.
  - (* gauges *) peel H n g1 ss1 st1 H1. destruct (ends_ret _ _ _ _ _ _ _ H) as (-> & -> & _). destruct (ends_ask_z _ _ _ _ _ _ _ _ H1) as (q & o & r & -> & -> & E & ->).
    assert (R : r = RZ (rv_z r)) by (eapply value_shape; [apply Pl; now left|exact E|exact K]).
    exists x, x, true. cbn [fst snd gauge_entries counter_entries]. split; [discriminate|]. split; [exact Pl|]. split; [exact Logic.I|]. split; [reflexivity|]. split; [|constructor]. constructor; [|constructor].
    assert (S : seen mexp [run mexp st q] (OValue x) (RZ (rv_z r))) by (exists (run mexp st q), o; split; [now left|]; rewrite E, <- R; reflexivity). cbn [app]. entry_; source_.
  - (* float gauges *) peel H n g1 ss1 st1 H1. destruct (ends_ret _ _ _ _ _ _ _ H) as (-> & -> & _). destruct (ends_ask_f _ _ _ _ _ _ _ _ H1) as (q & o & r & -> & -> & E & ->).
    assert (R : r = RF (rv_f r)) by (eapply value_shape; [apply Pl; now left|exact E|exact K]).
    exists x, x, true. cbn [fst snd gauge_entries counter_entries]. split; [discriminate|]. split; [exact Pl|]. split; [exact Logic.I|]. split; [reflexivity|]. split; [|constructor]. constructor; [|constructor].
    assert (S : seen mexp [run mexp st q] (OValue x) (RF (rv_f r))) by (exists (run mexp st q), o; split; [now left|]; rewrite E, <- R; reflexivity). cbn [app]. entry_; source_.
  - (* health checks *) destruct (ends_ret _ _ _ _ _ _ _ H) as (-> & -> & _). auto.
  - (* histograms *) learn H n H1. destruct (0 <? n)%Z eqn:B.
    + peel H sp g2 ss2 st2 H2. destruct (ends_call _ _ _ _ _ _ _ _ H2) as (q2 & o2 & -> & -> & E2 & Y2). clear H2. set (y := fst sp) in *. clearbody y.
      destruct (step_shape _ _ _ _ _ _ E2) as (smp & Sv). destruct sp as [y0 r0]. cbn [snd fst] in *. subst r0.
      assert (Ey : nth_error (snd st2) y = Some smp).
      { rewrite Y2. eapply step_yields; exact E2. }
      match type of E2 with step _ ?s _ = _ => assert (S2 : seen mexp [s] (OSample x) (RVal smp)) by (exists s, o2; split; [now left|]; now rewrite E2) end.
      peel H n3 g3 ss3 st3 H3. destruct (ends_ask_z _ _ _ _ _ _ _ _ H3) as (q3 & _ & _ & _ & Es3 & _).
      assert (Ey3 : exists s, In s ss3 /\ nth_error (snd s) y = Some smp) by (exists (run mexp st2 q3); rewrite Es3; split; [now left|now apply run_env]).
      apply asked_z in H3; [|intros ? X; exact X]. learn H mx H4. learn H mn H5. learn H sm H6. learn H c H7. learn H me H8. learn H sd H9. peel H gs g10 ss10 st10 H10. apply asked_gauges in H10.
      destruct (ends_ret _ _ _ _ _ _ _ H) as (-> & -> & _). rewrite app_nil_r in *. cbn [fst snd].
      exists x, y, true. cbn [gauge_entries counter_entries]. split; [eapply seen_some, seen_l; exact H1|]. split; [exact Pl|]. split; [exists n; split; [seen_in|now rewrite B]|]. split; [|split].
      * exists smp. split; [seen_in|]. destruct Ey3 as (s & Hs & Ey3). exists s. split; [|exact Ey3]. apply in_or_app. right. apply in_or_app. right. apply in_or_app. now left.
      * constructor; [entry_; source_|]. apply gauges_fitted. eapply forall2_impl; [|exact H10]. intros p m (q & S & ->). exists q. split; [seen_in|reflexivity].
      * constructor.
    + destruct (ends_ret _ _ _ _ _ _ _ H) as (-> & -> & _). exists x, x, false. cbn [fst snd gauge_entries counter_entries]. split; [eapply seen_some, seen_l; exact H1|]. split; [exact Pl|]. split; [exists n; split; [seen_in|now rewrite B]|]. split; [reflexivity|]. split; constructor.
  - (* meters *) learn H n H1. learn H r1 H2. learn H r5 H3. learn H r15 H4. destruct (ends_ret _ _ _ _ _ _ _ H) as (-> & -> & _).
    exists x, x, true. cbn [fst snd gauge_entries counter_entries]. split; [eapply seen_some, seen_l; exact H1|]. split; [exact Pl|]. split; [exact Logic.I|]. split; [reflexivity|]. split.
    + constructor; [|constructor; [|constructor; [|constructor]]]; entry_; source_.
    + constructor; [|constructor]. entry_; source_.
  - (* timers *) learn H n0 H1. learn H n H2. exists x, x, (0 <? n)%Z. destruct (0 <? n)%Z eqn:B.
    + learn H n3 H3. learn H me H4. learn H n5 H5. learn H mx H6. learn H mn H7. learn H c H8. learn H me' H9. learn H sd H10. peel H gs g11 ss11 st11 H11. apply asked_gauges in H11. learn H r1 H12. learn H r5 H13. learn H r15 H14.
      destruct (ends_ret _ _ _ _ _ _ _ H) as (-> & -> & _). cbn [fst snd gauge_entries counter_entries]. split; [eapply seen_some, seen_l; exact H1|]. split; [exact Pl|]. split; [exists n; split; [seen_in|now rewrite B]|]. split; [reflexivity|]. split.
      * constructor; [entry_; source_|]. apply Forall2_app.
        -- apply timers_fitted. eapply forall2_impl; [|exact H11]. intros p m (q & S & ->). exists q. split; [seen_in|reflexivity].
        -- constructor; [|constructor; [|constructor; [|constructor]]]; entry_; source_.
      * constructor; [|constructor]. entry_; source_.
    + destruct (ends_ret _ _ _ _ _ _ _ H) as (-> & -> & _). cbn [fst snd gauge_entries counter_entries]. split; [eapply seen_some, seen_l; exact H1|]. split; [exact Pl|]. split; [exists n; split; [seen_in|now rewrite B]|]. split; [reflexivity|]. split; [constructor|]. constructor; [|constructor]. entry_; source_.
Qed.
End Measured.
Lemma measure_visiting sq mexp self : visiting mexp (fun name x => lbind (live_measure sq mexp self name x) (fun gc => lret [gc]))
  (fun nm i seg out => exists gs cs, out = [(gs, cs)] /\ LiveLibratoSpec.measured sq mexp self seg nm i gs cs).
Proof.
  split.
  - exists false. intros nm x. apply weaves_bind; [apply weaves_measure|intros; apply weaves_ret].
  - intros nm x i g st out ss g' st' _ _ Ex Mt H. peel H gc g1 ss1 st1 H1. destruct (ends_ret _ _ _ _ _ _ _ H) as (-> & -> & _). rewrite app_nil_r. exists (fst gc), (snd gc). split; [now destruct gc|]. eapply live_measured; eauto.
Qed.
Lemma time_stamp n k q : (0 < k)%Z -> (0 <= n <= max_int64)%Z -> go_div n k = Ok q -> (k | wrap64 (q * k))%Z /\ (wrap64 (q * k) <= n < wrap64 (q * k) + k)%Z.
Proof.
  intros Hk Hn H. unfold go_div in H. replace (k =? 0)%Z with false in H by (symmetry; apply Z.eqb_neq; lia). injection H as <-.
  assert (Q : Z.quot n k = (n / k)%Z) by (apply Z.quot_div_nonneg; lia). pose proof (Z.div_mod n k). pose proof (Z.mod_pos_bound n k Hk). assert (B : (0 <= n / k <= n)%Z) by (split; [apply Z.div_pos; lia|apply Z.div_le_upper_bound; nia]).
  unfold max_int64 in Hn. rewrite Q, (wrap64_id (n / k)) by (unfold is_int64, min_int64, max_int64; lia). rewrite wrap64_id by (unfold is_int64, min_int64, max_int64; nia). split; [exists (n / k)%Z; reflexivity|nia].
Qed.

(** The reporter makes reading calls only. *)
Theorem C72_librato_program : forall sq mexp self now st gaps r, woven mexp false st gaps (live_build sq mexp self now r gaps st).
Proof.
  intros. apply weaves_woven. unfold live_build. apply weaves_bind; [apply weaves_res|intros q]. cbv zeta. apply weaves_bind; [|intros; apply weaves_ret]. apply weaves_visit. intros n x. apply weaves_bind; [apply weaves_measure|intros; apply weaves_ret].
Qed.
(** A batch that is made: the metrics registered at the first call are covered, each once.  Of
    each the batch contains the measurements of the tables; each number is what the metric
    answered at one instant while the reporter was about it - different numbers at different
    instants. *)
Theorem C72_librato : forall sq mexp p r v b gaps self now bt, let st := reach mexp p in
  no_NewSampleSnapshot p -> Forall (fun g => no_NewSampleSnapshot (fst g)) gaps ->
  nth_error (snd st) r = Some v -> base v = Some b ->
  let e := live_build sq mexp self now r gaps st in outcome e = Some (Ok bt) ->
  b_source bt = source self /\
  ((0 < interval_sec self)%Z -> (0 <= now / 10 ^ 9 <= max_int64)%Z -> (interval_sec self | b_time bt)%Z /\ (b_time bt <= now / 10 ^ 9 < b_time bt + interval_sec self)%Z) /\
  exists s0 entries segs parts, acted e = s0 :: List.concat segs /\ List.length segs = List.length parts /\
    b_gauges bt = List.concat (map fst parts) /\ b_counters bt = List.concat (map snd parts) /\
    visits s0 v (map fst entries) /\ Forall (fun ni => shown s0 v (fst ni) = Some (snd ni)) entries /\
    Forall2 (fun ni sp => LiveLibratoSpec.measured sq mexp self (fst sp) (fst ni) (snd ni) (fst (snd sp)) (snd (snd sp))) entries (combine segs parts).
Proof.
  intros sq mexp p r v b gaps self now bt st N G. pose proof (start_fine mexp p N) as F. fold st in F. clearbody st. intros Er B e H.
  pose proof (ends_of _ _ _ _ H) as E'. change (live_build sq mexp self now r gaps st) with e in E'. set (ac := acted e) in *. clearbody ac. unfold live_build in E'.
  peel E' q g1 ss1 st1 H1. destruct (ends_res _ _ _ _ _ _ _ H1) as (Hq & -> & -> & ->). peel E' out g2 ss2 st2 H2. destruct (ends_ret _ _ _ _ _ _ _ E') as (-> & -> & _). cbn [b_source b_time b_gauges b_counters app].
  split; [reflexivity|]. split; [intros Hk Hn; eapply time_stamp; eauto|]. rewrite app_nil_r.
  assert (Ho : outcome (live_visit mexp (fun name x => lbind (live_measure sq mexp self name x) (fun gc => lret [gc])) as_it_is r gaps st) = Some (Ok out)) by (red in H2; now rewrite H2).
  destruct (visit_live mexp _ _ as_it_is r v b gaps st out (measure_visiting sq mexp self) ltac:(intros l; apply Permutation_refl) F G Er B Ho) as (s0 & en & segs & outs & A1 & A2 & A3 & A4 & A5 & A6 & _).
  red in H2. rewrite H2 in A1. cbn [acted] in A1. subst ss2.
  exists s0, en, segs, out. split; [reflexivity|]. subst out.
  assert (X : List.length segs = List.length (List.concat outs) /\ Forall2 (fun ni sp => LiveLibratoSpec.measured sq mexp self (fst sp) (fst ni) (snd ni) (fst (snd sp)) (snd (snd sp))) en (combine segs (List.concat outs))).
  { clear - A5 A6. revert segs outs A5 A6. induction en as [|[n i] en IH]; intros [|sg segs] [|o outs] A5 A6; try discriminate A6; cbn [combine List.concat] in *; inversion A5 as [|? ? ? ? P Q]; subst; [auto|].
    injection A6 as A6. destruct P as (gs & cs & Eo & P). cbn [fst snd] in *. subst o. destruct (IH _ _ Q A6) as (X1 & X2). cbn [app combine List.length]. split; [congruence|]. constructor; auto. }
  destruct X as (X1 & X2). split; [exact X1|]. split; [reflexivity|]. split; [reflexivity|]. auto.
Qed.

(** ** Examples *)
(** the histogram, counter and health check of C72_example, and a timer with one event of 7; the
    counter is 1 *)
Definition selling : list (op * orc) := (running ++ map (fun c => (c, o8)) [OInc 3 1; ONew NTimer; OUpdate 5 7; ORegister 0 "t" 5])%Z%list.
Definition every_ten (ps : list f64) : reporter := let r := new_reporter (10 ^ 10) "src" ps 1000000 in MkReporter "ns" (source r) (interval r) (percentiles r) (timer_attributes r) (interval_sec r).
Definition text_at (k : string) (m : measurement) : string := match lookup k m with Some (LS s) => s | _ => "" end.
Definition bits_at (k : string) (m : measurement) : Z := match lookup k m with Some (LF y) => float64bits y | Some (LU n) => n | _ => -1 end.
Definition batch_of (f : batch -> list (string * Z)) (g : list gap) : option (res (list (string * Z))) :=
  option_map (fun r => match r with Ok b => Ok (f b) | Panic m => Panic m end) (outcome (live_build (fun x => fmul x x) one_exp (every_ten [ratio 1 2]) (1234 * 10 ^ 8) 0 g (reach one_exp selling))).
Definition counters_sent (b : batch) : list (string * Z) := map (fun m => (text_at "name" m, bits_at "value" m)) (b_counters b).
Definition gauge_names (b : batch) : list (string * Z) := map (fun m => (text_at "name" m, b_time b)) (b_gauges b).
Example C72_librato_example : let st := reach one_exp selling in
  no_NewSampleSnapshot selling /\ Forall (fun g => no_NewSampleSnapshot (fst g)) (idle 40) /\ nth_error (snd st) 0 = Some (VReg 0) /\
  batch_of gauge_names (idle 40) = Some (Ok (map (fun n => (n, 120%Z)) ["ns.h.hist"; "ns.h.hist.0.50"; "ns.t.timer.mean"; "ns.t.timer.50"; "ns.t.rate.1min"; "ns.t.rate.5min"; "ns.t.rate.15min"])) /\
  batch_of counters_sent (idle 40) = Some (Ok [("ns.c.count", float64bits (f_of_int 1)); ("ns.t", float64bits (f_of_int 1))]).
Proof.
  cbv zeta. split; [repeat constructor|]. split; [repeat constructor|]. split; [vm_compute; reflexivity|]. split; vm_compute; reflexivity.
Qed.
(** Counters that are not positive are left out, but the reporter asks twice: a counter cleared
    in between is sent with 0.  And it multiplies the mean of a timer with a count it asks for
    later: with events of 7, and then of 100, the sum sent is 14, though it is 7 before the
    second event and 107 after it. *)
Definition cleared : list gap := (idle 12 ++ [([(OClear 3, o8)], o8)] ++ idle 27)%list.
Definition second_event : list gap := (idle 17 ++ [([(OUpdate 5 100, o8)], o8)]%Z ++ idle 22)%list.
Definition timer_sums (b : batch) : list (string * Z) := flat_map (fun m => if String.eqb (text_at "name" m) "ns.t.timer.mean" then [("sum", bits_at "sum" m)] else []) (b_gauges b).
Theorem C72_librato_instant_refuted :
  Forall (fun g => no_NewSampleSnapshot (fst g)) cleared /\ Forall (fun g => no_NewSampleSnapshot (fst g)) second_event /\
  batch_of counters_sent cleared = Some (Ok [("ns.c.count", float64bits (f_of_int 0)); ("ns.t", float64bits (f_of_int 1))]) /\
  batch_of timer_sums second_event = Some (Ok [("sum", float64bits (f_of_int 14))]) /\
  Forall (fun s => exists n, snd (step one_exp s (OStat 5 SSum, o8)) = Some (Ok (RZ n)) /\ (n = 7 \/ n = 107)%Z)
    (acted (live_build (fun x => fmul x x) one_exp (every_ten [ratio 1 2]) (1234 * 10 ^ 8) 0 second_event (reach one_exp selling))).
Proof.
  split; [repeat constructor|]. split; [repeat constructor|]. split; [vm_compute; reflexivity|]. split; [vm_compute; reflexivity|].
  assert (F : forallb (fun s => match snd (step one_exp s (OStat 5 SSum, o8)) with Some (Ok (RZ n)) => ((n =? 7) || (n =? 107))%Z | _ => false end)
    (acted (live_build (fun x => fmul x x) one_exp (every_ten [ratio 1 2]) (1234 * 10 ^ 8) 0 second_event (reach one_exp selling))) = true) by (vm_compute; reflexivity).
  rewrite forallb_forall in F. apply Forall_forall. intros s Hs. specialize (F s Hs). destruct (snd (step one_exp s (OStat 5 SSum, o8))) as [[[]|]|]; try discriminate F. exists n. split; [reflexivity|]. apply orb_prop in F. rewrite !Z.eqb_eq in F. exact F.
Qed.
