(** Which kinds of objects each call writes to. *)
From Coq Require Import ZArith List String Bool Lia Arith.
From Verif.Model Require Import GoInt GoFloat GoBase Stats Uniform ExpDecay Conc CounterGauge Ewma Meter World.
From Verif.Proofs Require Import WorldBase WorldStep.
Import ListNotations.
Local Open Scope nat_scope.
Local Open Scope list_scope.

Section Exp.
Variable mexp : f64 -> f64.

(** what a call may write *)
Definition touch (c : op) : list tag :=
  match c with
  | OInc _ _ | ODec _ _ => [TCounter]
  | OClear _ => [TCounter; TUniform; TExp]
  | OCount _ => [TCounter]
  | OValue _ => [TGauge; TGaugeF]
  | OUpdate _ _ => [TGauge; TUniform; TExp; TArr; TEwma; TMeterSnap]
  | OUpdateF _ _ => [TGaugeF]
  | OSnapshot _ => [TCounter; TGauge; TGaugeF; TEwma]
  | OPercentile _ _ | OPercentiles _ _ | OWriteSlice _ _ _ => [TArr]
  | OTick _ | ORate _ => [TEwma]
  | OMark _ _ | ORound => [TEwma; TMeterSnap]
  | OStop _ => [TMeter]
  | OTimeEnd _ _ | OUpdateSince _ _ => [TUniform; TExp; TArr; TEwma; TMeterSnap]
  | OCheck _ | OHealthy _ | OUnhealthy _ _ | ORunHealthchecks _ => [THealth]
  | OGetOrRegister _ _ _ | OGetOrRegisterFn _ _ _ | ORegister _ _ _ | OMustRegister _ _ | ONewRegistered _ _ _ | OGetOrRegisterX _ _ _ => [TReg]
  | OUnregister _ _ | OUnregisterAll _ => [TReg; TMeter]
  | OGetAll _ => [TCounter; TGauge; TGaugeF; THealth; TArr]
  | _ => []
  end.
Definition new_meter_kind (k : newk) : bool := match k with NMeter | NTimer => true | _ => false end.
Definition moves (c : op) : bool :=
  match c with
  | OStop _ | OUnregister _ _ | OUnregisterAll _ => true
  | ONew k | OGetOrRegisterFn _ _ k | ONewRegistered k _ _ => new_meter_kind k
  | OGetOrRegisterX k _ _ => new_meter_kind (regk_new k)
  | _ => false
  end.
Definition makes_meter (k : ctor) : bool := match k with KMeter | KTimer => true | _ => false end.
Lemma ctor_meter e k c : ctor_of e k = Some c -> makes_meter c = new_meter_kind k.
Proof.
  destruct k; cbn; intros H; try (inversion H; subst; reflexivity).
  - destruct (arg e CSample s); inversion H; reflexivity.
  - destruct (arg e CHist h), (arg e CMeter m); inversion H; reflexivity.
Qed.
Section Frame.
(** the tags that may be written, and whether the set of ticked meters may change *)
Variable T : tag -> bool.
Variable A0 : bool.
Definition fr (w w' : world) : Prop :=
  List.length (heap w) <= List.length (heap w') /\
  (forall l x, l < List.length (heap w) -> nth_error (heap w') l = Some x -> T (tag_of x) = false -> nth_error (heap w) l = Some x) /\
  (A0 = false -> alive w' = alive w /\ ticking w' = ticking w) /\ usenil w' = usenil w /\
  (T TReg = false -> forall l es, List.length (heap w) <= l -> nth_error (heap w') l = Some (OReg es) -> es = []).
Lemma fr_refl w : fr w w.
Proof. repeat split; auto. intros _ l es L E. apply nth_lt in E. lia. Qed.
Lemma fr_trans w w' w'' : fr w w' -> fr w' w'' -> fr w w''.
Proof.
  intros (A & B & C & D & F) (A' & B' & C' & D' & F'). split; [lia|]. split; [|split; [|split]].
  - intros l x L E X. apply B; auto. apply B'; auto. lia.
  - intros Z. destruct (C Z), (C' Z). split; congruence.
  - congruence.
  - intros Z l es L E. destruct (le_lt_dec (List.length (heap w')) l) as [L'|L']; [eapply F'; eauto|].
    apply (F Z l es L). apply B'; auto.
Qed.
Definition pres {A} (m : M A) : Prop := forall o w, fr w (fst (m o w)).
Lemma pres_bind {A B} (m : M A) (f : A -> M B) : pres m -> (forall a, pres (f a)) -> pres (bind m f).
Proof.
  intros H K o w. unfold bind. specialize (H o w). destruct (m o w) as [w' [a|msg]]; cbn [fst] in *; auto.
  eapply fr_trans; [exact H|]. apply K.
Qed.
Lemma pres_ret {A} (a : A) : pres (ret a). Proof. intros o w. apply fr_refl. Qed.
Lemma pres_throw {A} s : pres (@throw A s). Proof. intros o w. apply fr_refl. Qed.
Lemma pres_lift {A} (r : res A) : pres (lift r). Proof. intros o w. apply fr_refl. Qed.
Lemma pres_ask {A} (f : orc -> A) : pres (ask f). Proof. intros o w. apply fr_refl. Qed.
Lemma pres_gets {A} (f : world -> A) : pres (gets f). Proof. intros o w. apply fr_refl. Qed.
Lemma pres_load l : pres (load l). Proof. intros o w. unfold load. destruct (nth_error _ _); apply fr_refl. Qed.
Lemma pres_store l x : T (tag_of x) = true -> pres (store l x).
Proof.
  intros H o w. split; cbn; [rewrite lset_length; lia|]. split; [|split; [auto|split; auto]].
  - intros k y L E X. destruct (Nat.eq_dec l k) as [->|N]; [|rewrite lset_nth_neq in E; auto].
    rewrite lset_nth_eq in E by auto. congruence.
  - intros _ k es L E. apply nth_lt in E. rewrite lset_length in E. lia.
Qed.
Lemma pres_alloc x : match x with OReg es => es = [] | _ => True end -> pres (alloc x).
Proof.
  intros H o w. split; cbn; [rewrite app_length; lia|]. split; [|split; [auto|split; auto]].
  - intros k y L E X. now rewrite nth_error_app1 in E.
  - intros _ k es L E. rewrite nth_error_app2 in E by auto. destruct (k - List.length (heap w)) as [|j]; cbn in E; [inversion E; subst; exact H|destruct j; discriminate].
Qed.
Lemma pres_alive f : A0 = true -> pres (set_alive f).
Proof.
  intros H o w. split; cbn; auto. split; auto. split; [congruence|]. split; auto.
  intros _ l es L E. apply nth_lt in E. lia.
Qed.
Lemma pres_unless s m : pres m -> pres (unless_nil s m).
Proof. intros H. unfold unless_nil. apply pres_bind; [apply pres_gets|]. intros []; auto. apply pres_ret. Qed.
Create HintDb pres.
Hint Resolve pres_ret pres_throw pres_lift pres_ask pres_gets pres_load pres_alive pres_unless : pres.
Hint Extern 2 (pres (store _ _)) => apply pres_store; assumption : pres.
Hint Extern 2 (pres (alloc _)) => apply pres_alloc; first [exact Logic.I|reflexivity] : pres.
Ltac pres1 := first
  [ solve [auto 2 with pres]
  | apply pres_bind; [|intros ?]
  | match goal with |- context [let '(_, _) := ?x in _] => destruct x end
  | match goal with |- pres (match ?x with _ => _ end) => destruct x end
  | match goal with |- pres (if ?x then _ else _) => destruct x end
  | match goal with |- pres (?f ?a) => unfold f | |- pres (?f ?a ?b) => unfold f | |- pres (?f ?a ?b ?c) => unfold f | |- pres (?f ?a ?b ?c ?d) => unfold f | |- pres ?f => unfold f end ].
Ltac prs := repeat pres1.
Notation ok t := (T t = true).

(** health checks *)
Lemma pres_health_set v e : ok THealth -> pres (health_set v e). Proof. intros H. unfold health_set. prs. Qed.
Hint Resolve pres_health_set : pres.
Lemma pres_health_acts v l : ok THealth -> pres (health_acts v l).
Proof. intros H. induction l as [|a l]; cbn [health_acts]; [auto with pres|]. apply pres_bind; [|auto]. unfold health_act. destruct a; auto with pres. Qed.
Hint Resolve pres_health_acts : pres.
Lemma pres_health_check v : ok THealth -> pres (health_check v). Proof. intros H. unfold health_check. prs. Qed.
Lemma pres_health_error v : pres (health_error v). Proof. unfold health_error. prs. Qed.
Hint Resolve pres_health_check pres_health_error : pres.
(** samples *)
Lemma pres_sample_contents v : pres (sample_contents v). Proof. unfold sample_contents, uni_get, exp_get, ssnap_get, arr_get. prs. Qed.
Lemma pres_sample_count v : pres (sample_count v). Proof. unfold sample_count, uni_get, exp_get, ssnap_get, arr_get. prs. Qed.
Hint Resolve pres_sample_contents pres_sample_count : pres.
Lemma pres_sample_stat s v : pres (sample_stat s v). Proof. unfold sample_stat. prs. Qed.
Lemma pres_sample_percentiles ps v : ok TArr -> pres (sample_percentiles ps v). Proof. intros H. unfold sample_percentiles, uni_get, exp_get, ssnap_get, arr_get. prs. Qed.
Lemma pres_sample_snapshot v : pres (sample_snapshot v). Proof. unfold sample_snapshot, uni_get, exp_get, ssnap_get, arr_get, new_slice. prs. Qed.
Lemma pres_sample_clear v : ok TUniform -> ok TExp -> pres (sample_clear v). Proof. intros H1 H2. unfold sample_clear, uni_get, exp_get, ssnap_get, arr_get, new_slice. prs. Qed.
Lemma pres_sample_update n v : ok TUniform -> ok TExp -> ok TArr -> pres (sample_update mexp n v).
Proof. intros H1 H2 H3. unfold sample_update, uni_get, exp_get, ssnap_get, arr_get, new_slice. prs. Qed.
Lemma pres_sample_size v : pres (sample_size v). Proof. unfold sample_size. prs. Qed.
Lemma pres_sample_values v : pres (sample_values v). Proof. unfold sample_values, new_slice. prs. Qed.
Hint Resolve pres_sample_stat pres_sample_percentiles pres_sample_snapshot pres_sample_clear pres_sample_update pres_sample_size pres_sample_values : pres.
(** histograms *)
Lemma pres_hist_sample v : pres (hist_sample v). Proof. unfold hist_sample. prs. Qed.
Hint Resolve pres_hist_sample : pres.
Lemma pres_hist_snapshot v : pres (hist_snapshot v). Proof. unfold hist_snapshot. prs. Qed.
Lemma pres_hist_update n v : ok TUniform -> ok TExp -> ok TArr -> pres (hist_update mexp n v). Proof. intros H1 H2 H3. unfold hist_update. prs. Qed.
Lemma pres_hist_clear v : ok TUniform -> ok TExp -> pres (hist_clear v). Proof. intros H1 H2. unfold hist_clear. prs. Qed.
Lemma pres_hist_stat s v : pres (hist_stat s v). Proof. unfold hist_stat. prs. Qed.
Lemma pres_hist_count v : pres (hist_count v). Proof. unfold hist_count. prs. Qed.
Lemma pres_hist_percentiles ps v : ok TArr -> pres (hist_percentiles ps v). Proof. intros H. unfold hist_percentiles. prs. Qed.
Hint Resolve pres_hist_snapshot pres_hist_update pres_hist_clear pres_hist_stat pres_hist_count pres_hist_percentiles : pres.
(** EWMAs *)
Lemma pres_ewma_do l op : ok TEwma -> pres (ewma_do l op).
Proof.
  intros H. unfold ewma_do. apply pres_bind; [auto with pres|]. intros [] ; try apply pres_throw. destruct (cseq _ _) as [[]|]; [|auto with pres].
  apply pres_bind; auto with pres.
Qed.
Hint Resolve pres_ewma_do : pres.
Lemma pres_ewma_mut op v : ok TEwma -> pres (ewma_mut op v). Proof. intros H. unfold ewma_mut. prs. Qed.
Lemma pres_ewma_rate v : ok TEwma -> pres (ewma_rate v). Proof. intros H. unfold ewma_rate. prs. Qed.
Lemma pres_ewma_snapshot v : ok TEwma -> pres (ewma_snapshot v). Proof. intros H. unfold ewma_snapshot. prs. Qed.
Hint Resolve pres_ewma_mut pres_ewma_rate pres_ewma_snapshot : pres.
(** meters *)
Lemma pres_msnap_get l : pres (msnap_get l). Proof. unfold msnap_get. prs. Qed.
Lemma pres_meter_get l : pres (meter_get l). Proof. unfold meter_get. prs. Qed.
Hint Resolve pres_msnap_get pres_meter_get : pres.
Lemma pres_update_snapshot m : ok TEwma -> ok TMeterSnap -> pres (update_snapshot m).
Proof. intros H1 H2. unfold update_snapshot. repeat (apply pres_bind; [auto with pres|intros ?]). apply pres_store. assumption. Qed.
Hint Resolve pres_update_snapshot : pres.
Lemma pres_meter_mark n v : ok TEwma -> ok TMeterSnap -> pres (meter_mark n v).
Proof.
  intros H1 H2. destruct v; try (cbn; auto with pres; fail). unfold meter_mark. apply pres_bind; [auto with pres|intros m]. destruct (mo_stopped m); [auto with pres|].
  repeat (first [solve [auto with pres] | apply pres_bind; [auto with pres|intros ?]]).
Qed.
Lemma pres_meter_view v : pres (meter_view v). Proof. unfold meter_view. prs. Qed.
Lemma pres_meter_stop v : ok TMeter -> A0 = true -> pres (meter_stop v). Proof. intros H1 H2. unfold meter_stop. prs. Qed.
Hint Resolve pres_meter_mark pres_meter_view pres_meter_stop : pres.
Lemma pres_meter_count v : pres (meter_count v). Proof. unfold meter_count. prs. Qed.
Lemma pres_meter_rate k v : pres (meter_rate k v).
Proof. unfold meter_rate. apply pres_bind; [auto with pres|intros ?; apply pres_ret]. Qed.
Lemma pres_meter_snapshot v : pres (meter_snapshot v).
Proof. destruct v; try (cbn; auto with pres; fail). unfold meter_snapshot. repeat (apply pres_bind; [auto with pres|intros ?]). apply pres_ret. Qed.
Hint Resolve pres_meter_count pres_meter_rate pres_meter_snapshot : pres.
Lemma pres_meter_tick l : ok TEwma -> ok TMeterSnap -> pres (meter_tick l).
Proof. intros H1 H2. unfold meter_tick. repeat (first [solve [auto with pres] | apply pres_bind; [auto with pres|intros ?]]). Qed.
Lemma pres_tick_all ls : ok TEwma -> ok TMeterSnap -> pres (tick_all ls).
Proof. intros H1 H2. induction ls; cbn [tick_all]; [auto with pres|]. apply pres_bind; [apply pres_meter_tick|]; auto. Qed.
Lemma pres_tick_meters : ok TEwma -> ok TMeterSnap -> pres tick_meters.
Proof. intros H1 H2. unfold tick_meters. repeat (apply pres_bind; [auto with pres|intros ?]). apply pres_tick_all; auto. Qed.
(** timers *)
Lemma pres_timer_get v : pres (timer_get v). Proof. unfold timer_get. prs. Qed.
Hint Resolve pres_tick_meters pres_timer_get : pres.
Lemma pres_timer_count v : pres (timer_count v). Proof. unfold timer_count. apply pres_bind; [auto with pres|intros []]. auto with pres. Qed.
Lemma pres_timer_stat s v : pres (timer_stat s v). Proof. unfold timer_stat. apply pres_bind; [auto with pres|intros []]. auto with pres. Qed.
Lemma pres_timer_percentiles s v : ok TArr -> pres (timer_percentiles s v). Proof. intros H. unfold timer_percentiles. apply pres_bind; [auto with pres|intros []]. auto with pres. Qed.
Lemma pres_timer_rate s v : pres (timer_rate s v). Proof. unfold timer_rate. apply pres_bind; [auto with pres|intros []]. auto with pres. Qed.
Lemma pres_timer_snapshot v : pres (timer_snapshot v).
Proof.
  destruct v; try (cbn; auto with pres; fail). unfold timer_snapshot. apply pres_bind; [auto with pres|intros []].
  apply pres_bind; [auto with pres|intros h]. destruct h; auto with pres. apply pres_bind; [auto with pres|intros m]. destruct m; auto with pres.
  apply pres_bind; auto with pres.
Qed.
Lemma pres_timer_stop v : ok TMeter -> A0 = true -> pres (timer_stop v).
Proof. intros H1 H2. destruct v; try (cbn; auto with pres; fail). unfold timer_stop. apply pres_bind; [auto with pres|intros []]. auto with pres. Qed.
Lemma pres_timer_update n v : ok TUniform -> ok TExp -> ok TArr -> ok TEwma -> ok TMeterSnap -> pres (timer_update mexp n v).
Proof. intros H1 H2 H3 H4 H5. destruct v; try (cbn; auto with pres; fail). unfold timer_update. apply pres_bind; [auto with pres|intros []]. apply pres_bind; auto with pres. Qed.
Hint Resolve pres_timer_count pres_timer_stat pres_timer_percentiles pres_timer_rate pres_timer_snapshot pres_timer_stop pres_timer_update : pres.
Lemma pres_timer_update_since n v : ok TUniform -> ok TExp -> ok TArr -> ok TEwma -> ok TMeterSnap -> pres (timer_update_since mexp n v).
Proof.
  intros H1 H2 H3 H4 H5. destruct v; try (cbn; auto with pres; fail). unfold timer_update_since. apply pres_bind; [auto with pres|intros now].
  apply pres_bind; [auto with pres|intros []]. apply pres_bind; auto with pres.
Qed.
Lemma pres_timer_begin v : pres (timer_begin v). Proof. unfold timer_begin. prs. Qed.
Lemma pres_timer_end ts v : ok TUniform -> ok TExp -> ok TArr -> ok TEwma -> ok TMeterSnap -> pres (timer_end mexp ts v).
Proof. intros H1 H2 H3 H4 H5. unfold timer_end. apply pres_bind; auto with pres. Qed.
Hint Resolve pres_timer_update_since pres_timer_begin pres_timer_end : pres.
(** constructors *)
Lemma pres_new_meter : A0 = true -> pres (new_meter mexp).
Proof.
  intros H. assert (E : forall a, pres (new_ewma a)) by (intros; unfold new_ewma; apply pres_unless; apply pres_bind; auto with pres).
  unfold new_meter. apply pres_unless. do 6 (apply pres_bind; [auto with pres|intros ?]). apply pres_bind; [|auto with pres].
  intros o w. split; cbn; auto. split; auto. split; [congruence|]. split; auto.
  intros _ l es L E'. apply nth_lt in E'. lia.
Qed.
Lemma pres_new_exp n a : pres (new_exp n a). Proof. unfold new_exp. apply pres_unless. destruct (n <? 0)%Z; auto with pres. repeat (first [solve [auto 4 with pres] | apply pres_bind; [|intros ?]]). Qed.
Lemma pres_construct k : (makes_meter k = true -> A0 = true) -> pres (construct mexp k).
Proof.
  intros H. destruct k; cbn [construct]; unfold new_uniform, new_hist, new_ewma, new_timer, new_slice; try (apply pres_new_meter; auto; fail); try apply pres_new_exp;
  try (apply pres_unless; repeat (first [solve [auto 4 with pres] | apply pres_bind; [|intros ?]]); fail).
  - apply pres_unless. destruct (size <? 0)%Z; auto with pres. repeat (first [solve [auto 4 with pres] | apply pres_bind; [|intros ?]]).
  - apply pres_unless. apply pres_bind; [apply pres_new_exp|intros s]. apply pres_bind; [unfold new_hist; apply pres_unless; apply pres_bind; auto with pres|intros h].
    apply pres_bind; [apply pres_new_meter; auto|intros m]. apply pres_bind; auto with pres.
Qed.
Hint Resolve pres_construct : pres.
(** counters and gauges *)
Lemma pres_c_do l op : ok TCounter -> pres (c_do l op). Proof. intros H. unfold c_do, c_load. apply pres_bind; [|intros ?]. prs. apply pres_bind; auto with pres. Qed.
Lemma pres_g_do l op : ok TGauge -> pres (g_do l op). Proof. intros H. unfold g_do. apply pres_bind; [auto with pres|intros []]; auto with pres. apply pres_bind; auto with pres. Qed.
Lemma pres_gf_do l op : ok TGaugeF -> pres (gf_do l op). Proof. intros H. unfold gf_do. apply pres_bind; [auto with pres|intros []]; auto with pres. apply pres_bind; auto with pres. Qed.
Hint Resolve pres_c_do pres_g_do pres_gf_do : pres.
Lemma pres_counter_mut v op : ok TCounter -> pres (counter_mut v op). Proof. intros H. unfold counter_mut. prs. Qed.
Lemma pres_counter_count v : ok TCounter -> pres (counter_count v). Proof. intros H. unfold counter_count. prs. Qed.
Lemma pres_counter_snapshot v : ok TCounter -> pres (counter_snapshot v). Proof. intros H. unfold counter_snapshot. prs. Qed.
Lemma pres_gauge_update v n : ok TGauge -> pres (gauge_update v n). Proof. intros H. unfold gauge_update. prs. Qed.
Lemma pres_gauge_value v : ok TGauge -> pres (gauge_value v). Proof. intros H. unfold gauge_value. prs. Qed.
Lemma pres_gaugef_update v n : ok TGaugeF -> pres (gaugef_update v n). Proof. intros H. unfold gaugef_update. prs. Qed.
Lemma pres_gaugef_value v : ok TGaugeF -> pres (gaugef_value v). Proof. intros H. unfold gaugef_value. prs. Qed.
Hint Resolve pres_gauge_value pres_gaugef_value : pres.
Lemma pres_gauge_snapshot v : ok TGauge -> pres (gauge_snapshot v). Proof. intros H. unfold gauge_snapshot. prs. Qed.
Lemma pres_gaugef_snapshot v : ok TGaugeF -> pres (gaugef_snapshot v). Proof. intros H. unfold gaugef_snapshot. prs. Qed.
Hint Resolve pres_counter_mut pres_counter_count pres_counter_snapshot pres_gauge_update pres_gaugef_update pres_gauge_snapshot pres_gaugef_snapshot : pres.
(** registries *)
Lemma pres_entries l : pres (entries_get l). Proof. unfold entries_get. prs. Qed.
Hint Resolve pres_entries : pres.
Lemma pres_std_register l n v : ok TReg -> pres (std_register l n v).
Proof. intros H. unfold std_register. apply pres_bind; [auto with pres|intros es]. destruct (lookup n es); auto with pres. apply pres_bind; [destruct (is_metric v)|]; auto with pres. Qed.
Lemma pres_std_get l n : pres (std_get l n). Proof. unfold std_get. apply pres_bind; auto with pres. Qed.
Hint Resolve pres_std_register pres_std_get : pres.
Lemma pres_std_gor l n m : ok TReg -> pres m -> pres (std_get_or_register l n m).
Proof. intros H0 H. unfold std_get_or_register. apply pres_bind; [auto with pres|intros es]. destruct (lookup n es); auto with pres. apply pres_bind; auto. intros v. apply pres_bind; auto with pres. Qed.
Lemma pres_stop_value v : ok TMeter -> A0 = true -> pres (stop_value v). Proof. intros H1 H2. unfold stop_value. destruct (cls v); auto with pres. Qed.
Lemma pres_std_unregister l n : ok TReg -> ok TMeter -> A0 = true -> pres (std_unregister l n).
Proof.
  intros H1 H2 H3. unfold std_unregister. apply pres_bind; [auto with pres|intros es]. apply pres_bind; [destruct (lookup n es); auto using pres_stop_value with pres|intros _].
  apply pres_bind; auto with pres.
Qed.
Lemma pres_unregister_each l ns : ok TReg -> ok TMeter -> A0 = true -> pres (unregister_each l ns).
Proof. intros H1 H2 H3. induction ns; cbn [unregister_each]; auto with pres. apply pres_bind; auto using pres_std_unregister. Qed.
Lemma pres_std_unregister_all l : ok TReg -> ok TMeter -> A0 = true -> pres (std_unregister_all l).
Proof. intros H1 H2 H3. unfold std_unregister_all. repeat (apply pres_bind; [auto with pres|intros ?]). apply pres_unregister_each; auto. Qed.
Lemma pres_std_registered l : pres (std_registered l).
Proof. unfold std_registered. repeat (apply pres_bind; [auto with pres|intros ?]). apply pres_ret. Qed.
Lemma pres_check_each vs : ok THealth -> pres (check_each vs).
Proof. intros H. induction vs as [|v vs IH]; cbn [check_each]; auto with pres. apply pres_bind; auto. destruct (cls v); auto with pres. Qed.
Hint Resolve pres_std_unregister pres_std_unregister_all pres_std_registered pres_check_each : pres.
Lemma pres_std_run l : ok THealth -> pres (std_run_healthchecks l). Proof. intros H. unfold std_run_healthchecks. apply pres_bind; auto with pres. Qed.
Lemma pres_get_all_one v : ok TCounter -> ok TGauge -> ok TGaugeF -> ok THealth -> ok TArr -> pres (get_all_one v).
Proof. intros H1 H2 H3 H4 H5. unfold get_all_one. destruct (cls v); repeat (apply pres_bind; [auto with pres|intros ?]); auto with pres. Qed.
Lemma pres_get_all_each es : ok TCounter -> ok TGauge -> ok TGaugeF -> ok THealth -> ok TArr -> pres (get_all_each es).
Proof. intros H1 H2 H3 H4 H5. induction es as [|[n v] es IH]; cbn [get_all_each]; auto with pres. apply pres_bind; [apply pres_get_all_one; auto|intros f]. apply pres_bind; auto with pres. Qed.
Lemma pres_std_get_all l : ok TCounter -> ok TGauge -> ok TGaugeF -> ok THealth -> ok TArr -> pres (std_get_all l).
Proof. intros H1 H2 H3 H4 H5. unfold std_get_all. apply pres_bind; auto using pres_get_all_each with pres. Qed.
Hint Resolve pres_std_run pres_std_get_all : pres.
Lemma pres_reg_get r n : pres (reg_get r n). Proof. revert n. induction r; intros; cbn [reg_get]; auto with pres. Qed.
Lemma pres_reg_gor r n m : ok TReg -> pres m -> pres (reg_get_or_register r n m).
Proof. intros H0 H. revert n. induction r; intros; cbn [reg_get_or_register]; auto using pres_std_gor with pres. Qed.
Lemma pres_reg_register r n v : ok TReg -> pres (reg_register r n v). Proof. intros H. revert n. induction r; intros; cbn [reg_register]; auto with pres. Qed.
Lemma pres_reg_unregister r n : ok TReg -> ok TMeter -> A0 = true -> pres (reg_unregister r n). Proof. intros H1 H2 H3. revert n. induction r; intros; cbn [reg_unregister]; auto with pres. Qed.
Lemma pres_reg_unregister_all r : ok TReg -> ok TMeter -> A0 = true -> pres (reg_unregister_all r). Proof. intros H1 H2 H3. induction r; intros; cbn [reg_unregister_all]; auto with pres. Qed.
Lemma pres_reg_run r : ok THealth -> pres (reg_run_healthchecks r). Proof. intros H. induction r; intros; cbn [reg_run_healthchecks]; auto with pres. Qed.
Lemma pres_reg_get_all r : ok TCounter -> ok TGauge -> ok TGaugeF -> ok THealth -> ok TArr -> pres (reg_get_all r). Proof. intros H1 H2 H3 H4 H5. induction r; intros; cbn [reg_get_all]; auto with pres. Qed.
Lemma pres_reg_each r : pres (reg_each r).
Proof.
  unfold reg_each. assert (G : pres (match find_prefix r "" with (Some l, p) => (es <- std_registered l;; ret (filter (fun kv => String.prefix p (fst kv)) es))%list | (None, _) => throw msg_nil end)).
  { destruct (find_prefix r "") as [[l|] p]; auto with pres. apply pres_bind; auto with pres. }
  destruct r; auto with pres.
Qed.
Hint Resolve pres_reg_get pres_reg_gor pres_reg_register pres_reg_unregister pres_reg_unregister_all pres_reg_run pres_reg_get_all pres_reg_each : pres.
Lemma pres_new_registered k n r : ok TReg -> (makes_meter k = true -> A0 = true) -> pres (new_registered mexp k n r).
Proof. intros H1 H2. unfold new_registered. repeat (apply pres_bind; [auto with pres|intros ?]). apply pres_ret. Qed.
Lemma pres_gor_x k c n r : ok TReg -> (makes_meter c = true -> A0 = true) -> pres (get_or_register_x mexp k c n r).
Proof.
  intros H1 H2. unfold get_or_register_x. apply pres_bind.
  - destruct k; auto with pres. apply pres_bind; auto with pres.
  - intros v. unfold assert_class. destruct (class_eqb _ _); auto with pres.
Qed.
Lemma pres_slice_write v i n : ok TArr -> pres (slice_write v i n). Proof. intros H. unfold slice_write, arr_get. prs. Qed.
Lemma pres_slice_read v : pres (slice_read v). Proof. unfold slice_read, arr_get. prs. Qed.
Hint Resolve pres_new_registered pres_gor_x pres_slice_write pres_slice_read : pres.
Lemma pres_call0 e c m : Forall (fun t => T t = true) (touch c) -> (moves c = true -> A0 = true) ->
  (forall b, c <> OSetNil b) -> call mexp e c = Some m -> pres m.
Proof.
  intros HT HA N H.
  assert (B : forall A B (m : M A) (f : A -> B), pres m -> pres (bind m (fun a => ret (f a)))) by (intros; apply pres_bind; auto with pres).
  assert (O : forall k v m' m0, only k v m' = Some m0 -> pres m' -> pres m0).
  { unfold only. intros k v m' m0 Ho Hs. destruct (class_eqb _ _); inversion Ho; subst; auto. }
  destruct c; cbn [World.call] in H; unfold obind in H; cbn [touch moves] in HT, HA;
    repeat match goal with H : Forall _ (_ :: _) |- _ => apply Forall_cons_iff in H; destruct H end; clear HT || idtac;
    try specialize (HA eq_refl);
    try (exfalso; eapply N; reflexivity; fail);
    repeat match type of H with
      | context [match nth_error ?e ?x with _ => _ end] => destruct (nth_error e x); [|discriminate]
      | context [match ctor_of ?e ?x with _ => _ end] => let E := fresh "EC" in destruct (ctor_of e x) eqn:E; [apply ctor_meter in E; rewrite <- E in HA|discriminate]
      | context [match arg ?e ?k ?x with _ => _ end] => destruct (arg e k x); [|discriminate]
      | context [match reg_arg ?e ?x with _ => _ end] => destruct (reg_arg e x); [|discriminate]
      end;
    unfold m_clear, m_count, m_value, m_update, m_snapshot, m_stat, m_percentiles in H;
    try (match type of H with context [match cls ?v with _ => _ end] => destruct (cls v); try discriminate end);
    try (inversion H; subst; unfold v_rv, z_rv, f_rv, unit_rv; auto 6 with pres; fail);
    try (eapply O in H; [exact H|]; unfold v_rv, z_rv, f_rv, unit_rv; auto 6 with pres; fail).
  - destruct v; try discriminate. inversion H; subst. unfold v_rv. apply pres_bind; [|auto with pres]. apply pres_bind; auto with pres.
  - inversion H; subst. unfold v_rv, new_slice. apply pres_bind; [|auto with pres]. apply pres_bind; auto with pres.
  - inversion H; subst. unfold f_rv. apply pres_bind; [|auto with pres]. apply pres_bind; [auto with pres|]. intros l. unfold first_score. auto with pres.
  - inversion H; subst. unfold f_rv. apply pres_bind; [|auto with pres]. apply pres_bind; [auto with pres|]. intros l. unfold first_score. auto with pres.
  - inversion H; subst. unfold f_rv. apply pres_bind; [|auto with pres]. apply pres_bind; [auto with pres|]. intros l. unfold first_score. auto with pres.
  - inversion H; subst. apply pres_bind; [auto with pres|]. intros [er|]; auto with pres.
  - destruct (has_new_registered k); [|discriminate]. destruct (ctor_of e k) eqn:EC; [|discriminate]. apply ctor_meter in EC. rewrite <- EC in HA. destruct (reg_arg e r); [|discriminate].
    inversion H; subst. unfold v_rv. apply pres_bind; auto with pres.
Qed.
End Frame.

Definition tag_eqb (a b : tag) : bool :=
  match a, b with
  | TCounter, TCounter | TGauge, TGauge | TGaugeF, TGaugeF | THealth, THealth | TUniform, TUniform | TExp, TExp | TArr, TArr
  | TSampleSnap, TSampleSnap | THist, THist | THistSnap, THistSnap | TEwma, TEwma | TMeter, TMeter | TMeterSnap, TMeterSnap
  | TTimer, TTimer | TTimerSnap, TTimerSnap | TReg, TReg => true
  | _, _ => false
  end.
Definition tin (ts : list tag) (t : tag) : bool := existsb (tag_eqb t) ts.
Lemma tin_spec ts t : tin ts t = true <-> In t ts.
Proof.
  unfold tin. rewrite existsb_exists. split.
  - intros (x & H & E). destruct t, x; cbn in E; try discriminate; auto.
  - intros H. exists t. split; auto. destruct t; reflexivity.
Qed.

Lemma pres_call e c m : (forall b, c <> OSetNil b) -> call mexp e c = Some m -> pres (tin (touch c)) (moves c) m.
Proof. intros N H. apply (pres_call0 _ _ e c); auto. apply Forall_forall. intros t. apply tin_spec. Qed.

Lemma frame_step (st : state) c o : (forall b, c <> OSetNil b) -> fr (tin (touch c)) (moves c) (fst st) (fst (fst (step mexp st (c, o)))).
Proof.
  intros N. unfold World.step. cbn [fst snd]. destruct (World.call mexp (snd st) c) as [m|] eqn:C; [|apply fr_refl].
  pose proof (pres_call _ _ _ N C o (fst st)) as K. destruct (m o (fst st)) as [w' [r|msg]]; cbn [fst snd] in *; auto.
Qed.
(** an object of a kind the call does not write stays *)
Lemma untouched (st : state) c o l x : inv st -> nth_error (heap (fst st)) l = Some x -> ~ In (tag_of x) (touch c) ->
  nth_error (heap (fst (fst (step mexp st (c, o))))) l = Some x.
Proof.
  intros I E N. destruct (step_inv mexp st c o I) as (_ & L & _).
  destruct L as (_ & L & _). destruct (L _ _ E) as (x' & E' & X). pose proof (chg_tag _ _ _ _ _ X) as Tg.
  assert (D : (exists b, c = OSetNil b) \/ forall b, c <> OSetNil b) by (destruct c; eauto; right; discriminate).
  destruct D as [(b & ->)|D]; [exact E|].
  destruct (frame_step st c o D) as (_ & F & _).
  assert (G : nth_error (heap (fst st)) l = Some x').
  { apply F; auto; [eapply nth_lt; eauto|]. rewrite <- Tg. destruct (tin (touch c) (tag_of x)) eqn:B; auto. apply tin_spec in B. contradiction. }
  congruence.
Qed.
Lemma unmoved (st : state) c o : moves c = false -> alive (fst (fst (step mexp st (c, o)))) = alive (fst st).
Proof.
  intros N. assert (D : (exists b, c = OSetNil b) \/ forall b, c <> OSetNil b) by (destruct c; eauto; right; discriminate).
  destruct D as [(b & ->)|D]; [reflexivity|]. destruct (frame_step st c o D) as (_ & _ & F & _ & _). apply F. exact N.
Qed.
End Exp.
