(** UseNilMetrics: stubs, and the meters that are ticked. *)
From Coq Require Import ZArith List String Bool Lia Arith.
From Verif.Model Require Import GoInt GoFloat GoBase Stats Uniform ExpDecay Conc CounterGauge Ewma Meter World.
From Verif.Spec Require Import ApiSpec.
From Verif.Proofs Require Import WorldBase WorldStep.
Import ListNotations.
Local Open Scope nat_scope.
Local Open Scope list_scope.

Section Exp.
Variable mexp : f64 -> f64.
Notation step := (step mexp).
Notation run := (run mexp).

Lemma stub_new (st : state) k o : usenil (fst st) = true -> ctor_of (snd st) k <> None ->
  step st (ONew k, o) = ((fst st, snd st ++ [stub_for k]), Some (Ok (RVal (stub_for k)))).
Proof.
  intros U C. unfold World.step. cbn [fst snd World.call]. destruct st as [w e]. cbn [fst snd] in *.
  destruct (ctor_of e k) as [c|] eqn:E; [|contradiction]. cbn [obind].
  assert (G : construct mexp c o w = (w, Ok (stub_for k))).
  { destruct k; cbn in E; try (inversion E; subst); cbn [construct stub_for];
      unfold new_uniform, new_exp, new_hist, new_ewma, new_meter, new_timer, unless_nil, bind, gets; rewrite ?U; try reflexivity.
    - destruct (arg e CSample s); inversion E; subst. cbn [construct]. unfold new_hist, unless_nil, bind, gets. now rewrite U.
    - destruct (arg e CHist h); [|discriminate]. destruct (arg e CMeter m); inversion E; subst. cbn [construct]. unfold unless_nil, bind, gets. now rewrite U. }
  unfold v_rv, bind. rewrite G. reflexivity.
Qed.
Lemma stub_is_stub k : is_stub (stub_for k) = true.
Proof. destruct k; reflexivity. Qed.

Lemma stub_method (st : state) c o x v : inv st -> nth_error (snd st) x = Some v -> is_stub v = true -> method (cls v) c = Some x ->
  exists r, step st (c, o) = ((fst st, snd st ++ yields r), Some (Ok r)) /\ zero_result c (heap (fst st)) r.
Proof.
  intros I E S Mt. destruct st as [w e]. cbn [fst snd] in *. pose proof (wf_zero _ (proj1 I)) as Z0. cbn [fst] in Z0.
  unfold World.step. cbn [fst snd].
  destruct v; cbn in S; try discriminate; cbn [cls method] in Mt; destruct c; try discriminate; inversion Mt; subst;
    cbn [World.call]; rewrite E; cbn [obind];
    try (eexists; (split; [reflexivity|]); cbn; auto; fail);
    try (destruct s; eexists; (split; [reflexivity|]); cbn; auto; fail);
    try (destruct k; eexists; (split; [reflexivity|]); cbn; auto; fail).
Qed.

Lemma only_stubs_run p : forall st : state, inv st -> usenil (fst st) = true -> only_stubs mexp st p ->
  fst (run st p) = fst st /\ Forall (fun r => exists x, r = Some (Ok x)) (results mexp st p).
Proof.
  induction p as [|[c o] p IH]; intros st I U HP; [cbn; auto|]. destruct HP as [H P]. rewrite run_cons. cbn [results].
  assert (G : exists r, step st (c, o) = ((fst st, snd st ++ yields r), Some (Ok r))).
  { destruct H as [(k & -> & H)|(x & v & E & S & Mt)].
    - exists (RVal (stub_for k)). apply stub_new; auto.
    - destruct (stub_method st c o x v I E S Mt) as (r & R & _). eauto. }
  destruct (step_inv mexp st c o I) as (I' & _).
  destruct G as (r & G). rewrite G in *. cbn [fst snd] in *. destruct (IH (fst st, snd st ++ yields r) I' U P) as (A & B). split; auto.
  constructor; eauto.
Qed.

(** ** no call starts ticking under UseNilMetrics *)
Definition still {A} (m : M A) : Prop := forall o w, usenil w = true ->
  usenil (fst (m o w)) = true /\ ticking (fst (m o w)) = ticking w /\ incl (alive (fst (m o w))) (alive w).
Lemma still_bind {A B} (m : M A) (f : A -> M B) : still m -> (forall a, still (f a)) -> still (bind m f).
Proof.
  intros H K o w U. unfold bind. specialize (H o w U). destruct (m o w) as [w' [a|msg]]; cbn [fst] in *; auto.
  destruct H as (H1 & H2 & H3). destruct (K a o w' H1) as (K1 & K2 & K3). split; [auto|split; [congruence|]]. eapply incl_tran; eauto.
Qed.
Lemma still_ret {A} (a : A) : still (ret a). Proof. intros o w U. cbn. auto using incl_refl. Qed.
Lemma still_throw {A} s : still (@throw A s). Proof. intros o w U. cbn. auto using incl_refl. Qed.
Lemma still_lift {A} (r : res A) : still (lift r). Proof. intros o w U. cbn. auto using incl_refl. Qed.
Lemma still_ask {A} (f : orc -> A) : still (ask f). Proof. intros o w U. cbn. auto using incl_refl. Qed.
Lemma still_gets {A} (f : world -> A) : still (gets f). Proof. intros o w U. cbn. auto using incl_refl. Qed.
Lemma still_load l : still (load l). Proof. intros o w U. unfold load. destruct (nth_error _ _); cbn; auto using incl_refl. Qed.
Lemma still_store l x : still (store l x). Proof. intros o w U. cbn. auto using incl_refl. Qed.
Lemma still_alloc x : still (alloc x). Proof. intros o w U. cbn. auto using incl_refl. Qed.
Lemma still_filter f : still (set_alive (filter f)).
Proof. intros o w U. cbn. split; auto. split; auto. intros a H. apply filter_In in H. tauto. Qed.
Lemma still_unless s m : still (unless_nil s m).
Proof. intros o w U. unfold unless_nil, bind, gets. rewrite U. cbn. auto using incl_refl. Qed.
Create HintDb still.
Hint Resolve still_ret still_throw still_lift still_ask still_gets still_load still_store still_alloc still_filter still_unless : still.
Ltac still1 := first
  [ solve [auto 2 with still]
  | apply still_bind; [|intros ?]
  | match goal with |- context [let '(_, _) := ?x in _] => destruct x end
  | match goal with |- still (match ?x with _ => _ end) => destruct x end
  | match goal with |- still (if ?x then _ else _) => destruct x end
  | match goal with |- still (?f ?a) => unfold f | |- still (?f ?a ?b) => unfold f | |- still (?f ?a ?b ?c) => unfold f | |- still (?f ?a ?b ?c ?d) => unfold f | |- still ?f => unfold f end ].
Ltac stl := repeat still1.
Lemma still_health_acts v l : still (health_acts v l).
Proof. induction l; cbn [health_acts]; [auto with still|]. apply still_bind; [|auto]. unfold health_act, health_set. stl. Qed.
Hint Resolve still_health_acts : still.
Lemma still_sample_contents v : still (sample_contents v). Proof. unfold sample_contents, uni_get, exp_get, ssnap_get, arr_get. stl. Qed.
Lemma still_sample_count v : still (sample_count v). Proof. unfold sample_count, uni_get, exp_get, ssnap_get, arr_get. stl. Qed.
Hint Resolve still_sample_contents still_sample_count : still.
Lemma still_sample_stat s v : still (sample_stat s v). Proof. unfold sample_stat. stl. Qed.
Lemma still_sample_percentiles ps v : still (sample_percentiles ps v). Proof. unfold sample_percentiles, uni_get, exp_get, ssnap_get, arr_get. stl. Qed.
Lemma still_sample_snapshot v : still (sample_snapshot v). Proof. unfold sample_snapshot, uni_get, exp_get, ssnap_get, arr_get, new_slice. stl. Qed.
Lemma still_sample_clear v : still (sample_clear v). Proof. unfold sample_clear, uni_get, exp_get, ssnap_get, arr_get, new_slice. stl. Qed.
Lemma still_sample_update n v : still (sample_update mexp n v). Proof. unfold sample_update, uni_get, exp_get, ssnap_get, arr_get, new_slice. stl. Qed.
Hint Resolve still_sample_stat still_sample_percentiles still_sample_snapshot still_sample_clear still_sample_update : still.
Lemma still_hist_sample v : still (hist_sample v). Proof. unfold hist_sample. stl. Qed.
Hint Resolve still_hist_sample : still.
Lemma still_hist_snapshot v : still (hist_snapshot v). Proof. unfold hist_snapshot. stl. Qed.
Lemma still_hist_update n v : still (hist_update mexp n v). Proof. unfold hist_update. stl. Qed.
Lemma still_hist_clear v : still (hist_clear v). Proof. unfold hist_clear. stl. Qed.
Lemma still_hist_stat s v : still (hist_stat s v). Proof. unfold hist_stat. stl. Qed.
Lemma still_hist_count v : still (hist_count v). Proof. unfold hist_count. stl. Qed.
Lemma still_hist_percentiles ps v : still (hist_percentiles ps v). Proof. unfold hist_percentiles. stl. Qed.
Hint Resolve still_hist_snapshot still_hist_update still_hist_clear still_hist_stat still_hist_count still_hist_percentiles : still.
Lemma still_ewma_do l op : still (ewma_do l op).
Proof.
  unfold ewma_do. apply still_bind; [auto with still|]. intros [] ; try apply still_throw. destruct (cseq _ _) as [[]|]; [|auto with still].
  apply still_bind; auto with still.
Qed.
Hint Resolve still_ewma_do : still.
Lemma still_ewma_mut op v : still (ewma_mut op v). Proof. unfold ewma_mut. stl. Qed.
Lemma still_ewma_rate v : still (ewma_rate v). Proof. unfold ewma_rate. stl. Qed.
Lemma still_ewma_snapshot v : still (ewma_snapshot v). Proof. unfold ewma_snapshot. stl. Qed.
Hint Resolve still_ewma_mut still_ewma_rate still_ewma_snapshot : still.
Lemma still_msnap_get l : still (msnap_get l). Proof. unfold msnap_get. stl. Qed.
Lemma still_meter_get l : still (meter_get l). Proof. unfold meter_get. stl. Qed.
Hint Resolve still_msnap_get still_meter_get : still.
Lemma still_update_snapshot m : still (update_snapshot m).
Proof. unfold update_snapshot. repeat (apply still_bind; [auto with still|intros ?]). apply still_store. Qed.
Hint Resolve still_update_snapshot : still.
Lemma still_meter_mark n v : still (meter_mark n v).
Proof.
  destruct v; try (cbn; auto with still; fail). unfold meter_mark. apply still_bind; [auto with still|intros m]. destruct (mo_stopped m); [auto with still|].
  repeat (first [solve [auto with still] | apply still_bind; [auto with still|intros ?]]).
Qed.
Lemma still_meter_view v : still (meter_view v). Proof. unfold meter_view. stl. Qed.
Lemma still_meter_stop v : still (meter_stop v). Proof. unfold meter_stop. stl. Qed.
Hint Resolve still_meter_mark still_meter_view still_meter_stop : still.
Lemma still_meter_count v : still (meter_count v). Proof. unfold meter_count. stl. Qed.
Lemma still_meter_rate k v : still (meter_rate k v).
Proof. unfold meter_rate. apply still_bind; [auto with still|intros ?; apply still_ret]. Qed.
Lemma still_meter_snapshot v : still (meter_snapshot v).
Proof. destruct v; try (cbn; auto with still; fail). unfold meter_snapshot. repeat (apply still_bind; [auto with still|intros ?]). apply still_ret. Qed.
Hint Resolve still_meter_count still_meter_rate still_meter_snapshot : still.
Lemma still_meter_tick l : still (meter_tick l).
Proof. unfold meter_tick. repeat (first [solve [auto with still] | apply still_bind; [auto with still|intros ?]]). Qed.
Lemma still_tick_all ls : still (tick_all ls).
Proof. induction ls; cbn [tick_all]; [auto with still|]. apply still_bind; [apply still_meter_tick|auto]. Qed.
Lemma still_tick_meters : still tick_meters.
Proof. unfold tick_meters. repeat (apply still_bind; [auto with still|intros ?]). apply still_tick_all. Qed.
Lemma still_timer_get v : still (timer_get v). Proof. unfold timer_get. stl. Qed.
Hint Resolve still_tick_meters still_timer_get : still.
Lemma still_timer_count v : still (timer_count v). Proof. unfold timer_count. apply still_bind; [auto with still|intros []]. auto with still. Qed.
Lemma still_timer_stat s v : still (timer_stat s v). Proof. unfold timer_stat. apply still_bind; [auto with still|intros []]. auto with still. Qed.
Lemma still_timer_percentiles s v : still (timer_percentiles s v). Proof. unfold timer_percentiles. apply still_bind; [auto with still|intros []]. auto with still. Qed.
Lemma still_timer_rate s v : still (timer_rate s v). Proof. unfold timer_rate. apply still_bind; [auto with still|intros []]. auto with still. Qed.
Lemma still_timer_snapshot v : still (timer_snapshot v).
Proof.
  destruct v; try (cbn; auto with still; fail). unfold timer_snapshot. apply still_bind; [auto with still|intros []].
  apply still_bind; [auto with still|intros h]. destruct h; auto with still. apply still_bind; [auto with still|intros m]. destruct m; auto with still.
  apply still_bind; auto with still.
Qed.
Lemma still_timer_stop v : still (timer_stop v).
Proof. destruct v; try (cbn; auto with still; fail). unfold timer_stop. apply still_bind; [auto with still|intros []]. auto with still. Qed.
Lemma still_timer_update n v : still (timer_update mexp n v).
Proof. destruct v; try (cbn; auto with still; fail). unfold timer_update. apply still_bind; [auto with still|intros []]. apply still_bind; auto with still. Qed.
Hint Resolve still_timer_count still_timer_stat still_timer_percentiles still_timer_rate still_timer_snapshot still_timer_stop still_timer_update : still.
Lemma still_timer_update_since n v : still (timer_update_since mexp n v).
Proof.
  destruct v; try (cbn; auto with still; fail). unfold timer_update_since. apply still_bind; [auto with still|intros now].
  apply still_bind; [auto with still|intros []]. apply still_bind; auto with still.
Qed.
Lemma still_timer_begin v : still (timer_begin v). Proof. unfold timer_begin. stl. Qed.
Lemma still_timer_end ts v : still (timer_end mexp ts v). Proof. unfold timer_end. stl. Qed.
Lemma still_construct k : still (construct mexp k).
Proof. destruct k; cbn [construct]; unfold new_uniform, new_exp, new_hist, new_ewma, new_meter, new_timer; auto with still. Qed.
Hint Resolve still_timer_update_since still_timer_begin still_timer_end still_construct : still.
Lemma still_health_check v : still (health_check v). Proof. unfold health_check. stl. Qed.
Lemma still_health_error v : still (health_error v). Proof. unfold health_error. stl. Qed.
Lemma still_health_set v e : still (health_set v e). Proof. unfold health_set. stl. Qed.
Hint Resolve still_health_check still_health_error still_health_set : still.
Lemma still_c_do l op : still (c_do l op). Proof. unfold c_do, c_load. apply still_bind; [|intros ?]. stl. apply still_bind; auto with still. Qed.
Lemma still_g_do l op : still (g_do l op). Proof. unfold g_do. apply still_bind; [auto with still|intros []]; auto with still. apply still_bind; auto with still. Qed.
Lemma still_gf_do l op : still (gf_do l op). Proof. unfold gf_do. apply still_bind; [auto with still|intros []]; auto with still. apply still_bind; auto with still. Qed.
Hint Resolve still_c_do still_g_do still_gf_do : still.
Lemma still_counter_mut v op : still (counter_mut v op). Proof. unfold counter_mut. stl. Qed.
Lemma still_counter_count v : still (counter_count v). Proof. unfold counter_count. stl. Qed.
Lemma still_counter_snapshot v : still (counter_snapshot v). Proof. unfold counter_snapshot. stl. Qed.
Lemma still_gauge_update v n : still (gauge_update v n). Proof. unfold gauge_update. stl. Qed.
Lemma still_gauge_value v : still (gauge_value v). Proof. unfold gauge_value. stl. Qed.
Lemma still_gaugef_update v n : still (gaugef_update v n). Proof. unfold gaugef_update. stl. Qed.
Lemma still_gaugef_value v : still (gaugef_value v). Proof. unfold gaugef_value. stl. Qed.
Hint Resolve still_gauge_value still_gaugef_value : still.
Lemma still_gauge_snapshot v : still (gauge_snapshot v). Proof. unfold gauge_snapshot. stl. Qed.
Lemma still_gaugef_snapshot v : still (gaugef_snapshot v). Proof. unfold gaugef_snapshot. stl. Qed.
Hint Resolve still_counter_mut still_counter_count still_counter_snapshot still_gauge_update still_gaugef_update still_gauge_snapshot still_gaugef_snapshot : still.
Lemma still_entries l : still (entries_get l). Proof. unfold entries_get. stl. Qed.
Hint Resolve still_entries : still.
Lemma still_std_register l n v : still (std_register l n v).
Proof. unfold std_register. apply still_bind; [auto with still|intros es]. destruct (lookup n es); auto with still. apply still_bind; [destruct (is_metric v)|]; auto with still. Qed.
Lemma still_std_get l n : still (std_get l n). Proof. unfold std_get. apply still_bind; auto with still. Qed.
Hint Resolve still_std_register still_std_get : still.
Lemma still_std_gor l n m : still m -> still (std_get_or_register l n m).
Proof. intros H. unfold std_get_or_register. apply still_bind; [auto with still|intros es]. destruct (lookup n es); auto with still. apply still_bind; auto. intros v. apply still_bind; auto with still. Qed.
Lemma still_stop_value v : still (stop_value v). Proof. unfold stop_value. destruct (cls v); auto with still. Qed.
Lemma still_std_unregister l n : still (std_unregister l n).
Proof.
  unfold std_unregister. apply still_bind; [auto with still|intros es]. apply still_bind; [destruct (lookup n es); auto using still_stop_value with still|intros _].
  apply still_bind; auto with still.
Qed.
Lemma still_unregister_each l ns : still (unregister_each l ns).
Proof. induction ns; cbn [unregister_each]; auto with still. apply still_bind; auto using still_std_unregister. Qed.
Lemma still_std_unregister_all l : still (std_unregister_all l).
Proof. unfold std_unregister_all. repeat (apply still_bind; [auto with still|intros ?]). apply still_unregister_each. Qed.
Lemma still_std_registered l : still (std_registered l).
Proof. unfold std_registered. repeat (apply still_bind; [auto with still|intros ?]). apply still_ret. Qed.
Lemma still_check_each vs : still (check_each vs).
Proof. induction vs as [|v vs IH]; cbn [check_each]; auto with still. apply still_bind; auto. destruct (cls v); auto with still. Qed.
Hint Resolve still_std_unregister still_std_unregister_all still_std_registered still_check_each : still.
Lemma still_std_run l : still (std_run_healthchecks l). Proof. unfold std_run_healthchecks. apply still_bind; auto with still. Qed.
Lemma still_get_all_one v : still (get_all_one v).
Proof. unfold get_all_one. destruct (cls v); repeat (apply still_bind; [auto with still|intros ?]); auto with still. Qed.
Lemma still_get_all_each es : still (get_all_each es).
Proof. induction es as [|[n v] es IH]; cbn [get_all_each]; auto with still. apply still_bind; [apply still_get_all_one|intros f]. apply still_bind; auto with still. Qed.
Lemma still_std_get_all l : still (std_get_all l).
Proof. unfold std_get_all. apply still_bind; auto using still_get_all_each with still. Qed.
Hint Resolve still_std_run still_std_get_all : still.
Lemma still_reg_get r n : still (reg_get r n). Proof. revert n. induction r; intros; cbn [reg_get]; auto with still. Qed.
Lemma still_reg_gor r n m : still m -> still (reg_get_or_register r n m).
Proof. intros H. revert n. induction r; intros; cbn [reg_get_or_register]; auto using still_std_gor with still. Qed.
Lemma still_reg_register r n v : still (reg_register r n v). Proof. revert n. induction r; intros; cbn [reg_register]; auto with still. Qed.
Lemma still_reg_unregister r n : still (reg_unregister r n). Proof. revert n. induction r; intros; cbn [reg_unregister]; auto with still. Qed.
Lemma still_reg_unregister_all r : still (reg_unregister_all r). Proof. induction r; intros; cbn [reg_unregister_all]; auto with still. Qed.
Lemma still_reg_run r : still (reg_run_healthchecks r). Proof. induction r; intros; cbn [reg_run_healthchecks]; auto with still. Qed.
Lemma still_reg_get_all r : still (reg_get_all r). Proof. induction r; intros; cbn [reg_get_all]; auto with still. Qed.
Lemma still_reg_each r : still (reg_each r).
Proof.
  unfold reg_each. assert (G : still (match find_prefix r "" with (Some l, p) => (es <- std_registered l;; ret (filter (fun kv => String.prefix p (fst kv)) es))%list | (None, _) => throw msg_nil end)).
  { destruct (find_prefix r "") as [[l|] p]; auto with still. apply still_bind; auto with still. }
  destruct r; auto with still.
Qed.
Hint Resolve still_reg_get still_reg_gor still_reg_register still_reg_unregister still_reg_unregister_all still_reg_run still_reg_get_all still_reg_each : still.

Lemma still_new_registered k n r : still (new_registered mexp k n r).
Proof. unfold new_registered. repeat (apply still_bind; [auto with still|intros ?]). apply still_ret. Qed.
Lemma still_gor_x k c n r : still (get_or_register_x mexp k c n r).
Proof.
  unfold get_or_register_x. apply still_bind.
  - destruct k; auto with still. apply still_bind; auto with still.
  - intros v. unfold assert_class. destruct (class_eqb _ _); auto with still.
Qed.
Lemma still_slice_write v i n : still (slice_write v i n). Proof. unfold slice_write, arr_get. stl. Qed.
Lemma still_slice_read v : still (slice_read v). Proof. unfold slice_read, arr_get. stl. Qed.
Lemma still_sample_size v : still (sample_size v). Proof. unfold sample_size. stl. Qed.
Lemma still_sample_values v : still (sample_values v). Proof. unfold sample_values, new_slice. stl. Qed.
Hint Resolve still_new_registered still_gor_x still_slice_write still_slice_read still_sample_size still_sample_values : still.

Lemma still_call e c m : (forall b, c <> OSetNil b) -> call mexp e c = Some m -> still m.
Proof.
  intros N H.
  assert (B : forall A B (m : M A) (f : A -> B), still m -> still (bind m (fun a => ret (f a)))) by (intros; apply still_bind; auto with still).
  assert (O : forall k v m' m0, only k v m' = Some m0 -> still m' -> still m0).
  { unfold only. intros k v m' m0 Ho Hs. destruct (class_eqb _ _); inversion Ho; subst; auto. }
  destruct c; cbn [World.call] in H; unfold obind in H;
    try (exfalso; eapply N; reflexivity; fail);
    repeat match type of H with
      | context [match nth_error ?e ?x with _ => _ end] => destruct (nth_error e x); [|discriminate]
      | context [match ctor_of ?e ?x with _ => _ end] => destruct (ctor_of e x); [|discriminate]
      | context [match arg ?e ?k ?x with _ => _ end] => destruct (arg e k x); [|discriminate]
      | context [match reg_arg ?e ?x with _ => _ end] => destruct (reg_arg e x); [|discriminate]
      end;
    unfold m_clear, m_count, m_value, m_update, m_snapshot, m_stat, m_percentiles in H;
    try (match type of H with context [match cls ?v with _ => _ end] => destruct (cls v); try discriminate end);
    try (inversion H; subst; unfold v_rv, z_rv, f_rv, unit_rv; auto 6 with still; fail);
    try (eapply O in H; [exact H|]; unfold v_rv, z_rv, f_rv, unit_rv; auto 6 with still; fail).
  - destruct v; try discriminate. inversion H; subst. unfold v_rv. apply still_bind; [|auto with still]. apply still_bind; auto with still.
  - inversion H; subst. unfold v_rv, new_slice. apply still_bind; [|auto with still]. apply still_bind; auto with still.
  - inversion H; subst. unfold f_rv. apply still_bind; [|auto with still]. apply still_bind; [auto with still|]. intros l. unfold first_score. auto with still.
  - inversion H; subst. unfold f_rv. apply still_bind; [|auto with still]. apply still_bind; [auto with still|]. intros l. unfold first_score. auto with still.
  - inversion H; subst. unfold f_rv. apply still_bind; [|auto with still]. apply still_bind; [auto with still|]. intros l. unfold first_score. auto with still.
  - inversion H; subst. apply still_bind; [auto with still|]. intros [er|]; auto with still.
  - destruct (has_new_registered k); [|discriminate]. destruct (ctor_of e k); [|discriminate]. destruct (reg_arg e r); [|discriminate].
    inversion H; subst. unfold v_rv. apply still_bind; auto with still.
Qed.
Lemma no_ticking (st : state) c o : usenil (fst st) = true -> (forall b, c <> OSetNil b) ->
  let w' := fst (fst (step st (c, o))) in usenil w' = true /\ ticking w' = ticking (fst st) /\ incl (alive w') (alive (fst st)).
Proof.
  intros U N. unfold World.step. cbn [fst snd]. destruct (World.call mexp (snd st) c) as [m|] eqn:C; [|cbn; auto using incl_refl].
  pose proof (still_call _ _ _ N C o (fst st) U) as K. destruct (m o (fst st)) as [w' [r|msg]]; cbn [fst snd] in *; auto.
Qed.
End Exp.
