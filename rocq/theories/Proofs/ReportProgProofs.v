(** Reports are programs: what a report does to the metrics, calls of the API by the program do. *)
From Coq Require Import ZArith List String Bool Lia Permutation.
From Verif.Model Require Import GoInt GoFloat GoBase Stats World Report Json Expvar Librato.
From Verif.Spec Require Import ApiSpec RegistrySpec WriteSpec ReadOnlySpec.
From Verif.Proofs Require Import WorldBase WorldStep.
Import ListNotations.
Local Open Scope string_scope.

Section Prog.
Variable mexp : f64 -> f64.
Variable runs : bool.
Variable o : orc.
Notation run := (World.run mexp).
Notation step := (World.step mexp).
Notation calls q := (Forall (fun co : op * orc => snd co = o /\ reading_call runs (fst co) = true) q).

Definition performs {A} (m : M A) (st : state) (Q : A -> state -> Prop) : Prop :=
  exists q, calls q /\ fst (run st q) = fst (m o (fst st)) /\ (exists ext, snd (run st q) = (snd st ++ ext)%list) /\
    match snd (m o (fst st)) with Ok a => Q a (run st q) | Panic _ => True end.
Definition grows (st st' : state) : Prop := exists ext, snd st' = (snd st ++ ext)%list.

Lemma p_ret {A} (a : A) st (Q : A -> state -> Prop) : Q a st -> performs (ret a) st Q.
Proof. intros H. exists []. split; [constructor|]. split; [reflexivity|]. split; [exists []; now rewrite app_nil_r|exact H]. Qed.
Lemma p_throw {A} m st (Q : A -> state -> Prop) : performs (throw m) st Q.
Proof. exists []. split; [constructor|]. split; [reflexivity|]. split; [exists []; now rewrite app_nil_r|exact Logic.I]. Qed.
Lemma p_lift {A} (r : res A) st (Q : A -> state -> Prop) : (forall a, r = Ok a -> Q a st) -> performs (lift r) st Q.
Proof. intros H. exists []. split; [constructor|]. split; [reflexivity|]. split; [exists []; now rewrite app_nil_r|]. cbn. destruct r; auto. Qed.
Lemma p_ask {A} (f : orc -> A) st (Q : A -> state -> Prop) : Q (f o) st -> performs (ask f) st Q.
Proof. intros H. exists []. split; [constructor|]. split; [reflexivity|]. split; [exists []; now rewrite app_nil_r|exact H]. Qed.
Lemma p_bind {A B} (m : M A) (f : A -> M B) st Q R : inv st -> performs m st Q -> (forall a st', inv st' -> grows st st' -> Q a st' -> performs (f a) st' R) -> performs (bind m f) st R.
Proof.
  intros Iv (q & Cq & Eq & (ext & Eg) & Hq) Hf. unfold bind. destruct (m o (fst st)) as [w1 [a|msg]] eqn:Em; cbn [fst snd] in *.
  - destruct (Hf a (run st q)) as (q2 & C2 & E2 & (ext2 & G2) & H2); [now apply inv_run|exists ext; exact Eg|exact Hq|]. unfold performs. rewrite Em. exists (q ++ q2)%list. rewrite run_app. rewrite Eq in *. split; [apply Forall_app; auto|]. split; [exact E2|]. split; [|exact H2]. exists (ext ++ ext2)%list. rewrite G2, Eg. now rewrite app_assoc.
  - unfold performs. rewrite Em. exists q. cbn [fst snd]. eauto.
Qed.
Lemma p_weaken {A} (m : M A) st (Q R : A -> state -> Prop) : performs m st Q -> (forall a st', Q a st' -> R a st') -> performs m st R.
Proof. intros (q & C & E & G & H) W. exists q. split; [exact C|]. split; [exact E|]. split; [exact G|]. destruct (snd (m o (fst st))); auto. Qed.
(** one call *)
Lemma p_call {A} (m : M A) (g : A -> rv) c st (Q : A -> state -> Prop) : World.call mexp (snd st) c = Some (bind m (fun a => ret (g a))) -> reading_call runs c = true ->
  (forall a w', m o (fst st) = (w', Ok a) -> Q a (w', snd st ++ yields (g a))%list) -> performs m st Q.
Proof.
  intros E Rc H. exists [(c, o)]. split; [constructor; [auto|constructor]|]. unfold World.run. cbn [fold_left]. unfold World.step. cbn [fst snd]. rewrite E. unfold bind. destruct (m o (fst st)) as [w' [a|msg]] eqn:Em; unfold ret; cbn [fst snd].
  - split; [reflexivity|]. split; [eauto|]. now apply H.
  - split; [reflexivity|]. split; [exists []; now rewrite app_nil_r|exact Logic.I].
Qed.
Lemma p_call_rv (m : M rv) c st (Q : rv -> state -> Prop) : World.call mexp (snd st) c = Some m -> reading_call runs c = true ->
  (forall a w', m o (fst st) = (w', Ok a) -> Q a (w', snd st ++ yields a)%list) -> performs m st Q.
Proof.
  intros E Rc H. exists [(c, o)]. split; [constructor; [auto|constructor]|]. unfold World.run. cbn [fold_left]. unfold World.step. cbn [fst snd]. rewrite E. destruct (m o (fst st)) as [w' [a|msg]] eqn:Em; cbn [fst snd].
  - split; [reflexivity|]. split; [eauto|]. now apply H.
  - split; [reflexivity|]. split; [exists []; now rewrite app_nil_r|exact Logic.I].
Qed.

Notation T := (fun _ _ => True).
Definition has (v : val) (st : state) : Prop := In v (snd st).
Lemma has_grows v st st' : grows st st' -> has v st -> has v st'.
Proof. intros (e & E) H. unfold has. rewrite E. apply in_or_app. now left. Qed.
Lemma has_at v st : has v st -> exists x, nth_error (snd st) x = Some v.
Proof. apply In_nth_error. Qed.
Ltac one c := match goal with H : has ?v ?st |- _ => destruct (has_at v st H) as (x & Ex); eapply (p_call _ _ (c x)); [cbn [World.call obind]; rewrite Ex; cbn [obind]; unfold m_count, m_value, m_snapshot, only; match goal with K : cls v = _ |- _ => rewrite K end; reflexivity|reflexivity|] end.

Section Acc.
Variables (v : val) (st : state).
Hypothesis H : has v st.
Lemma p_counter_count : cls v = CCounter -> performs (counter_count v) st T. Proof. intros K. one OCount. auto. Qed.
Lemma p_gauge_value : cls v = CGauge -> performs (gauge_value v) st T. Proof. intros K. one OValue. auto. Qed.
Lemma p_gaugef_value : cls v = CGaugeF -> performs (gaugef_value v) st T. Proof. intros K. one OValue. auto. Qed.
Lemma p_hist_count : cls v = CHist -> performs (hist_count v) st T. Proof. intros K. one OCount. auto. Qed.
Lemma p_sample_count : cls v = CSample -> performs (sample_count v) st T. Proof. intros K. one OCount. auto. Qed.
Lemma p_meter_count : cls v = CMeter -> performs (meter_count v) st T. Proof. intros K. one OCount. auto. Qed.
Lemma p_timer_count : cls v = CTimer -> performs (timer_count v) st T. Proof. intros K. one OCount. auto. Qed.
Lemma p_health_check : runs = true -> cls v = CHealth -> performs (health_check v) st T.
Proof. intros R K. destruct (has_at v st H) as (x & Ex). eapply (p_call _ _ (OCheck x)); [cbn [World.call obind]; rewrite Ex; cbn [obind]; unfold only; rewrite K; reflexivity|exact R|auto]. Qed.
Lemma p_health_error : cls v = CHealth -> performs (health_error v) st T. Proof. intros K. one OError. auto. Qed.
Lemma p_meter_rate k : cls v = CMeter -> performs (meter_rate k v) st T.
Proof. intros K. one (fun x => OMRate x k). auto. Qed.
Lemma p_timer_rate k : cls v = CTimer -> performs (timer_rate k v) st T.
Proof. intros K. one (fun x => OMRate x k). auto. Qed.
Ltac stat c := destruct (has_at v st H) as (x & Ex); apply (p_call_rv _ (c x)); [cbn [World.call obind]; rewrite Ex; cbn [obind]; unfold m_stat; match goal with K : cls v = _ |- _ => rewrite K end; reflexivity|reflexivity|auto].
Lemma p_hist_stat s : cls v = CHist -> performs (hist_stat s v) st T. Proof. intros K. stat (fun x => OStat x s). Qed.
Lemma p_sample_stat s : cls v = CSample -> performs (sample_stat s v) st T. Proof. intros K. stat (fun x => OStat x s). Qed.
Lemma p_timer_stat s : cls v = CTimer -> performs (timer_stat s v) st T. Proof. intros K. stat (fun x => OStat x s). Qed.
Ltac pcs ps := destruct (has_at v st H) as (x & Ex); eapply (p_call _ RFs (OPercentiles x ps)); [cbn [World.call obind]; rewrite Ex; cbn [obind]; unfold m_percentiles; match goal with K : cls v = _ |- _ => rewrite K end; reflexivity|reflexivity|auto].
Lemma p_hist_percentiles ps : cls v = CHist -> performs (hist_percentiles ps v) st T. Proof. intros K. pcs ps. Qed.
Lemma p_sample_percentiles ps : cls v = CSample -> performs (sample_percentiles ps v) st T. Proof. intros K. pcs ps. Qed.
Lemma p_timer_percentiles ps : cls v = CTimer -> performs (timer_percentiles ps v) st T. Proof. intros K. pcs ps. Qed.
Lemma new_has (h : val) w (K : Prop) : K -> has h (w, snd st ++ yields (RVal h))%list /\ K.
Proof. intros X. split; [|exact X]. unfold has. cbn [snd yields]. apply in_or_app. right. now left. Qed.
Lemma p_hist_snapshot : cls v = CHist -> performs (hist_snapshot v) st (fun h st' => has h st' /\ cls h = CHist).
Proof.
  intros K. one OSnapshot. intros h w' E. apply new_has. destruct v; try discriminate K; cbn [hist_snapshot] in E; [|now injection E as _ <-|now injection E as _ <-].
  unfold bind in E. destruct (hist_sample _ o (fst st)) as [w1 [s|]]; [|discriminate]. destruct (sample_snapshot s o w1) as [w2 [c|]]; [|discriminate]. destruct c; try discriminate. destruct (alloc _ o w2) as [w3 [k|]]; [|discriminate]. now injection E as _ <-.
Qed.
Lemma p_meter_snapshot : cls v = CMeter -> performs (meter_snapshot v) st (fun h st' => has h st' /\ cls h = CMeter).
Proof.
  intros K. one OSnapshot. intros h w' E. apply new_has. destruct v; try discriminate K; cbn [meter_snapshot] in E; [|now injection E as _ <-|now injection E as _ <-].
  unfold bind in E. destruct (meter_view _ o (fst st)) as [w1 [s|]]; [|discriminate]. destruct (alloc _ o w1) as [w3 [k|]]; [|discriminate]. now injection E as _ <-.
Qed.
Lemma p_timer_snapshot : cls v = CTimer -> performs (timer_snapshot v) st (fun h st' => has h st' /\ cls h = CTimer).
Proof.
  intros K. one OSnapshot. intros h w' E. apply new_has. destruct v; try discriminate K; cbn [timer_snapshot] in E; [|now injection E as _ <-|now injection E as _ <-].
  unfold bind in E. destruct (timer_get _ o (fst st)) as [w1 [[hh mm]|]]; [|discriminate]. destruct (hist_snapshot hh o w1) as [w2 [c|]]; [|discriminate]. destruct c; try discriminate. destruct (meter_snapshot mm o w2) as [w3 [c|]]; [|discriminate]. destruct c; try discriminate. destruct (alloc _ o w3) as [w4 [k|]]; [|discriminate]. now injection E as _ <-.
Qed.
Lemma p_hist_sample : inv st -> cls v = CHist -> performs (hist_sample v) st (fun h st' => has h st' /\ cls h = CSample).
Proof.
  intros Iv K. one OSample. intros h w' E. apply new_has. destruct v; try discriminate K; cbn [hist_sample] in E; [| |now injection E as _ <-]; unfold bind, load in E; destruct (nth_error (heap (fst st)) l) as [b|] eqn:El; try discriminate; destruct b; try discriminate; injection E as _ <-; [|reflexivity].
  destruct Iv as (W & _). exact (proj1 (wf_obj _ W _ _ El)).
Qed.
End Acc.

Ltac keep := match goal with G : grows ?st ?st', H : has ?v ?st |- _ => apply (has_grows v st st' G) in H end.
Ltac acc := first [apply p_counter_count | apply p_gauge_value | apply p_gaugef_value | apply p_hist_count | apply p_sample_count | apply p_meter_count | apply p_timer_count | apply p_health_error | apply p_meter_rate | apply p_timer_rate | apply p_hist_stat | apply p_sample_stat | apply p_timer_stat
  | apply p_hist_percentiles | apply p_sample_percentiles | apply p_timer_percentiles]; solve [auto].
Ltac seq := eapply p_bind; [assumption|acc|]; let a := fresh "a" in let st' := fresh "st" in let I' := fresh "Iv" in let G := fresh "G" in intros a st' I' G _; repeat keep.
Ltac fin := apply p_ret; exact Logic.I.
Lemma p_read_metric ps v st : inv st -> has v st -> performs (read_metric runs ps v) st T.
Proof.
  intros Iv H. unfold read_metric. destruct (cls v) eqn:K; try fin.
  - seq. fin.
  - seq. fin.
  - seq. fin.
  - destruct runs eqn:R; [|fin]. eapply p_bind; [assumption|apply p_health_check; auto|]. intros a st' I' G _. repeat keep. seq. fin.
  - eapply p_bind; [assumption|apply p_hist_snapshot; auto|]. intros h st' I' G (Hh & Kh). repeat keep. do 6 seq. fin.
  - eapply p_bind; [assumption|apply p_meter_snapshot; auto|]. intros h st' I' G (Hh & Kh). repeat keep. do 5 seq. fin.
  - eapply p_bind; [assumption|apply p_timer_snapshot; auto|]. intros h st' I' G (Hh & Kh). repeat keep. do 10 seq. fin.
Qed.
Definition have (es : list (string * val)) (st : state) : Prop := Forall (fun kv => has (snd kv) st) es.
Lemma have_grows es st st' : grows st st' -> have es st -> have es st'.
Proof. intros G. apply Forall_impl. intros kv. now apply has_grows. Qed.
Lemma p_report_each {A} ps (render : string -> reading -> res (list A)) es : forall st, inv st -> have es st -> performs (report_each runs ps render es) st T.
Proof.
  induction es as [|[nm v] es IH]; intros st Iv H; cbn [report_each]; [fin|]. inversion H as [|? ? Hv He]; subst. cbn [snd] in Hv. eapply p_bind; [assumption|now apply p_read_metric|]. intros d st1 I1 G1 _.
  apply (p_bind _ _ _ T T I1); [destruct d; [apply p_lift; auto|fin]|]. intros a st2 I2 G2 _. eapply p_bind; [assumption|apply IH; [assumption|]|].
  - eapply have_grows; [exact G2|]. eapply have_grows; [exact G1|exact He].
  - intros r st3 I3 G3 _. fin.
Qed.
Lemma base_reg v b : base v = Some b -> cls v = CReg.
Proof. destruct v; try discriminate; reflexivity. Qed.
Lemma p_reg_each v b st : base v = Some b -> has v st -> performs (reg_each v) st have.
Proof.
  intros B H. pose proof (base_reg v b B) as K. one OEach. intros es w' E. unfold have. apply Forall_forall. intros kv Hk. unfold has. cbn [snd yields]. apply in_or_app. right. now apply in_map.
Qed.
Lemma p_report {A} ps (render : string -> reading -> res (list A)) v b st : inv st -> base v = Some b -> has v st -> performs (Report.report runs ps render v) st T.
Proof. intros Iv B H. unfold Report.report. eapply p_bind; [assumption|eapply p_reg_each; eauto|]. intros es st1 I1 G1 He. now apply p_report_each. Qed.
Lemma p_get_all v b st : runs = true -> base v = Some b -> has v st -> performs (reg_get_all v) st T.
Proof.
  intros R B H. destruct (has_at v st H) as (x & Ex). eapply (p_call _ _ (OGetAll x)); [cbn [World.call obind]; rewrite Ex; cbn [obind]; unfold only; rewrite (base_reg v b B); reflexivity|exact R|auto].
Qed.
Lemma p_hist_gauges self name v ps : cls v = CSample -> forall st, inv st -> has v st -> performs (hist_gauges self name v ps) st T.
Proof.
  intros K. induction ps as [|p ps IH]; intros st Iv H; cbn [hist_gauges]; [fin|]. apply (p_bind _ _ _ T T Iv).
  - seq. unfold first_score. apply p_lift. auto.
  - intros q st1 I1 G1 _. repeat keep. eapply p_bind; [assumption|now apply IH|]. intros r st2 I2 G2 _. fin.
Qed.
Lemma p_timer_gauges self name v ps : cls v = CTimer -> forall st, inv st -> has v st -> performs (timer_gauges self name v ps) st T.
Proof.
  intros K. induction ps as [|p ps IH]; intros st Iv H; cbn [timer_gauges]; [fin|]. apply (p_bind _ _ _ T T Iv).
  - seq. unfold first_score. apply p_lift. auto.
  - intros q st1 I1 G1 _. repeat keep. eapply p_bind; [assumption|now apply IH|]. intros r st2 I2 G2 _. fin.
Qed.
Lemma p_measure sq self nm v st : inv st -> has v st -> performs (measure sq self nm v) st T.
Proof.
  intros Iv H. unfold measure. destruct (cls v) eqn:K; try fin.
  - seq. destruct (0 <? a)%Z; [seq|]; fin.
  - seq. fin.
  - seq. fin.
  - seq. destruct (0 <? a)%Z; [|fin]. eapply p_bind; [assumption|apply p_hist_sample; auto|]. intros s st1 I1 G1 (Hs & Ks). repeat keep. do 7 seq. eapply p_bind; [assumption|now apply p_hist_gauges|]. intros gs st' I' G' _. fin.
  - do 4 seq. fin.
  - do 2 seq. destruct (0 <? a0)%Z; [|fin]. do 8 seq. eapply p_bind; [assumption|now apply p_timer_gauges|]. intros gs st' I' G' _. repeat keep. do 3 seq. fin.
Qed.
Lemma p_measure_each sq self es : forall st, inv st -> have es st -> performs (measure_each sq self es) st T.
Proof.
  induction es as [|[nm v] es IH]; intros st Iv H; cbn [measure_each]; [fin|]. inversion H as [|? ? Hv He]; subst. cbn [snd] in Hv. eapply p_bind; [assumption|now apply p_measure|]. intros [g c] st1 I1 G1 _.
  eapply p_bind; [assumption|apply IH; [assumption|eapply have_grows; eauto]|]. intros [gs cs] st2 I2 G2 _. fin.
Qed.
(** the part of a report that reads, when there is no result *)
Definition moves (st : state) (w' : world) : Prop := exists q, calls q /\ fst (run st q) = w' /\ grows st (run st q).
Lemma performs_moves {A} (m : M A) st Q : performs m st Q -> moves st (fst (m o (fst st))).
Proof. intros (q & C & E & G & _). exists q. auto. Qed.
Lemma moves_sync es : runs = false -> forall st e, inv st -> have es st -> moves st (fst (sync_each es o (fst st) e)).
Proof.
  intros R. induction es as [|[nm v] es IH]; intros st e Iv H; cbn [sync_each]; [exists []; split; [constructor|split; [reflexivity|exists []; now rewrite app_nil_r]]|].
  inversion H as [|? ? Hv He]; subst. cbn [snd] in Hv. pose proof (p_read_metric ps5 v st Iv Hv) as P. rewrite R in P. destruct P as (q & Cq & Eq & Gq & _). destruct (read_metric false ps5 v o (fst st)) as [w1 [[d|]|msg]]; cbn [fst] in *; try (exists q; now auto).
  destruct (publish (exp_vars nm d) e) as [e1 []]; cbn [fst]; try (exists q; now auto). destruct (IH (run st q) e1) as (q2 & C2 & E2 & G2); [now apply inv_run|eapply have_grows; [exact Gq|exact He]|]. rewrite Eq in E2. exists (q ++ q2)%list. rewrite run_app. split; [apply Forall_app; auto|]. split; [exact E2|].
  destruct Gq as (e2 & Gq), G2 as (e3 & G2). exists (e2 ++ e3)%list. rewrite G2, Gq. now rewrite app_assoc.
Qed.
Lemma p_true {A} (a : A) st : performs (ret a) st T. Proof. fin. Qed.
End Prog.

Lemma reported_moves mexp runs v b o (st : state) w' : inv st -> In v (snd st) -> base v = Some b -> reported runs v o (fst st) w' -> moves mexp runs o st w'.
Proof.
  intros Iv H B R. remember (fst st) as w eqn:Ew. destruct R; subst w; match goal with |- moves _ _ _ _ (fst (exp_sync _ _ _ _)) => idtac | _ => eapply performs_moves end.
  - unfold graphite. eapply p_bind; [exact Iv|apply p_ask with (Q := fun _ s => s = st); reflexivity|]. intros n s Is Gs ->. eapply p_bind; [exact Iv|eapply p_report; eauto|]. intros. apply p_true.
  - unfold opentsdb. eapply p_bind; [exact Iv|apply p_ask with (Q := fun _ s => s = st); reflexivity|]. intros n s Is Gs ->. eapply p_bind; [exact Iv|eapply p_report; eauto|]. intros. apply p_true.
  - eapply p_report; eauto.
  - unfold build_request. eapply p_bind; [exact Iv|apply p_lift with (Q := fun _ s => s = st); reflexivity|]. intros n s _ _ ->. eapply p_bind; [exact Iv|eapply p_reg_each; eauto|]. intros es s Is Gs He. eapply p_bind; [exact Is|now apply p_measure_each|]. intros [gs cs] s2 I2 G2 _. apply p_true.
  - unfold exp_sync. destruct (p_reg_each mexp false o v b st B H) as (q & Cq & Eq & Gq & Hq). destruct (reg_each v o (fst st)) as [w1 [es|msg]]; cbn [fst snd] in *; [|exists q; auto].
    destruct (moves_sync mexp false o es eq_refl (run mexp st q) e) as (q2 & C2 & E2 & G2); [now apply inv_run|exact Hq|]. rewrite Eq in E2. exists (q ++ q2)%list. rewrite run_app. split; [apply Forall_app; auto|]. split; [exact E2|].
    destruct Gq as (e2 & Gq), G2 as (e3 & G2). exists (e2 ++ e3)%list. rewrite G2, Gq. now rewrite app_assoc.
  - unfold write_once. eapply p_bind; [exact Iv|eapply p_reg_each; eauto|]. intros es s Is Gs He. eapply p_bind; [exact Is|apply p_report_each; [exact Is|]|intros; apply p_true]. match goal with S0 : sorts _ |- _ => destruct (S0 es) as (P & _) end. unfold have in *. now rewrite P.
  - eapply p_report; eauto.
  - eapply p_report; eauto.
  - unfold write_json_once, marshal_json. eapply p_bind; [exact Iv|eapply p_bind; [exact Iv|eapply p_get_all; eauto|intros; apply p_true]|intros; apply p_true].
  - eapply p_get_all; eauto.
Qed.
