(** Reports change nothing but the order of samples and, if they run them, health checks. *)
From Coq Require Import ZArith List String Bool Lia Permutation Arith.
From Verif.Model Require Import GoInt GoFloat GoBase Stats World Report Json Expvar Librato.
From Verif.Spec Require Import ApiSpec RegistrySpec HealthSpec GetAllSpec ReadOnlySpec.
From Verif.Proofs Require Import ListFacts WorldBase WorldOps WorldCalls WorldStep WorldFrame WorldReads HealthProofs GetAllProofs ReportProofs.
Import ListNotations.
Local Open Scope nat_scope.
Local Open Scope list_scope.

Definition may (runs : bool) (t : tag) : bool := if runs then true else not_health t.
(** gentle, no meter started or stopped, and without [runs] no health check written *)
Definition cm (runs : bool) {A} (m : M A) : Prop := gm m /\ pres (may runs) false m.
Section Runs.
Variable runs : bool.
Lemma cm_bind {A B} (m : M A) (f : A -> M B) : cm runs m -> (forall a, cm runs (f a)) -> cm runs (bind m f).
Proof. intros [G P] H. split; [apply gm_bind|apply pres_bind]; auto; intros a; apply H. Qed.
Lemma cm_ret {A} (a : A) : cm runs (ret a). Proof. split; [apply gm_ret|apply pres_ret]. Qed.
Lemma cm_throw {A} s : cm runs (@throw A s). Proof. split; [apply gm_throw|apply pres_throw]. Qed.
Lemma cm_lift {A} (r : res A) : cm runs (lift r). Proof. split; [apply gm_lift|apply pres_lift]. Qed.
Lemma cm_ask {A} (f : orc -> A) : cm runs (ask f). Proof. split; [apply gm_ask|apply pres_ask]. Qed.
Ltac both L P := split; [apply L|apply P; destruct runs; reflexivity].
Lemma cm_counter_count v : cm runs (counter_count v). Proof. both gm_counter_count pres_counter_count. Qed.
Lemma cm_gauge_value v : cm runs (gauge_value v). Proof. both gm_gauge_value pres_gauge_value. Qed.
Lemma cm_gaugef_value v : cm runs (gaugef_value v). Proof. both gm_gaugef_value pres_gaugef_value. Qed.
Lemma cm_hist_sample v : cm runs (hist_sample v). Proof. split; [apply gm_hist_sample|apply pres_hist_sample]. Qed.
Lemma cm_hist_snapshot v : cm runs (hist_snapshot v). Proof. split; [apply gm_hist_snapshot|apply pres_hist_snapshot]. Qed.
Lemma cm_hist_count v : cm runs (hist_count v). Proof. split; [apply gm_hist_count|apply pres_hist_count]. Qed.
Lemma cm_hist_stat s v : cm runs (hist_stat s v). Proof. split; [apply gm_hist_stat|apply pres_hist_stat]. Qed.
Lemma cm_hist_percentiles ps v : cm runs (hist_percentiles ps v). Proof. both gm_hist_percentiles pres_hist_percentiles. Qed.
Lemma cm_sample_count v : cm runs (sample_count v). Proof. split; [apply gm_count|apply pres_sample_count]. Qed.
Lemma cm_sample_stat s v : cm runs (sample_stat s v). Proof. split; [apply gm_stat|apply pres_sample_stat]. Qed.
Lemma cm_sample_percentiles ps v : cm runs (sample_percentiles ps v). Proof. both gm_percentiles pres_sample_percentiles. Qed.
Lemma cm_meter_snapshot v : cm runs (meter_snapshot v). Proof. split; [apply gm_meter_snapshot|apply pres_meter_snapshot]. Qed.
Lemma cm_meter_count v : cm runs (meter_count v). Proof. split; [apply gm_meter_count|apply pres_meter_count]. Qed.
Lemma cm_meter_rate k v : cm runs (meter_rate k v). Proof. split; [apply gm_meter_rate|apply pres_meter_rate]. Qed.
Lemma cm_timer_snapshot v : cm runs (timer_snapshot v). Proof. split; [apply gm_timer_snapshot|apply pres_timer_snapshot]. Qed.
Lemma cm_timer_count v : cm runs (timer_count v). Proof. split; [apply gm_timer_count|apply pres_timer_count]. Qed.
Lemma cm_timer_stat s v : cm runs (timer_stat s v). Proof. split; [apply gm_timer_stat|apply pres_timer_stat]. Qed.
Lemma cm_timer_percentiles ps v : cm runs (timer_percentiles ps v). Proof. both gm_timer_percentiles pres_timer_percentiles. Qed.
Lemma cm_timer_rate k v : cm runs (timer_rate k v). Proof. split; [apply gm_timer_rate|apply pres_timer_rate]. Qed.
Lemma cm_health_error v : cm runs (health_error v). Proof. split; [apply gm_health_error|apply pres_health_error]. Qed.
Lemma gm_entries l : gm (entries_get l). Proof. unfold entries_get. gms. Qed.
Lemma cm_registered l : cm runs (std_registered l).
Proof. split; [|apply pres_std_registered]. unfold std_registered. apply gm_bind; [apply gm_entries|intros; gms]. Qed.
End Runs.
Create HintDb cm.
#[export] Hint Resolve cm_ret cm_throw cm_lift cm_ask cm_counter_count cm_gauge_value cm_gaugef_value cm_hist_sample cm_hist_snapshot cm_hist_count cm_hist_stat cm_hist_percentiles
  cm_sample_count cm_sample_stat cm_sample_percentiles cm_meter_snapshot cm_meter_count cm_meter_rate cm_timer_snapshot cm_timer_count cm_timer_stat cm_timer_percentiles cm_timer_rate cm_health_error cm_registered : cm.
Ltac cms := repeat first [solve [auto with cm] | apply cm_bind; [|intros ?] | match goal with |- cm _ (match ?x with _ => _ end) => destruct x end].
Lemma cm_health_check v : cm true (health_check v).
Proof. split; [apply gm_health_check|apply pres_health_check; reflexivity]. Qed.
#[export] Hint Resolve cm_health_check : cm.
Lemma cm_read_metric runs ps v : cm runs (read_metric runs ps v).
Proof. unfold read_metric. destruct (cls v); try destruct runs; cms. Qed.
Lemma cm_report_each {A} runs ps (render : string -> reading -> res (list A)) es : cm runs (report_each runs ps render es).
Proof. induction es as [|[nm v] es IH]; cbn [report_each]; [apply cm_ret|]. apply cm_bind; [apply cm_read_metric|intros d]. cms. Qed.
Lemma cm_reg_each runs v : cm runs (reg_each v).
Proof. unfold reg_each. cms. Qed.
#[export] Hint Resolve cm_report_each cm_reg_each : cm.
Lemma cm_report {A} runs ps (render : string -> reading -> res (list A)) v : cm runs (Report.report runs ps render v).
Proof. unfold Report.report. cms. Qed.
#[export] Hint Resolve cm_report : cm.
Lemma cm_get_all_one v : cm true (get_all_one v).
Proof. split; [apply gm_get_all_one|apply pres_get_all_one; reflexivity]. Qed.
#[export] Hint Resolve cm_get_all_one : cm.
Lemma cm_get_all_each es : cm true (get_all_each es).
Proof. induction es as [|[nm v] es IH]; cbn [get_all_each]; cms. Qed.
#[export] Hint Resolve cm_get_all_each : cm.
Lemma cm_reg_get_all v : cm true (reg_get_all v).
Proof. induction v; cbn [reg_get_all]; auto with cm. unfold std_get_all. cms. Qed.
#[export] Hint Resolve cm_reg_get_all : cm.
Lemma cm_hist_gauges runs self name s ps : cm runs (hist_gauges self name s ps).
Proof. induction ps as [|p ps IH]; cbn [hist_gauges]; unfold first_score; cms. Qed.
Lemma cm_timer_gauges runs self name s ps : cm runs (timer_gauges self name s ps).
Proof. induction ps as [|p ps IH]; cbn [timer_gauges]; unfold first_score; cms. Qed.
#[export] Hint Resolve cm_hist_gauges cm_timer_gauges : cm.
Lemma cm_measure runs sq self nm v : cm runs (measure sq self nm v).
Proof. unfold measure. cms. Qed.
#[export] Hint Resolve cm_measure : cm.
Lemma cm_measure_each runs sq self es : cm runs (measure_each sq self es).
Proof. induction es as [|[nm v] es IH]; cbn [measure_each]; cms. Qed.
#[export] Hint Resolve cm_measure_each : cm.

(** what a change by [m] preserves *)
Definition kept (runs : bool) (w w' : world) : Prop := gentle (heap w) (heap w') /\ fr (may runs) false w w'.
Lemma kept_trans runs a b c : kept runs a b -> kept runs b c -> kept runs a c.
Proof. intros [G F] [G' F']. split; [eapply gentle_trans|eapply fr_trans]; eauto. Qed.
Lemma kept_refl runs w : kept runs w w. Proof. split; [apply gentle_refl|apply fr_refl]. Qed.
Lemma cm_kept {A} runs (m : M A) o w : cm runs m -> kept runs w (fst (m o w)).
Proof. intros [G P]. split; [apply G|apply P]. Qed.
Lemma kept_sync runs es o : runs = false -> forall w e, kept runs w (fst (sync_each es o w e)).
Proof.
  intros ->. induction es as [|[nm v] es IH]; intros w e; cbn [sync_each]; [apply kept_refl|].
  pose proof (cm_kept false (read_metric false ps5 v) o w (cm_read_metric false ps5 v)) as K. destruct (read_metric false ps5 v o w) as [w1 [[d|]|msg]]; cbn [fst] in *; auto.
  destruct (publish (exp_vars nm d) e) as [e1 []]; cbn [fst]; auto. eapply kept_trans; [exact K|apply IH].
Qed.
Lemma reported_kept runs v o w w' : reported runs v o w w' -> kept runs w w'.
Proof.
  intros H. destruct H; try apply cm_kept.
  - unfold graphite. cms.
  - unfold opentsdb. cms.
  - apply cm_report.
  - unfold build_request. cms.
  - unfold exp_sync. pose proof (cm_kept false (reg_each v) o w (cm_reg_each false v)) as K. destruct (reg_each v o w) as [w1 [es|msg]]; cbn [fst] in *; auto. eapply kept_trans; [exact K|now apply kept_sync].
  - unfold write_once. cms.
  - apply cm_report.
  - apply cm_report.
  - unfold write_json_once, marshal_json. cms.
  - apply cm_reg_get_all.
Qed.
