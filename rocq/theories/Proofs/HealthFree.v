(** Reports that do not run health checks do not depend on what they would do. *)
From Coq Require Import ZArith List String Bool.
From Verif.Model Require Import GoInt GoFloat GoBase Stats World Fmt Report.
From Verif.Spec Require Import ApiSpec RegistrySpec GetAllSpec LogSpec.
Import ListNotations.
Local Open Scope string_scope.

Definition hi {A} (m : M A) : Prop := forall o h w, m (with_health h o) w = m o w.
Lemma hi_bind {A B} (m : M A) (f : A -> M B) : hi m -> (forall a, hi (f a)) -> hi (bind m f).
Proof. intros H K o h w. unfold bind. rewrite H. destruct (m o w) as [w1 [a|msg]]; auto. apply K. Qed.
Lemma hi_ret {A} (a : A) : hi (ret a). Proof. intros o h w. reflexivity. Qed.
Lemma hi_throw {A} s : hi (@throw A s). Proof. intros o h w. reflexivity. Qed.
Lemma hi_lift {A} (r : res A) : hi (lift r). Proof. intros o h w. reflexivity. Qed.
Lemma hi_load l : hi (load l). Proof. intros o h w. reflexivity. Qed.
Lemma hi_store l x : hi (store l x). Proof. intros o h w. reflexivity. Qed.
Lemma hi_alloc x : hi (alloc x). Proof. intros o h w. reflexivity. Qed.
#[export] Hint Resolve hi_ret hi_throw hi_lift hi_load hi_store hi_alloc : hi.
Ltac his := repeat first [solve [auto with hi] | apply hi_bind; [|intros ?] | match goal with |- hi (match ?x with _ => _ end) => destruct x end | match goal with |- hi (let '_ := ?x in _) => destruct x end | (intros ? ? ?; reflexivity)].
Lemma hi_health_acts v l : hi (health_acts v l).
Proof. induction l as [|[| |] l IH]; cbn; unfold health_set; his. Qed.
#[export] Hint Resolve hi_health_acts : hi.
Lemma hi_sample_count v : hi (sample_count v).
Proof. destruct v; try (intros o h w; reflexivity); unfold sample_count; his. Qed.
Lemma hi_sample_contents v : hi (sample_contents v).
Proof. destruct v; try (intros o h w; reflexivity); unfold sample_contents; his. Qed.
Lemma hi_sample_stat k v : hi (sample_stat k v).
Proof. destruct v; try (intros o h w; reflexivity); unfold sample_stat; his. Qed.
Lemma hi_sample_percentiles ps v : hi (sample_percentiles ps v).
Proof. destruct v; try (intros o h w; reflexivity); unfold sample_percentiles; his. Qed.
Lemma hi_sample_snapshot v : hi (sample_snapshot v).
Proof. destruct v; try (intros o h w; reflexivity); unfold sample_snapshot; his. Qed.
Lemma hi_hist_sample v : hi (hist_sample v).
Proof. destruct v; try (intros o h w; reflexivity); unfold hist_sample; his. Qed.
Lemma hi_timer_get v : hi (timer_get v).
Proof. destruct v; try (intros o h w; reflexivity); unfold timer_get; his. Qed.
Lemma hi_meter_view v : hi (meter_view v).
Proof. destruct v; try (intros o h w; reflexivity); unfold meter_view; his. Qed.
#[export] Hint Resolve hi_sample_count hi_sample_contents hi_sample_stat hi_sample_percentiles hi_sample_snapshot hi_hist_sample hi_timer_get hi_meter_view : hi.
Lemma hi_counter_count v : hi (counter_count v).
Proof. destruct v; try (intros o h w; reflexivity); unfold counter_count; his. Qed.
Lemma hi_gauge_value v : hi (gauge_value v).
Proof. destruct v; try (intros o h w; reflexivity); unfold gauge_value; his. Qed.
Lemma hi_gaugef_value v : hi (gaugef_value v).
Proof. destruct v; try (intros o h w; reflexivity); unfold gaugef_value; his. Qed.
Lemma hi_health_error v : hi (health_error v).
Proof. destruct v; try (intros o h w; reflexivity); unfold health_error; his. Qed.
Lemma hi_hist_snapshot v : hi (hist_snapshot v).
Proof. destruct v; try (intros o h w; reflexivity); unfold hist_snapshot; his. Qed.
Lemma hi_hist_percentiles ps v : hi (hist_percentiles ps v).
Proof. destruct v; try (intros o h w; reflexivity); unfold hist_percentiles; his. Qed.
Lemma hi_hist_count v : hi (hist_count v).
Proof. destruct v; try (intros o h w; reflexivity); unfold hist_count; his. Qed.
Lemma hi_hist_stat k v : hi (hist_stat k v).
Proof. destruct v; try (intros o h w; reflexivity); unfold hist_stat; his. Qed.
#[export] Hint Resolve hi_hist_snapshot hi_hist_count hi_hist_percentiles hi_hist_stat : hi.
Lemma hi_meter_snapshot v : hi (meter_snapshot v).
Proof. destruct v; try (intros o h w; reflexivity); unfold meter_snapshot; his. Qed.
Lemma hi_meter_count v : hi (meter_count v).
Proof. destruct v; try (intros o h w; reflexivity); unfold meter_count; his. Qed.
Lemma hi_meter_rate q v : hi (meter_rate q v).
Proof. destruct v; try (intros o h w; reflexivity); unfold meter_rate; his. Qed.
#[export] Hint Resolve hi_meter_snapshot hi_meter_count hi_meter_rate : hi.
Lemma hi_timer_snapshot v : hi (timer_snapshot v).
Proof. destruct v; try (intros o h w; reflexivity); unfold timer_snapshot; his. Qed.
Lemma hi_timer_percentiles ps v : hi (timer_percentiles ps v).
Proof. destruct v; try (intros o h w; reflexivity); unfold timer_percentiles; his. Qed.
Lemma hi_timer_count v : hi (timer_count v).
Proof. destruct v; try (intros o h w; reflexivity); unfold timer_count; his. Qed.
Lemma hi_timer_stat k v : hi (timer_stat k v).
Proof. destruct v; try (intros o h w; reflexivity); unfold timer_stat; his. Qed.
Lemma hi_timer_rate q v : hi (timer_rate q v).
Proof. destruct v; try (intros o h w; reflexivity); unfold timer_rate; his. Qed.
#[export] Hint Resolve hi_counter_count hi_gauge_value hi_gaugef_value hi_health_error hi_hist_snapshot hi_hist_percentiles hi_hist_count hi_hist_stat hi_meter_snapshot hi_meter_count hi_meter_rate hi_timer_snapshot hi_timer_percentiles hi_timer_count hi_timer_stat hi_timer_rate : hi.
Lemma hi_read_metric ps v : hi (read_metric false ps v).
Proof. unfold read_metric. destruct (cls v); his. Qed.
Lemma hi_report_each {A} ps (render : string -> reading -> res (list A)) es : hi (report_each false ps render es).
Proof. induction es as [|[nm v] es IH]; cbn [report_each]; [apply hi_ret|]. apply hi_bind; [apply hi_read_metric|]. intros d. apply hi_bind; [destruct d; his|]. intros a. apply hi_bind; [exact IH|]. intros r. apply hi_ret. Qed.
Lemma hi_std_registered l : hi (std_registered l).
Proof. unfold std_registered, entries_get. his. Qed.
#[export] Hint Resolve hi_std_registered : hi.
Lemma hi_reg_each v : hi (reg_each v).
Proof. unfold reg_each. destruct v; his. Qed.
Lemma hi_report {A} ps (render : string -> reading -> res (list A)) v : hi (Report.report false ps render v).
Proof. unfold Report.report. apply hi_bind; [apply hi_reg_each|]. intros es. apply hi_report_each. Qed.
