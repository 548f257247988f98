(** The textual reports. *)
From Coq Require Import ZArith List String Ascii Bool Lia Permutation Sorted Structures.OrdersEx Arith.
From Verif.Model Require Import GoInt GoFloat GoBase Stats World Fmt Report.
From Verif.Spec Require Import ApiSpec RegistrySpec HealthSpec GetAllSpec TextSpec ReportSpec WriteSpec.
From Verif.Proofs Require Import WorldBase WorldCalls WorldStep WorldReads GetAllProofs HealthProofs RegistryProofs TextProofs ReportProofs LineProofs.
From Verif.Props Require Import SnapshotProps HealthProps GetAllProps.
Import ListNotations.
Local Open Scope nat_scope.
Local Open Scope string_scope.

(** ** order of strings *)
Lemma ltb_lt a b : String.ltb a b = true <-> String_as_OT.lt a b.
Proof. unfold String_as_OT.lt, String.ltb. change (String_as_OT.compare a b) with (String.compare a b). destruct (String.compare a b); split; congruence. Qed.
Lemma ltb_trans a b c : String.ltb a b = true -> String.ltb b c = true -> String.ltb a c = true.
Proof. rewrite !ltb_lt. apply String_as_OT.lt_strorder. Qed.
Lemma ltb_irrefl a : String.ltb a a = false.
Proof. destruct (String.ltb a a) eqn:E; auto. apply ltb_lt in E. exfalso. now apply String_as_OT.lt_strorder in E. Qed.
Lemma ltb_total a b : a <> b -> String.ltb b a = false -> String.ltb a b = true.
Proof.
  intros N H. unfold String.ltb in *. rewrite String.compare_antisym in H. destruct (String.compare a b) eqn:E; cbn in H; auto; try discriminate. apply String.compare_eq_iff in E. congruence.
Qed.
(** sorting names that differ *)
Lemma sorted_names (l : list (string * val)) : NoDup (map fst l) -> Sorted (fun a b => String.ltb (fst b) (fst a) = false) l -> StronglySorted (fun a b => String.ltb a b = true) (map fst l).
Proof.
  intros ND S. apply Sorted_StronglySorted; [intros a b c; apply ltb_trans|]. induction S as [|a l S IH H]; cbn [map]; constructor.
  - apply IH. now inversion ND.
  - destruct H as [|b l H]; cbn [map]; constructor. apply ltb_total; auto. inversion ND as [|? ? N _]; subst. intros E. apply N. rewrite E. now left.
Qed.
Lemma strongly_unique (l m : list (string * val)) : Permutation l m -> StronglySorted (fun a b => String.ltb a b = true) (map fst l) -> StronglySorted (fun a b => String.ltb a b = true) (map fst m) -> l = m.
Proof.
  revert m. induction l as [|a l IH]; intros [|b m] P S T.
  - reflexivity.
  - apply Permutation_nil in P. discriminate.
  - symmetry in P. apply Permutation_nil in P. discriminate.
  - cbn [map] in *. inversion S as [|? ? S1 S2]; inversion T as [|? ? T1 T2]; subst. rewrite Forall_forall in S2, T2.
    assert (E : a = b).
    { assert (A : In a (b :: m)) by (eapply Permutation_in; [exact P|now left]). assert (B : In b (a :: l)) by (eapply Permutation_in; [symmetry; exact P|now left]).
      destruct A as [A|A]; [congruence|]. destruct B as [B|B]; [congruence|]. apply (in_map fst) in A, B. specialize (S2 _ B). specialize (T2 _ A).
      pose proof (ltb_trans _ _ _ S2 T2) as C. now rewrite ltb_irrefl in C. }
    subst b. f_equal. apply IH; auto. eapply Permutation_cons_inv; eauto.
Qed.

(** ** the map iteration order only matters to Each *)
Definition oi {A} (m : M A) : Prop := forall o ord w, m (reorder ord o) w = m o w.
Lemma oi_bind {A B} (m : M A) (f : A -> M B) : oi m -> (forall a, oi (f a)) -> oi (bind m f).
Proof. intros H K o ord w. unfold bind. rewrite H. destruct (m o w) as [w1 [a|msg]]; auto. apply K. Qed.
Lemma oi_ret {A} (a : A) : oi (ret a). Proof. intros o ord w. reflexivity. Qed.
Lemma oi_throw {A} s : oi (@throw A s). Proof. intros o ord w. reflexivity. Qed.
Lemma oi_lift {A} (r : res A) : oi (lift r). Proof. intros o ord w. reflexivity. Qed.
Lemma oi_load l : oi (load l). Proof. intros o ord w. reflexivity. Qed.
Lemma oi_store l x : oi (store l x). Proof. intros o ord w. reflexivity. Qed.
Lemma oi_alloc x : oi (alloc x). Proof. intros o ord w. reflexivity. Qed.
#[export] Hint Resolve oi_ret oi_throw oi_lift oi_load oi_store oi_alloc : oi.
Ltac ois := repeat first [solve [auto with oi] | apply oi_bind; [|intros ?] | match goal with |- oi (match ?x with _ => _ end) => destruct x end | match goal with |- oi (let '_ := ?x in _) => destruct x end | (intros ? ? ?; reflexivity)].
Lemma oi_health_acts v l : oi (health_acts v l).
Proof. induction l as [|[| |] l IH]; cbn; unfold health_set; ois. Qed.
#[export] Hint Resolve oi_health_acts : oi.
Lemma oi_sample_count v : oi (sample_count v).
Proof. destruct v; try (intros o ord w; reflexivity); unfold sample_count; ois. Qed.
Lemma oi_sample_contents v : oi (sample_contents v).
Proof. destruct v; try (intros o ord w; reflexivity); unfold sample_contents; ois. Qed.
Lemma oi_sample_stat k v : oi (sample_stat k v).
Proof. destruct v; try (intros o ord w; reflexivity); unfold sample_stat; ois. Qed.
Lemma oi_sample_percentiles ps v : oi (sample_percentiles ps v).
Proof. destruct v; try (intros o ord w; reflexivity); unfold sample_percentiles; ois. Qed.
Lemma oi_sample_snapshot v : oi (sample_snapshot v).
Proof. destruct v; try (intros o ord w; reflexivity); unfold sample_snapshot; ois. Qed.
Lemma oi_hist_sample v : oi (hist_sample v).
Proof. destruct v; try (intros o ord w; reflexivity); unfold hist_sample; ois. Qed.
Lemma oi_timer_get v : oi (timer_get v).
Proof. destruct v; try (intros o ord w; reflexivity); unfold timer_get; ois. Qed.
Lemma oi_meter_view v : oi (meter_view v).
Proof. destruct v; try (intros o ord w; reflexivity); unfold meter_view; ois. Qed.
#[export] Hint Resolve oi_sample_count oi_sample_contents oi_sample_stat oi_sample_percentiles oi_sample_snapshot oi_hist_sample oi_timer_get oi_meter_view : oi.
Lemma oi_counter_count v : oi (counter_count v).
Proof. destruct v; try (intros o ord w; reflexivity); unfold counter_count; ois. Qed.
Lemma oi_gauge_value v : oi (gauge_value v).
Proof. destruct v; try (intros o ord w; reflexivity); unfold gauge_value; ois. Qed.
Lemma oi_gaugef_value v : oi (gaugef_value v).
Proof. destruct v; try (intros o ord w; reflexivity); unfold gaugef_value; ois. Qed.
Lemma oi_health_error v : oi (health_error v).
Proof. destruct v; try (intros o ord w; reflexivity); unfold health_error; ois. Qed.
Lemma oi_hist_snapshot v : oi (hist_snapshot v).
Proof. destruct v; try (intros o ord w; reflexivity); unfold hist_snapshot; ois. Qed.
Lemma oi_hist_percentiles ps v : oi (hist_percentiles ps v).
Proof. destruct v; try (intros o ord w; reflexivity); unfold hist_percentiles; ois. Qed.
Lemma oi_hist_count v : oi (hist_count v).
Proof. destruct v; try (intros o ord w; reflexivity); unfold hist_count; ois. Qed.
Lemma oi_hist_stat k v : oi (hist_stat k v).
Proof. destruct v; try (intros o ord w; reflexivity); unfold hist_stat; ois. Qed.
#[export] Hint Resolve oi_hist_snapshot oi_hist_count oi_hist_percentiles oi_hist_stat : oi.
Lemma oi_meter_snapshot v : oi (meter_snapshot v).
Proof. destruct v; try (intros o ord w; reflexivity); unfold meter_snapshot; ois. Qed.
Lemma oi_meter_count v : oi (meter_count v).
Proof. destruct v; try (intros o ord w; reflexivity); unfold meter_count; ois. Qed.
Lemma oi_meter_rate q v : oi (meter_rate q v).
Proof. destruct v; try (intros o ord w; reflexivity); unfold meter_rate; ois. Qed.
#[export] Hint Resolve oi_meter_snapshot oi_meter_count oi_meter_rate : oi.
Lemma oi_timer_snapshot v : oi (timer_snapshot v).
Proof. destruct v; try (intros o ord w; reflexivity); unfold timer_snapshot; ois. Qed.
Lemma oi_timer_percentiles ps v : oi (timer_percentiles ps v).
Proof. destruct v; try (intros o ord w; reflexivity); unfold timer_percentiles; ois. Qed.
Lemma oi_timer_count v : oi (timer_count v).
Proof. destruct v; try (intros o ord w; reflexivity); unfold timer_count; ois. Qed.
Lemma oi_timer_stat k v : oi (timer_stat k v).
Proof. destruct v; try (intros o ord w; reflexivity); unfold timer_stat; ois. Qed.
Lemma oi_timer_rate q v : oi (timer_rate q v).
Proof. destruct v; try (intros o ord w; reflexivity); unfold timer_rate; ois. Qed.
#[export] Hint Resolve oi_counter_count oi_gauge_value oi_gaugef_value oi_health_error oi_hist_snapshot oi_hist_percentiles oi_hist_count oi_hist_stat oi_meter_snapshot oi_meter_count oi_meter_rate oi_timer_snapshot oi_timer_percentiles oi_timer_count oi_timer_stat oi_timer_rate : oi.
Lemma oi_health_check v : oi (health_check v).
Proof. unfold health_check. destruct v; ois. Qed.
#[export] Hint Resolve oi_health_check : oi.
Lemma oi_read_metric health ps v : oi (read_metric health ps v).
Proof. unfold read_metric. destruct (cls v); ois. Qed.
Lemma oi_report_each {A} health ps (render : string -> reading -> res (list A)) es : oi (report_each health ps render es).
Proof. induction es as [|[nm v] es IH]; cbn [report_each]; [apply oi_ret|]. apply oi_bind; [apply oi_read_metric|]. intros d. apply oi_bind; [destruct d; ois|]. intros a. apply oi_bind; [exact IH|]. intros r. apply oi_ret. Qed.

(** ** the readings of a report *)
Definition pairs (nm : string) (rd : reading) : res (list (string * reading)) := Ok [(nm, rd)].
Lemma each_readings {A} ps (render : string -> reading -> res (list A)) o es : forall w w' out, Forall (fun kv => is_metric (snd kv) = true) es ->
  report_each true ps render es o w = (w', Ok out) ->
  exists rds outs, report_each true ps pairs es o w = (w', Ok rds) /\ map fst rds = map fst es /\ out = List.concat outs /\ Forall2 (fun nr a => render (fst nr) (snd nr) = Ok a) rds outs.
Proof.
  induction es as [|[n v] es IH]; intros w w' out M H; cbn [report_each] in *; [unfold ret in H; injection H as <- <-; exists [], []; auto|].
  inversion M as [|? ? M1 M2]; subst. cbn [snd] in M1.
  destruct (read_metric true ps v o w) as [w1 [r|msg]] eqn:E; [rewrite (bind_ok _ _ _ _ _ _ E) in H; rewrite (bind_ok _ _ _ _ _ _ E)|rewrite (bind_panic _ _ _ _ _ _ E) in H; discriminate].
  destruct r as [rd|].
  2: { exfalso. clear - M1 E. unfold read_metric in E. unfold is_metric in M1. destruct (cls v); try discriminate M1;
    repeat match type of E with bind ?m _ ?o ?w = _ => let X := fresh "X" in destruct (m o w) as [? [?|?]] eqn:X; [rewrite (bind_ok _ _ _ _ _ _ X) in E|rewrite (bind_panic _ _ _ _ _ _ X) in E; discriminate E] end; unfold ret in E; discriminate E. }
  destruct (render n rd) as [a|msg] eqn:Ra; [|discriminate H].
  rewrite (bind_ok _ _ _ _ _ _ (eq_refl : lift (Ok a) o w1 = (w1, Ok a))) in H.
  rewrite (bind_ok _ _ _ _ _ _ (eq_refl : lift (pairs n rd) o w1 = (w1, Ok [(n, rd)]))).
  destruct (report_each true ps render es o w1) as [w2 [rs|msg]] eqn:E2; [rewrite (bind_ok _ _ _ _ _ _ E2) in H|rewrite (bind_panic _ _ _ _ _ _ E2) in H; discriminate].
  unfold ret in H. injection H as <- <-. destruct (IH _ _ _ M2 E2) as (rds & outs & Er & Nm & -> & F). rewrite (bind_ok _ _ _ _ _ _ Er).
  exists ((n, rd) :: rds), (a :: outs). cbn [map fst app]. repeat split; auto. now f_equal.
Qed.
(** GetAll makes the same readings *)
Lemma same_reading v o w w' r : read_metric true ps5 v o w = (w', Ok r) -> exists fs, get_all_one v o w = (w', Ok fs) /\ forall e, r = Some (RdHealth e) -> fs = [("error", GE e)].
Proof.
  intros E. unfold read_metric in E. unfold get_all_one. destruct (cls v);
    repeat match type of E with bind ?m _ ?o ?w = _ => let X := fresh "X" in destruct (m o w) as [? [?|?]] eqn:X; [rewrite (bind_ok _ _ _ _ _ _ X) in E; rewrite (bind_ok _ _ _ _ _ _ X)|rewrite (bind_panic _ _ _ _ _ _ X) in E; discriminate E] end;
    unfold ret in E |- *; injection E as <- <-; eexists; (split; [reflexivity|]); intros e He; try discriminate He. injection He as <-. reflexivity.
Qed.
Lemma same_readings o es : forall w w' rds, report_each true ps5 pairs es o w = (w', Ok rds) ->
  exists l, get_all_each es o w = (w', Ok l) /\ forall nm e, In (nm, RdHealth e) rds -> In (nm, [("error", GE e)]) l.
Proof.
  induction es as [|[n v] es IH]; intros w w' rds H; cbn [report_each get_all_each] in *; [unfold ret in H; injection H as <- <-; exists []; split; [reflexivity|intros ? ? []]|].
  destruct (read_metric true ps5 v o w) as [w1 [r|msg]] eqn:E; [rewrite (bind_ok _ _ _ _ _ _ E) in H|rewrite (bind_panic _ _ _ _ _ _ E) in H; discriminate].
  destruct (same_reading v o w w1 r E) as (fs & G & He). rewrite (bind_ok _ _ _ _ _ _ G).
  assert (Ea : exists a, (match r with Some d => lift (pairs n d) | None => ret [] end) o w1 = (w1, Ok a) /\ forall nm e, In (nm, RdHealth e) a -> nm = n /\ r = Some (RdHealth e)).
  { destruct r as [rd|]; [exists [(n, rd)]|exists []]; (split; [reflexivity|]); intros nm e; cbn [In]; [intros [Hx|[]]; injection Hx as -> ->; auto|intros []]. }
  destruct Ea as (a & Ea & Ha). rewrite (bind_ok _ _ _ _ _ _ Ea) in H.
  destruct (report_each true ps5 pairs es o w1) as [w2 [rs|msg]] eqn:E2; [rewrite (bind_ok _ _ _ _ _ _ E2) in H|rewrite (bind_panic _ _ _ _ _ _ E2) in H; discriminate].
  unfold ret in H. injection H as <- <-. destruct (IH _ _ _ E2) as (l & Gl & Hl). rewrite (bind_ok _ _ _ _ _ _ Gl). exists ((n, fs) :: l). split; [reflexivity|].
  intros nm e Hin. apply in_app_or in Hin. destruct Hin as [Hin|Hin]; [|right; auto]. destruct (Ha _ _ Hin) as (-> & Hr). left. now rewrite (He e Hr).
Qed.
(** what is known about each reading *)
Definition reads mexp (st : state) v o at_ (nm : string) (nr : string * reading) : Prop :=
  fst nr = nm /\ exists i, shown st v nm = Some i /\
    if class_eqb (cls i) CHealth then exists e, snd nr = RdHealth e /\ says_error mexp st v o i (at_ nm) e
    else kind_rd (snd nr) = cls i /\ answered (fun c r => answer mexp st o ps5 (at_ nm) c = Some (Ok r)) (at_ nm) ps5 (snd nr).
Lemma checks_run mexp o x lh : forall k s e f, nth_error (snd s) x = Some (VHealth lh) -> nth_error (heap (fst s)) lh = Some (OHealth e f) ->
  snd (step mexp (run mexp s (repeat (OCheck x, o) k)) (OError x, o)) = Some (Ok (RErr (Nat.iter k (run_of o f) e))).
Proof.
  induction k as [|k IH]; intros s e f Ex Es.
  - cbn [repeat]. change (run mexp s []) with s. rewrite (error_eq mexp s x lh e f o Ex Es). reflexivity.
  - cbn [repeat]. change (run mexp s ((OCheck x, o) :: repeat (OCheck x, o) k)) with (run mexp (fst (step mexp s (OCheck x, o))) (repeat (OCheck x, o) k)).
    destruct (C54_check mexp s x lh e f o Ex Es) as (_ & E1 & _). rewrite (IH _ _ _ (step_env mexp _ _ _ _ _ Ex) E1). rewrite <- iter_S. reflexivity.
Qed.
Lemma stub_run mexp o x : forall k (s : state), nth_error (snd s) x = Some VNilHealth -> snd (step mexp (run mexp s (repeat (OCheck x, o) k)) (OError x, o)) = Some (Ok (RErr None)).
Proof.
  induction k as [|k IH]; intros s Ex.
  - cbn [repeat]. change (run mexp s []) with s. unfold World.step. cbn [fst snd World.call]. rewrite Ex. reflexivity.
  - change (run mexp s (repeat (OCheck x, o) (S k))) with (run mexp (fst (step mexp s (OCheck x, o))) (repeat (OCheck x, o) k)). apply IH. now apply step_env.
Qed.
Lemma each_reads mexp (st : state) v o at_ es w' rds : inv st -> NoDup (map fst es) ->
  (forall nm i, In (nm, i) es <-> shown st v nm = Some i) -> Forall (fun kv => is_metric (snd kv) = true /\ vok (heap (fst st)) (snd kv)) es ->
  (forall nm i, shown st v nm = Some i -> nth_error (snd st) (at_ nm) = Some i) ->
  report_each true ps5 pairs es o (fst st) = (w', Ok rds) -> Forall2 (reads mexp st v o at_) (map fst es) rds.
Proof.
  intros I ND Sh F At H.
  assert (F' : Forall (vok (heap (fst st))) (map snd es)). { rewrite Forall_forall in F |- *. intros u Hu. apply in_map_iff in Hu. destruct Hu as (kv & <- & Hu). apply (F _ Hu). }
  destruct (same_readings _ _ _ _ _ H) as (l & G & Hl).
  destruct (each_told mexp st v o ps5 true pairs at_ es w' rds I Sh F At H) as (outs & Eo & T).
  assert (He : forall nm i e, shown st v nm = Some i -> cls i = CHealth -> In (nm, RdHealth e) rds -> says_error mexp st v o i (at_ nm) e).
  { intros nm i e Si C Hin. apply Hl in Hin. intros ns Nns Hns. pose proof (At _ _ Si) as Ex. apply Sh in Si. pose proof Si as Hi.
    assert (Vi : vok (heap (fst st)) i) by (rewrite Forall_forall in F; apply (F _ Si)).
    assert (Kh : (exists lh, i = VHealth lh) \/ i = VNilHealth) by (destruct i; try discriminate C; eauto). destruct Kh as [(lh & ->)| ->].
    - destruct Vi as (z & Ez & Tz). destruct z; cbn in Tz; try discriminate.
      destruct (each_health lh o f nm _ es (fst st) e0 w' l (proj1 I) F' Ez ND G Hi Hin) as (k & K & Ee). injection Ee as ->.
      exists k. split; [|apply (checks_run mexp o (at_ nm) lh); auto].
      assert (Ln : count lh (map snd es) = List.length ns); [|lia].
      assert (Cn : count lh (map snd es) = List.length (map fst (filter (fun kv => is_check lh (snd kv)) es))).
      { unfold count. rewrite map_length. clear. induction es as [|[n u] es IH]; cbn [map filter snd]; auto. destruct (is_check lh u); cbn; auto. }
      rewrite Cn. apply Permutation_length. apply NoDup_Permutation; auto; [apply nodup_fst_filter; auto|].
      intros n. rewrite Hns, <- Sh. rewrite in_map_iff. split.
      + intros ([n' u] & <- & Hf). apply filter_In in Hf. destruct Hf as (Hf & Cf). cbn in Cf. destruct u; try discriminate Cf. cbn in Cf. apply Nat.eqb_eq in Cf. subst. exact Hf.
      + intros Hf. exists (n, VHealth lh). split; auto. apply filter_In. split; auto. cbn. apply Nat.eqb_refl.
    - (* the stub *)
      exists 1. split.
      + assert (In nm ns) by (apply Hns, Sh; exact Hi). destruct ns; [contradiction|cbn; lia].
      + rewrite stub_run by exact Ex. do 3 f_equal. clear - G Hi Hin ND.
        revert l w' G Hin. generalize (fst st). induction es as [|[n u] es IH]; intros w l w' G Hin; [destruct Hi|]. cbn [get_all_each] in G.
        destruct (get_all_one u o w) as [w1 [r|msg]] eqn:R; [rewrite (bind_ok _ _ _ _ _ _ R) in G|rewrite (bind_panic _ _ _ _ _ _ R) in G; discriminate].
        destruct (get_all_each es o w1) as [w2 [rs2|msg]] eqn:R2; [rewrite (bind_ok _ _ _ _ _ _ R2) in G|rewrite (bind_panic _ _ _ _ _ _ R2) in G; discriminate]. unfold ret in G. injection G as <- <-.
        cbn [map fst] in ND. inversion ND as [|? ? N1 N2]; subst. pose proof (each_names _ _ _ _ _ R2) as Nm. destruct Hi as [Hi|Hi].
        * injection Hi as -> ->. destruct Hin as [Hin|Hin].
          -- injection Hin as ->. cbn in R. injection R as _ R. congruence.
          -- exfalso. apply N1. rewrite <- Nm. apply (in_map fst) in Hin. exact Hin.
        * destruct Hin as [Hin|Hin]; [|eapply IH; eauto]. injection Hin as -> _. exfalso. apply N1. apply (in_map fst) in Hi. exact Hi. }
  clear - Eo T He. subst rds. induction T as [|nm a names outs Ta _ IH]; [constructor|].
  assert (X : exists rd, a = [(nm, rd)] /\ reads mexp st v o at_ nm (nm, rd)).
  { destruct Ta as (i & Si & Mt & Ta). destruct (class_eqb (cls i) CHealth) eqn:Ch.
    - destruct Ta as (e & Ta). injection Ta as <-. exists (RdHealth e). split; [reflexivity|]. split; [reflexivity|]. exists i. split; [exact Si|]. rewrite Ch. exists e. split; [reflexivity|].
      eapply He; [exact Si|destruct (cls i); try discriminate Ch; reflexivity|]. now left.
    - destruct Ta as (rd & K & An & Ta). injection Ta as <-. exists rd. split; [reflexivity|]. split; [reflexivity|]. exists i. rewrite Ch. auto. }
  destruct X as (rd & -> & X). cbn [List.concat app]. constructor; [exact X|]. apply IH. intros n i e Si C Hin. eapply He; eauto. cbn [List.concat app]. now right.
Qed.

(** ** rows *)
Lemma unpad_blanks n s : clean s = true -> unpad (blanks n ++ s) = s.
Proof.
  intros H. induction n; cbn [blanks append].
  - destruct s as [|a s]; [reflexivity|]. apply clean_free in H. destruct H as [H _]. cbn [free] in H. apply andb_true_iff in H. destruct H as [H _]. cbn [unpad]. now destruct (Ascii.eqb a space).
  - cbn [unpad]. exact IHn.
Qed.
Lemma length_blanks n : String.length (blanks n) = n.
Proof. induction n; cbn; auto. Qed.
Definition row_ok (u : Z) (suffix : string) (Q : op -> rv -> Prop) (l : string) (rw : row) : Prop :=
  let '(label, width, c, s) := rw in
  exists t a, l = label ++ t ++ (match s with FixedPer _ => suffix | _ => "" end) /\ Q c a /\ prints u s a (unpad t) /\ String.length t = Nat.max width (String.length (unpad t)).
Lemma row_pad u suffix (Q : op -> rv -> Prop) label w c s n a : Q c a -> prints u s a (fmt_num n) ->
  row_ok u suffix Q (label ++ pad w (fmt_num n) ++ (match s with FixedPer _ => suffix | _ => "" end)) (label, w, c, s).
Proof.
  intros Ha P. exists (pad w (fmt_num n)), a. unfold pad. rewrite unpad_blanks by apply clean_num. repeat split; auto. rewrite length_app, length_blanks. lia.
Qed.
Definition ended (u : Z) (suffix : string) (Q : op -> rv -> Prop) (s : string) (rw : row) : Prop := exists l, s = l ++ newline /\ row_ok u suffix Q l rw.
Lemma ended_z u suffix (Q : op -> rv -> Prop) label w c n : Q c (RZ n) -> ended u suffix Q (text_line label w (NInt n)) (label, w, c, Whole).
Proof. intros H. eexists. split; [|apply (row_pad u suffix Q label w c Whole (NInt n) (RZ n) H); apply parse_fmt_d]. unfold text_line. now rewrite app_nil_r', app_assoc'. Qed.
Lemma ended_f u suffix (Q : op -> rv -> Prop) label w c k x : Q c (RF x) -> ended u suffix Q (text_line label w (NFix k x)) (label, w, c, Fixed k).
Proof. intros H. eexists. split; [|apply (row_pad u suffix Q label w c (Fixed k) (NFix k x) (RF x) H); apply shows_fmt_f]. unfold text_line. now rewrite app_nil_r', app_assoc'. Qed.
Lemma ended_t u suffix (Q : op -> rv -> Prop) label c x : Q c (RF x) -> ended u suffix Q (log_time label suffix (fdiv x (f_of_int u))) (label, 12, c, FixedPer 2).
Proof. intros H. eexists. split; [|apply (row_pad u suffix Q label 12 c (FixedPer 2) (NFix 2 (fdiv x (f_of_int u))) (RF x) H); apply shows_fmt_f]. unfold log_time. cbn [fmt_num]. now rewrite !app_assoc'. Qed.
Ltac row := first [apply ended_z | apply ended_f | apply ended_t]; solve [eauto].
Lemma write_rows error_text u suffix (Q : op -> rv -> Prop) x nm rd ls : kind_rd rd <> CHealth -> answered Q x ps5 rd -> write_lines error_text nm rd = Ok ls ->
  exists rest, ls = ((word (kind_rd rd) ++ " " ++ nm) ++ newline) :: rest /\ Forall2 (ended u suffix Q) rest (text_rows x (kind_rd rd)).
Proof.
  intros N A E. unfold write_lines in E. injection E as <-. destruct rd; cbn [answered kind_rd word text_rows] in *; try congruence.
  - eexists. split; [reflexivity|]. constructor; [row|constructor].
  - eexists. split; [reflexivity|]. constructor; [row|constructor].
  - eexists. split; [reflexivity|]. constructor; [row|constructor].
  - destruct A as (A1 & A2 & A3 & A4 & A5 & A6). apply five_scores in A6. destruct A6 as (a & b & c & d & e & -> & P1 & P2 & P3 & P4 & P5).
    eexists. split; [reflexivity|]. unfold distribution_rows, percentile_rows, text_dist, nth_f. cbn [app nth]. do 10 (constructor; [row|]). constructor.
  - destruct A as (A1 & A2 & A3 & A4 & A5). eexists. split; [reflexivity|]. unfold rate_rows, text_rates. do 5 (constructor; [row|]). constructor.
  - destruct A as ((A1 & A2 & A3 & A4 & A5 & A6) & R1 & R2 & R3 & R4). apply five_scores in A6. destruct A6 as (a & b & c & d & e & -> & P1 & P2 & P3 & P4 & P5).
    eexists. split; [reflexivity|]. unfold distribution_rows, percentile_rows, text_dist, nth_f, rate_rows, text_rates. cbn [app nth]. do 14 (constructor; [row|]). constructor.
Qed.
Lemma fmt_err_says error_text e : fmt_err error_text e = error_says error_text e.
Proof. reflexivity. Qed.
(** the lines of all metrics *)
Lemma blocks_of mexp error_text (st : state) v o at_ (render : string -> reading -> res (list string)) (rows : nat -> class -> list row) u suffix names rds outs :
  (forall nm e ls, render nm (RdHealth e) = Ok ls -> ls = [("healthcheck " ++ nm) ++ newline; ("  error:       " ++ fmt_err error_text e) ++ newline]) ->
  (forall (Q : op -> rv -> Prop) x nm rd ls, kind_rd rd <> CHealth -> answered Q x ps5 rd -> render nm rd = Ok ls ->
     exists rest, ls = ((word (kind_rd rd) ++ " " ++ nm) ++ newline) :: rest /\ Forall2 (ended u suffix Q) rest (rows x (kind_rd rd))) ->
  Forall2 (reads mexp st v o at_) names rds -> Forall2 (fun nr a => render (fst nr) (snd nr) = Ok a) rds outs ->
  exists blocks, List.concat outs = map (fun l => l ++ newline) (List.concat blocks) /\
    Forall2 (fun nm ls => exists i, shown st v nm = Some i /\ block mexp error_text st v o rows u suffix (at_ nm) nm i ls) names blocks.
Proof.
  intros Hh Hr R. revert outs. induction R as [|nm [n rd] names rds Hn _ IH]; intros outs F; inversion F as [|? a ? outs' Ha F']; subst; [exists []; auto|].
  destruct (IH _ F') as (blocks & E & B). cbn [fst snd] in Ha. destruct Hn as (Hn & i & Si & Hi). cbn [fst snd] in *. subst n.
  assert (X : exists ls, a = map (fun l => l ++ newline) ls /\ block mexp error_text st v o rows u suffix (at_ nm) nm i ls).
  { unfold block. destruct (class_eqb (cls i) CHealth) eqn:Ch.
    - destruct Hi as (e & -> & Se). apply Hh in Ha. subst a. assert (C : cls i = CHealth) by (destruct (cls i); try discriminate Ch; reflexivity). rewrite C. cbn [word].
      eexists [_; _]. split; [reflexivity|]. eexists [_]. split; [reflexivity|]. exists e. auto.
    - destruct Hi as (K & An). assert (N : kind_rd rd <> CHealth) by (rewrite K; intros C; rewrite C in Ch; discriminate).
      destruct (Hr _ _ _ _ _ N An Ha) as (rest & -> & Fr). rewrite <- K.
      apply forall2_choice in Fr. destruct Fr as (ls & F1 & F2). exists ((word (kind_rd rd) ++ " " ++ nm) :: ls). split.
      + cbn [map]. f_equal. clear - F1. induction F1; cbn [map]; [reflexivity|]. subst. now f_equal.
      + exists ls. split; [reflexivity|]. eapply forall2_impl; [|exact F2]. intros l [[[label w] c] s] H. exact H. }
  destruct X as (ls & -> & X). exists (ls :: blocks). cbn [List.concat]. rewrite map_app, <- E. split; [reflexivity|]. constructor; eauto.
Qed.
