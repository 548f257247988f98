(** Making a batch for Librato reads the metrics by calls of their accessors. *)
From Coq Require Import ZArith List String Bool Lia Permutation Arith.
From Verif.Model Require Import GoInt GoFloat GoBase Stats Conc CounterGauge World Fmt Report Librato.
From Verif.Spec Require Import ApiSpec RegistrySpec GetAllSpec TextSpec ReportSpec WriteSpec LibratoSpec.
From Verif.Proofs Require Import WorldBase WorldCalls WorldStep WorldReads HealthProofs GetAllProofs TextProofs ReportProofs WriteProofs.
From Verif.Props Require Import SnapshotProps HealthProps GetAllProps.
Import ListNotations.
Local Open Scope nat_scope.
Local Open Scope string_scope.

Section Librato.
Variable sq : f64 -> f64.
Variable mexp : f64 -> f64.
Variable st : state.
Variable o : orc.
Variable self : reporter.

Notation says := (says mexp st o).
Notation fits := (fits sq mexp st o self).
Notation comes_from := (comes_from sq mexp st o self).

Lemma fits_pairs x e m : Forall2 (fun (ks : string * source_of) (kv : string * lval) => fst ks = fst kv /\ comes_from x (snd ks) (snd kv)) e m -> fits x e m.
Proof.
  intros F k. unfold lookup. induction F as [|[k1 s] [k2 v] e m (Ek & C) F IH]; cbn [List.find fst snd] in *; [reflexivity|]. subst k2. destruct (String.eqb k1 k); [exists v; auto|exact IH].
Qed.
(** the world after calls of Percentile *)
Definition near (w : world) : Prop := gentle (heap (fst st)) (heap w) /\ exists cs, percentile_calls o cs /\ run mexp st cs = (w, snd st).
Lemma near_start : near (fst st).
Proof. split; [apply gentle_refl|]. exists []. split; [intros c o' []|]. now destruct st. Qed.
Lemma near_step w y p w1 r : near w -> step mexp (w, snd st) (OPercentile y p, o) = ((w1, snd st), r) -> gentle (heap w) (heap w1) -> near w1.
Proof.
  intros (G & cs & P & R) S G1. split; [eapply gentle_trans; eauto|]. exists (cs ++ [(OPercentile y p, o)])%list. split.
  - intros c o' H. apply in_app_or in H. destruct H as [H|[[= <- <-]|[]]]; [auto|]. split; [reflexivity|eauto].
  - unfold run in *. rewrite fold_left_app, R. cbn [fold_left]. now rewrite S.
Qed.
Lemma near_says w c x v d : near w -> nth_error (snd st) x = Some v -> vdata o (heap (fst st)) v = Some d -> ApiSpec.reads c = Some x -> order_free c = true ->
  snd (step mexp (w, snd st) (c, o)) = snd (step mexp st (c, o)).
Proof.
  intros (G & _) E D R F. destruct (gentle_vdata _ _ _ _ _ G D) as (d' & D' & Q). rewrite (read_ok mexp (w, snd st) c o x v d' R E D'), (read_ok mexp st c o x v d R E D). symmetry. now apply read_deq.
Qed.

(** ** the loop over the percentiles *)
Fixpoint each_p (f : f64 -> M f64) (render : f64 -> f64 -> measurement) (ps : list f64) : M (list measurement) :=
  match ps with
  | [] => ret []
  | p :: r => bind (f p) (fun q => bind (each_p f render r) (fun rest => ret (render p q :: rest)))
  end.
Definition scored (r : res f64) : res rv := match r with Ok q => Ok (RF q) | Panic m => Panic m end.
Lemma each_p_run f render x v d : nth_error (snd st) x = Some v -> vdata o (heap (fst st)) v = Some d -> (forall p, gm (f p)) ->
  (forall p w, near w -> step mexp (w, snd st) (OPercentile x p, o) = ((fst (f p o w), snd st), Some (scored (snd (f p o w))))) ->
  forall ps w, near w -> exists w' r, each_p f render ps o w = (w', r) /\ near w' /\
    match r with
    | Ok gs => Forall2 (fun p g => exists q, says (OPercentile x p) (RF q) /\ g = render p q) ps gs
    | Panic msg => exists p, In p ps /\ snd (step mexp st (OPercentile x p, o)) = Some (Panic msg)
    end.
Proof.
  intros E D Gf Hs. induction ps as [|p ps IH]; intros w N; cbn [each_p]; [do 2 eexists; split; [reflexivity|]; split; [exact N|constructor]|].
  pose proof (Hs p w N) as S. pose proof (Gf p o w) as G. destruct (f p o w) as [w1 r1] eqn:F. cbn [fst snd] in *.
  pose proof (near_step _ _ _ _ _ N S G) as N1. assert (A : snd (step mexp st (OPercentile x p, o)) = Some (scored r1)) by (rewrite <- (near_says w (OPercentile x p) x v d N E D eq_refl eq_refl), S; reflexivity).
  destruct r1 as [q|msg].
  - rewrite (bind_ok _ _ _ _ _ _ F). destruct (IH w1 N1) as (w2 & r2 & Er & N2 & H). destruct r2 as [gs|msg].
    + rewrite (bind_ok _ _ _ _ _ _ Er). do 2 eexists. split; [reflexivity|]. split; [exact N2|]. constructor; [|exact H]. exists q. split; [exact A|reflexivity].
    + rewrite (bind_panic _ _ _ _ _ _ Er). do 2 eexists. split; [reflexivity|]. split; [exact N2|]. destruct H as (p' & Hp & H). exists p'. split; [now right|exact H].
  - rewrite (bind_panic _ _ _ _ _ _ F). do 2 eexists. split; [reflexivity|]. split; [exact N1|]. exists p. split; [now left|exact A].
Qed.
Lemma hist_gauges_each name s ps : hist_gauges self name s ps =
  each_p (fun p => bind (sample_percentiles [p] s) first_score) (fun p q => [("name", LS (name ++ "." ++ fmt_f 2 p)); ("value", LF q); ("period", period self)]) ps.
Proof. induction ps as [|p ps IH]; cbn [hist_gauges each_p]; [reflexivity|]. now rewrite IH. Qed.
Lemma timer_gauges_each name v ps : timer_gauges self name v ps =
  each_p (fun p => bind (timer_percentiles [p] v) first_score)
    (fun p q => [("name", LS (name ++ ".timer." ++ pad 2 (fmt_f 0 (fmul p (f_of_int 100))))); ("value", LF q); ("period", whole_period self); ("attributes", LA (timer_attributes self))]) ps.
Proof. induction ps as [|p ps IH]; cbn [timer_gauges each_p]; [reflexivity|]. now rewrite IH. Qed.
Lemma hist_sample_near v w s : near w -> hist_sample v o (fst st) = (fst st, Ok s) -> hist_sample v o w = (w, Ok s).
Proof.
  intros (G & _). destruct v; cbn [hist_sample]; unfold bind, load, throw, ret; try discriminate; try (intros [= <-]; reflexivity).
  - destruct (nth_error (heap (fst st)) l) as [ob|] eqn:El; [|discriminate]. pose proof (gentle_obj _ _ _ _ G El) as K. destruct ob; try discriminate. cbv iota in K. rewrite K. intros [= ->]. reflexivity.
  - destruct (nth_error (heap (fst st)) l) as [ob|] eqn:El; [|discriminate]. pose proof (gentle_obj _ _ _ _ G El) as K. destruct ob; try discriminate. cbv iota in K. rewrite K. intros [= ->]. reflexivity.
Qed.
Lemma step_score x v w p m : nth_error (snd st) x = Some v -> m_percentiles [p] v = Some m ->
  step mexp (w, snd st) (OPercentile x p, o) = ((fst (bind m first_score o w), snd st), Some (scored (snd (bind m first_score o w)))).
Proof.
  intros E H. unfold step. cbn [fst snd World.call]. rewrite E. cbn [obind]. rewrite H. cbn [obind]. unfold f_rv. destruct (bind m first_score o w) as [w1 [q|msg]] eqn:B.
  - rewrite (bind_ok _ _ _ _ _ _ B). unfold ret. cbn [fst snd scored yields]. now rewrite app_nil_r.
  - rewrite (bind_panic _ _ _ _ _ _ B). reflexivity.
Qed.
(** ** one metric *)
Definition positive (x : nat) : bool := counted mexp st o (fun _ => x) "".
Definition measured (nm : string) (x : nat) (k : class) (r : res (list measurement * list measurement)) : Prop :=
  match r with
  | Ok (gs, cs) =>
    Forall2 (fits x) (gauge_entries (percentiles self) (timer_attributes self) (full_name self nm) x k (positive x)) gs /\
    Forall2 (fits x) (counter_entries (full_name self nm) x k (positive x)) cs /\
    (k = CHist \/ k = CTimer -> positive x = true -> forall p, In p (percentiles self) -> exists q, says (OPercentile x p) (RF q))
  | Panic msg => (k = CHist \/ k = CTimer) /\ positive x = true /\ exists p, In p (percentiles self) /\ snd (step mexp st (OPercentile x p, o)) = Some (Panic msg)
  end.
Lemma name_eq nm : (if String.eqb (namespace self) "" then nm else namespace self ++ "." ++ nm) = full_name self nm.
Proof. unfold full_name. destruct (namespace self); reflexivity. Qed.
Lemma says_data c x v d : nth_error (snd st) x = Some v -> vdata o (heap (fst st)) v = Some d -> ApiSpec.reads c = Some x -> snd (step mexp st (c, o)) = read_data c d.
Proof. intros E D R. now apply (read_ok mexp st c o x v d R E D). Qed.
Lemma positive_data x v d n : nth_error (snd st) x = Some v -> vdata o (heap (fst st)) v = Some d -> read_data (OCount x) d = Some (Ok (RZ n)) -> positive x = (0 <? n)%Z.
Proof. intros E D H. unfold positive, counted. now rewrite (says_data (OCount x) x v d E D eq_refl), H. Qed.
Lemma number_fits x c a y : says c a -> as_float a = Some y -> comes_from x (Number c) (LF y).
Proof. intros S A. exists a, y. auto. Qed.
Lemma unpad_pad w s : clean s = true -> unpad (pad w s) = s /\ String.length (pad w s) = Nat.max w (String.length s).
Proof. intros C. unfold pad. rewrite unpad_blanks by exact C. split; [reflexivity|]. rewrite length_app, length_blanks. lia. Qed.
Lemma lset_same {A} (l : list A) i x : nth_error l i = Some x -> lset l i x = l.
Proof. revert i. induction l as [|a l IH]; intros [|i] H; cbn in *; try discriminate; [now injection H as ->|now rewrite IH]. Qed.
Lemma store_same l x w o' : nth_error (heap w) l = Some x -> store l x o' w = (w, Ok tt).
Proof. intros H. unfold store. rewrite lset_same by exact H. now destruct w. Qed.
Lemma r_counter v n w : cls v = CCounter -> vdata o (heap w) v = Some (DCounter n) -> counter_count v o w = (w, Ok n).
Proof.
  intros C D. destruct v; try discriminate C; cbn [vdata counter_count] in *; try (injection D as <-; reflexivity).
  destruct (nth_error (heap w) l) as [[]|] eqn:El; try discriminate D. injection D as ->. unfold c_do, c_load, bind at 1 2, load. rewrite El. unfold ret at 1. change (seq_state (counter_body CCount) n) with n. rewrite (bind_ok _ _ _ _ _ _ (store_same _ _ w o El)). reflexivity.
Qed.
Lemma r_gauge v n w : cls v = CGauge -> vdata o (heap w) v = Some (DGauge n) -> gauge_value v o w = (w, Ok n).
Proof.
  intros C D. destruct v; try discriminate C; cbn [vdata gauge_value] in *; try (injection D as <-; reflexivity).
  destruct (nth_error (heap w) l) as [[]|] eqn:El; try discriminate D. injection D as ->. unfold g_do, bind at 1, load. rewrite El. cbv iota. match goal with |- bind (store l ?z) _ _ _ = _ => change z with (OGauge n) end. rewrite (bind_ok _ _ _ _ _ _ (store_same _ _ w o El)). reflexivity.
Qed.
Lemma r_gaugef v x w : cls v = CGaugeF -> vdata o (heap w) v = Some (DGaugeF x) -> gaugef_value v o w = (w, Ok x).
Proof.
  intros C D. destruct v; try discriminate C; cbn [vdata gaugef_value] in *; try (injection D as <-; reflexivity).
  destruct (nth_error (heap w) l) as [[]|] eqn:El; try discriminate D. injection D as <-. unfold gf_do, bind at 1, load. rewrite El. cbv iota. match goal with |- bind (store l ?z) _ _ _ = _ => change z with (OGaugeF b) end. rewrite (bind_ok _ _ _ _ _ _ (store_same _ _ w o El)). reflexivity.
Qed.
Ltac plain_ := match goal with
  | |- LibratoSpec.comes_from _ _ _ _ _ _ (exactly _) _ => eexists; split; reflexivity
  | |- LibratoSpec.comes_from _ _ _ _ _ _ Seconds _ => reflexivity
  | |- LibratoSpec.comes_from _ _ _ _ _ _ WholeSeconds _ => reflexivity
  | |- LibratoSpec.comes_from _ _ _ _ _ _ (Attr _) _ => reflexivity
  end.
Ltac fits_ := apply fits_pairs; repeat (apply Forall2_cons; [split; [reflexivity|cbn [fst snd]; try plain_]|]); try apply Forall2_nil.
Ltac says_ E D := unfold LibratoSpec.says; match goal with |- snd (step _ _ (?c, _)) = _ => rewrite (says_data c _ _ _ E D eq_refl) end; reflexivity.
Lemma measure_counter nm v x n w : nth_error (snd st) x = Some v -> cls v = CCounter -> vdata o (heap (fst st)) v = Some (DCounter n) -> near w ->
  exists w' r, measure sq self nm v o w = (w', r) /\ near w' /\ measured nm x CCounter r.
Proof.
  intros E C D N. unfold measure. rewrite name_eq, C. destruct (gentle_vdata _ _ _ _ _ (proj1 N) D) as (d' & D' & Q). destruct d'; try contradiction Q; try discriminate Q. cbn in Q. injection Q as <-. pose proof (r_counter v n w C D') as R.
  rewrite (bind_ok _ _ _ _ _ _ R). unfold measured. rewrite (positive_data x v _ n E D eq_refl). cbn [gauge_entries counter_entries]. destruct (0 <? n)%Z.
  - rewrite (bind_ok _ _ _ _ _ _ R). do 2 eexists. split; [reflexivity|]. split; [exact N|]. split; [constructor|]. split; [|intros [|]; discriminate].
    constructor; [|constructor]. fits_. apply number_fits with (a := RZ n); [says_ E D|reflexivity].
  - do 2 eexists. split; [reflexivity|]. split; [exact N|]. split; [constructor|]. split; [constructor|intros [|]; discriminate].
Qed.
Lemma measure_gauge nm v x n w : nth_error (snd st) x = Some v -> cls v = CGauge -> vdata o (heap (fst st)) v = Some (DGauge n) -> near w ->
  exists w' r, measure sq self nm v o w = (w', r) /\ near w' /\ measured nm x CGauge r.
Proof.
  intros E C D N. unfold measure. rewrite name_eq, C. destruct (gentle_vdata _ _ _ _ _ (proj1 N) D) as (d' & D' & Q). destruct d'; try contradiction Q; try discriminate Q. cbn in Q. injection Q as <-.
  rewrite (bind_ok _ _ _ _ _ _ (r_gauge v n w C D')). do 2 eexists. split; [reflexivity|]. split; [exact N|]. split; [|split; [constructor|intros [|]; discriminate]].
  constructor; [|constructor]. fits_. apply number_fits with (a := RZ n); [says_ E D|reflexivity].
Qed.
Lemma measure_gaugef nm v x y w : nth_error (snd st) x = Some v -> cls v = CGaugeF -> vdata o (heap (fst st)) v = Some (DGaugeF y) -> near w ->
  exists w' r, measure sq self nm v o w = (w', r) /\ near w' /\ measured nm x CGaugeF r.
Proof.
  intros E C D N. unfold measure. rewrite name_eq, C. destruct (gentle_vdata _ _ _ _ _ (proj1 N) D) as (d' & D' & Q). destruct d'; try contradiction Q; try discriminate Q. cbn in Q. injection Q as <-.
  rewrite (bind_ok _ _ _ _ _ _ (r_gaugef v y w C D')). do 2 eexists. split; [reflexivity|]. split; [exact N|]. split; [|split; [constructor|intros [|]; discriminate]].
  constructor; [|constructor]. fits_. apply number_fits with (a := RF y); [says_ E D|reflexivity].
Qed.
Lemma measure_meter nm v x s w : nth_error (snd st) x = Some v -> cls v = CMeter -> vdata o (heap (fst st)) v = Some (DMeter s) -> mdata (heap (fst st)) v = Some s -> near w ->
  exists w' r, measure sq self nm v o w = (w', r) /\ near w' /\ measured nm x CMeter r.
Proof.
  intros E C D Dm N. unfold measure. rewrite name_eq, C. pose proof (gentle_mdata _ _ _ _ (proj1 N) Dm) as D'.
  rewrite (bind_ok _ _ _ _ _ _ (r_meter_count v o w s D')). do 3 rewrite (bind_ok _ _ _ _ _ _ (r_meter_rate _ v o w s D')).
  do 2 eexists. split; [reflexivity|]. split; [exact N|]. split; [|split; [|intros [|]; discriminate]].
  - constructor; [|constructor; [|constructor; [|constructor]]]; fits_; (eapply number_fits; [says_ E D|reflexivity]).
  - constructor; [|constructor]. fits_. eapply number_fits; [says_ E D|reflexivity].
Qed.
Lemma hist_near x v c xs w : nth_error (snd st) x = Some v -> hdata (heap (fst st)) v = Some (c, xs) -> near w ->
  exists ys s, hdata (heap w) v = Some (c, ys) /\ Permutation xs ys /\ hist_sample v o w = (w, Ok s) /\ sdata (heap w) s = Some (c, ys) /\ hist_sample v o (fst st) = (fst st, Ok s).
Proof.
  intros E D N. destruct (r_hist_sample v o (fst st) c xs D) as (s & S & Ds). destruct (gentle_sdata _ _ _ _ _ (proj1 N) Ds) as (ys & Ds' & P).
  pose proof (hist_sample_near v w s N S) as S'. exists ys, s. repeat split; auto. destruct (gentle_hdata _ _ _ _ _ (proj1 N) D) as (zs & D' & _). rewrite D'. destruct (r_hist_sample v o w c zs D') as (s2 & S2 & Ds2). rewrite S' in S2. injection S2 as <-. congruence.
Qed.
(** the standard deviation read in such a world *)
Lemma near_stddev w x v d : near w -> nth_error (snd st) x = Some v -> vdata o (heap w) v = Some d -> forall ys, dist d = Some ys ->
  exists cs, percentile_calls o cs /\ snd (step mexp (run mexp st cs) (OStat x SStdDev, o)) = Some (Ok (RF (SampleStdDev ys))).
Proof.
  intros (G & cs & P & R) E D ys Ds. exists cs. split; [exact P|]. rewrite R. rewrite (read_ok mexp (w, snd st) (OStat x SStdDev) o x v d eq_refl E D). cbn [read_data]. now rewrite Ds.
Qed.
Lemma measure_hist nm v x c xs w : nth_error (snd st) x = Some v -> cls v = CHist -> vdata o (heap (fst st)) v = Some (DHist c xs) -> hdata (heap (fst st)) v = Some (c, xs) -> near w ->
  exists w' r, measure sq self nm v o w = (w', r) /\ near w' /\ measured nm x CHist r.
Proof.
  intros E C D Dh N. unfold measure. rewrite name_eq, C. destruct (hist_near x v c xs w E Dh N) as (ys & s & Dh' & P & S & Ds & S0).
  rewrite (bind_ok _ _ _ _ _ _ (r_hist_count v o w c ys Dh')). unfold measured. rewrite (positive_data x v _ c E D eq_refl). cbn [gauge_entries counter_entries]. destruct (0 <? c)%Z;
    [|do 2 eexists; split; [reflexivity|]; split; [exact N|]; split; [constructor|]; split; [constructor|discriminate]].
  rewrite (bind_ok _ _ _ _ _ _ S), (bind_ok _ _ _ _ _ _ (r_count s o w c ys Ds)). do 3 rewrite (bind_ok _ _ _ _ _ _ (r_stat _ s o w c ys Ds)). rewrite (bind_ok _ _ _ _ _ _ (r_count s o w c ys Ds)). do 2 rewrite (bind_ok _ _ _ _ _ _ (r_stat _ s o w c ys Ds)).
  rewrite hist_gauges_each.
  destruct (each_p_run (fun p => bind (sample_percentiles [p] s) first_score) (fun p q => [("name", LS ((full_name self nm ++ ".hist") ++ "." ++ fmt_f 2 p)); ("value", LF q); ("period", period self)]) x v _ E D) with (ps := percentiles self) (w := w) as (w' & r & Er & N' & H).
  - intros p. unfold first_score. gms.
  - intros p w1 N1. assert (Mp : m_percentiles [p] v = Some (hist_percentiles [p] v)) by (unfold m_percentiles; now rewrite C).
    rewrite (step_score x v w1 p _ E Mp). unfold hist_percentiles. pose proof (hist_sample_near v w1 s N1 S0) as S1. unfold bind at 1 2 3 4. rewrite S1. reflexivity.
  - exact N.
  - destruct r as [gs|msg].
    + rewrite (bind_ok _ _ _ _ _ _ Er). do 2 eexists. split; [reflexivity|]. split; [exact N'|]. split; [|split; [constructor|]].
      * constructor.
        -- assert (D' : vdata o (heap w) v = Some (DHist c ys)) by (destruct v; try discriminate C; cbn [vdata]; now rewrite Dh').
           fits_.
           ++ exists c. split; [says_ E D|reflexivity].
           ++ apply number_fits with (a := RZ (SampleMax ys)); [|reflexivity]. unfold LibratoSpec.says. rewrite <- (near_says w (OStat x SMax) x v _ N E D eq_refl eq_refl), (read_ok mexp (w, snd st) (OStat x SMax) o x v _ eq_refl E D'). reflexivity.
           ++ apply number_fits with (a := RZ (SampleMin ys)); [|reflexivity]. unfold LibratoSpec.says. rewrite <- (near_says w (OStat x SMin) x v _ N E D eq_refl eq_refl), (read_ok mexp (w, snd st) (OStat x SMin) o x v _ eq_refl E D'). reflexivity.
           ++ apply number_fits with (a := RZ (SampleSum ys)); [|reflexivity]. unfold LibratoSpec.says. rewrite <- (near_says w (OStat x SSum) x v _ N E D eq_refl eq_refl), (read_ok mexp (w, snd st) (OStat x SSum) o x v _ eq_refl E D'). reflexivity.
           ++ destruct (near_stddev w x v _ N E D' ys eq_refl) as (cs & Pc & Sd). exists c, (SampleMean ys), (SampleStdDev ys), cs. split; [says_ E D|]. split; [|split; [exact Pc|split; [exact Sd|reflexivity]]].
              unfold LibratoSpec.says. rewrite <- (near_says w (OStat x SMean) x v _ N E D eq_refl eq_refl), (read_ok mexp (w, snd st) (OStat x SMean) o x v _ eq_refl E D'). reflexivity.
        -- clear - H. induction H as [|p g ps gs (q & Sq & ->) _ IH]; cbn [map]; constructor; auto. fits_.
           ++ eexists. split; [reflexivity|]. exists (fmt_f 2 p). split; [|apply shows_fmt_f]. now rewrite app_assoc'.
           ++ apply number_fits with (a := RF q); [exact Sq|reflexivity].
      * intros _ _ p Hp. clear - H Hp. induction H as [|p' g ps gs (q & Sq & _) _ IH]; [contradiction|]. destruct Hp as [<-|Hp]; eauto.
    + rewrite (bind_panic _ _ _ _ _ _ Er). do 2 eexists. split; [reflexivity|]. split; [exact N'|]. split; [now left|]. split; [reflexivity|exact H].
Qed.
Lemma rt_count v w c ys s : tdata (heap w) v = Some (c, ys, s) -> timer_count v o w = (w, Ok c).
Proof. intros D. destruct (r_timer_get v o w c ys s D) as (hi & m & T & Dh & _). unfold timer_count. rewrite (bind_ok _ _ _ _ _ _ T). now apply (r_hist_count hi o w c ys). Qed.
Lemma rt_stat k v w c ys s : tdata (heap w) v = Some (c, ys, s) -> timer_stat k v o w = (w, Ok (stat_of k ys)).
Proof. intros D. destruct (r_timer_get v o w c ys s D) as (hi & m & T & Dh & _). unfold timer_stat. rewrite (bind_ok _ _ _ _ _ _ T). now apply (r_hist_stat k hi o w c ys). Qed.
Lemma rt_rate k v w c ys s : tdata (heap w) v = Some (c, ys, s) -> timer_rate k v o w = (w, Ok (float64frombits (rate_bits k s))).
Proof. intros D. destruct (r_timer_get v o w c ys s D) as (hi & m & T & _ & Dm). unfold timer_rate. rewrite (bind_ok _ _ _ _ _ _ T). now apply r_meter_rate. Qed.
Lemma measure_timer nm v x c xs s w : nth_error (snd st) x = Some v -> cls v = CTimer -> vdata o (heap (fst st)) v = Some (DTimer c xs s) -> tdata (heap (fst st)) v = Some (c, xs, s) -> near w ->
  exists w' r, measure sq self nm v o w = (w', r) /\ near w' /\ measured nm x CTimer r.
Proof.
  intros E C D Dt N. unfold measure. rewrite name_eq, C. destruct (gentle_tdata _ _ _ _ _ _ (proj1 N) Dt) as (ys & Dt' & P).
  rewrite (bind_ok _ _ _ _ _ _ (rt_count v w c ys s Dt')). rewrite (bind_ok _ _ _ _ _ _ (rt_count v w c ys s Dt')). unfold measured. rewrite (positive_data x v _ c E D eq_refl). cbn [gauge_entries counter_entries].
  assert (Cn : fits x [("period", Seconds); ("name", exactly (full_name self nm)); ("value", Number (OCount x))] [("period", period self); ("name", LS (full_name self nm)); ("value", LF (f_of_int c))]).
  { fits_. apply number_fits with (a := RZ c); [says_ E D|reflexivity]. }
  destruct (0 <? c)%Z; [|do 2 eexists; split; [reflexivity|]; split; [exact N|]; split; [constructor|]; split; [constructor; [exact Cn|constructor]|discriminate]].
  rewrite (bind_ok _ _ _ _ _ _ (rt_count v w c ys s Dt')), (bind_ok _ _ _ _ _ _ (rt_stat _ v w c ys s Dt')), (bind_ok _ _ _ _ _ _ (rt_count v w c ys s Dt')). do 2 rewrite (bind_ok _ _ _ _ _ _ (rt_stat _ v w c ys s Dt')).
  rewrite (bind_ok _ _ _ _ _ _ (rt_count v w c ys s Dt')). do 2 rewrite (bind_ok _ _ _ _ _ _ (rt_stat _ v w c ys s Dt')). rewrite timer_gauges_each.
  destruct (each_p_run (fun p => bind (timer_percentiles [p] v) first_score)
    (fun p q => [("name", LS (full_name self nm ++ ".timer." ++ pad 2 (fmt_f 0 (fmul p (f_of_int 100))))); ("value", LF q); ("period", whole_period self); ("attributes", LA (timer_attributes self))]) x v _ E D) with (ps := percentiles self) (w := w) as (w' & r & Er & N' & H).
  - intros p. unfold first_score. gms.
  - intros p w1 N1. assert (Mp : m_percentiles [p] v = Some (timer_percentiles [p] v)) by (unfold m_percentiles; now rewrite C). apply (step_score x v w1 p _ E Mp).
  - exact N.
  - destruct r as [gs|msg].
    + rewrite (bind_ok _ _ _ _ _ _ Er). destruct (gentle_tdata _ _ _ _ _ _ (proj1 N') Dt) as (zs & Dz & _). do 3 rewrite (bind_ok _ _ _ _ _ _ (rt_rate _ v w' c zs s Dz)). do 2 eexists. split; [reflexivity|]. split; [exact N'|].
      assert (D' : vdata o (heap w) v = Some (DTimer c ys s)) by (destruct v; try discriminate C; cbn [vdata]; now rewrite Dt').
      assert (Me : says (OStat x SMean) (RF (SampleMean ys))) by (unfold LibratoSpec.says; rewrite <- (near_says w (OStat x SMean) x v _ N E D eq_refl eq_refl), (read_ok mexp (w, snd st) (OStat x SMean) o x v _ eq_refl E D'); reflexivity).
      split; [|split; [constructor; [exact Cn|constructor]|]].
      * constructor.
        -- fits_.
           ++ exists c. split; [says_ E D|reflexivity].
           ++ exists c, (SampleMean ys). split; [says_ E D|]. split; [exact Me|reflexivity].
           ++ apply number_fits with (a := RZ (SampleMax ys)); [|reflexivity]. unfold LibratoSpec.says. rewrite <- (near_says w (OStat x SMax) x v _ N E D eq_refl eq_refl), (read_ok mexp (w, snd st) (OStat x SMax) o x v _ eq_refl E D'). reflexivity.
           ++ apply number_fits with (a := RZ (SampleMin ys)); [|reflexivity]. unfold LibratoSpec.says. rewrite <- (near_says w (OStat x SMin) x v _ N E D eq_refl eq_refl), (read_ok mexp (w, snd st) (OStat x SMin) o x v _ eq_refl E D'). reflexivity.
           ++ destruct (near_stddev w x v _ N E D' ys eq_refl) as (cs & Pc & Sd). exists c, (SampleMean ys), (SampleStdDev ys), cs. split; [says_ E D|]. split; [exact Me|split; [exact Pc|split; [exact Sd|reflexivity]]].
        -- apply Forall2_app.
           ++ clear - H. induction H as [|p g ps gs (q & Sq & ->) _ IH]; cbn [map]; constructor; auto. fits_.
              ** eexists. split; [reflexivity|]. eexists. split; [reflexivity|]. destruct (unpad_pad 2 (fmt_f 0 (fmul p (f_of_int 100))) (clean_fmt_f _ _)) as (U & L). rewrite U. split; [apply shows_fmt_f|exact L].
              ** apply number_fits with (a := RF q); [exact Sq|reflexivity].
           ++ constructor; [|constructor; [|constructor; [|constructor]]]; fits_; (eapply number_fits; [says_ E D|reflexivity]).
      * intros _ _ p Hp. clear - H Hp. induction H as [|p' g ps gs (q & Sq & _) _ IH]; [contradiction|]. destruct Hp as [<-|Hp]; eauto.
    + rewrite (bind_panic _ _ _ _ _ _ Er). do 2 eexists. split; [reflexivity|]. split; [exact N'|]. split; [now right|]. split; [reflexivity|exact H].
Qed.
Lemma measure_run nm v x w : inv st -> nth_error (snd st) x = Some v -> vok (heap (fst st)) v -> is_metric v = true -> near w ->
  exists w' r, measure sq self nm v o w = (w', r) /\ near w' /\ measured nm x (cls v) r.
Proof.
  intros I E V Mt N. destruct (cls v) eqn:C; unfold is_metric in Mt; rewrite C in Mt; try discriminate Mt.
  4: { unfold measure. rewrite C. do 2 eexists. split; [reflexivity|]. split; [exact N|]. split; [constructor|split; [constructor|intros [|]; discriminate]]. }
  all: assert (Rd : readable v = true) by (destruct v; try discriminate C; reflexivity); destruct (vdata_ok o (fst st) v) as (d & D); [apply I|exact V|exact Rd|]; pose proof (kind_vdata _ _ _ _ D) as K; rewrite C in K; destruct d; try discriminate K.
  - eapply measure_counter; eauto.
  - eapply measure_gauge; eauto.
  - eapply measure_gaugef; eauto.
  - eapply measure_hist; eauto. destruct v; try discriminate C; cbn [vdata] in D; (destruct (hdata _ _) as [[]|]; [|discriminate D]); injection D as <- <-; reflexivity.
  - eapply measure_meter; eauto. destruct v; try discriminate C; cbn [vdata] in D; (destruct (mdata _ _); [|discriminate D]); injection D as <-; reflexivity.
  - eapply measure_timer; eauto. destruct v; try discriminate C; cbn [vdata] in D; (destruct (tdata _ _) as [[[]]|]; [|discriminate D]); injection D as <- <- <-; reflexivity.
Qed.

(** ** all metrics *)
Variable at_ : string -> nat.
Definition fitting (xe : nat * entry) (m : measurement) : Prop := fits (fst xe) (snd xe) m.
Definition table_of (table : string -> nat -> class -> bool -> list entry) (es : list (string * val)) : list (nat * entry) :=
  flat_map (fun kv => map (pair (at_ (fst kv))) (table (full_name self (fst kv)) (at_ (fst kv)) (cls (snd kv)) (counted mexp st o at_ (fst kv)))) es.
Lemma fitting_pairs x l m : Forall2 (fits x) l m -> Forall2 fitting (map (pair x) l) m.
Proof. induction 1; cbn [map]; constructor; auto. Qed.
Definition refuses (nm : string) (k : class) (msg : string) : Prop :=
  (k = CHist \/ k = CTimer) /\ counted mexp st o at_ nm = true /\ exists p, In p (percentiles self) /\ snd (step mexp st (OPercentile (at_ nm) p, o)) = Some (Panic msg).
Lemma measure_each_run es : inv st -> Forall (fun kv => is_metric (snd kv) = true /\ vok (heap (fst st)) (snd kv) /\ nth_error (snd st) (at_ (fst kv)) = Some (snd kv)) es -> forall w, near w ->
  exists w' r, measure_each sq self es o w = (w', r) /\ near w' /\
    match r with
    | Ok (gs, cs) =>
      Forall2 fitting (table_of (gauge_entries (percentiles self) (timer_attributes self)) es) gs /\ Forall2 fitting (table_of counter_entries es) cs /\
      (forall nm v msg, In (nm, v) es -> ~ refuses nm (cls v) msg)
    | Panic msg => exists nm v, In (nm, v) es /\ refuses nm (cls v) msg
    end.
Proof.
  intros I. induction es as [|[nm v] es IH]; intros F w N; cbn [measure_each].
  - do 2 eexists. split; [reflexivity|]. split; [exact N|]. split; [constructor|]. split; [constructor|]. intros ? ? ? [].
  - inversion F as [|? ? (Mt & V & E) F']; subst. cbn [fst snd] in *. destruct (measure_run nm v (at_ nm) w I E V Mt N) as (w1 & r1 & M & N1 & H). destruct r1 as [[g c]|msg].
    + rewrite (bind_ok _ _ _ _ _ _ M). destruct (IH F' w1 N1) as (w2 & r2 & M2 & N2 & H2). destruct H as (Hg & Hc & Hp). destruct r2 as [[gs cs]|msg].
      * rewrite (bind_ok _ _ _ _ _ _ M2). do 2 eexists. split; [reflexivity|]. split; [exact N2|]. destruct H2 as (Hgs & Hcs & Hps). unfold table_of. cbn [flat_map fst snd].
        split; [apply Forall2_app; [now apply fitting_pairs|exact Hgs]|]. split; [apply Forall2_app; [now apply fitting_pairs|exact Hcs]|].
        intros nm' v' msg [[= <- <-]|Hi]; [|eapply Hps; eauto]. intros (K & P & p & Hip & S). destruct (Hp K P p Hip) as (q & Sq). unfold LibratoSpec.says in Sq. rewrite S in Sq. discriminate.
      * rewrite (bind_panic _ _ _ _ _ _ M2). do 2 eexists. split; [reflexivity|]. split; [exact N2|]. destruct H2 as (nm' & v' & Hi & R). exists nm', v'. split; [now right|exact R].
    + rewrite (bind_panic _ _ _ _ _ _ M). do 2 eexists. split; [reflexivity|]. split; [exact N1|]. destruct H as (K & P & p & Hp & S). exists nm, v. split; [now left|]. split; [exact K|]. split; [exact P|]. exists p. auto.
Qed.
End Librato.
