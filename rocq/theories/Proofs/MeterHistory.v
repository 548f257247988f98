(** What meters and averages show after any program. *)
From Coq Require Import ZArith List String Bool Lia Arith Permutation.
From Verif.Model Require Import GoInt GoFloat GoBase Stats Uniform ExpDecay Conc Ewma Meter World.
From Verif.Spec Require Import EwmaSpec RegistrySpec MeterHistorySpec.
From Verif.Proofs Require Import IntFacts FloatFacts EwmaSeq WorldBase WorldOps WorldCalls WorldStep WorldFrame RegistryProofs RegistryStep RegistryNew MeterRun TimerPrivate Origin MeterFrame2.
From Verif.Proofs Require MeterFrame TimerHistory.
Import ListNotations.
Local Open Scope nat_scope.
Local Open Scope list_scope.

(** ** single operations *)
Lemma run_snoc a h op : ewma_run (NewEWMA a) (h ++ [op]) = ewma_seq (ewma_run (NewEWMA a) h) op.
Proof. unfold ewma_run. now rewrite fold_left_app. Qed.
Lemma do_mut a h op l o w : nth_error (heap w) l = Some (OEwma (ewma_run (NewEWMA a) h)) ->
  ewma_mut op (VEwma l) o w = (set_heap (lset (heap w) l (OEwma (ewma_run (NewEWMA a) (h ++ [op])))) w, Ok tt).
Proof.
  intros E. cbn [ewma_mut]. unfold ewma_do, bind, load. rewrite E. rewrite run_snoc. unfold ewma_seq.
  destruct (ewma_history a h) as (_ & N & _). specialize (N op). destruct (cseq (ewma_body op) (ewma_run (NewEWMA a) h)) as [[e' r]|]; [|congruence]. reflexivity.
Qed.
Lemma do_rate a h l o w : nth_error (heap w) l = Some (OEwma (ewma_run (NewEWMA a) h)) -> ewma_rate (VEwma l) o w = (w, Ok (per_second a h)).
Proof.
  intros E. cbn [ewma_rate]. unfold ewma_do, bind, load. rewrite E. destruct (ewma_history a h) as (_ & _ & R & _). rewrite R. unfold store, ret.
  rewrite (MeterFrame2.lset_same _ _ _ E). destruct w; reflexivity.
Qed.

(** ** what programs hold *)
Section Hold.
Variable mexp : f64 -> f64.
(** the averages a program holds belong to no meter *)
Definition own_averages (st : state) : Prop := forall l k, In (VEwma l) (snd st) -> tagat (heap (fst st)) k TMeter -> ~ block k l.
Lemma unless_nil_ok stub m o w w' i : unless_nil stub m o w = (w', Ok i) -> (usenil w = true /\ w' = w /\ i = stub) \/ (usenil w = false /\ m o w = (w', Ok i)).
Proof. unfold unless_nil, bind, gets. destruct (usenil w); intros H; [inversion H; auto|auto]. Qed.
(** a new meter, from address [n] *)
Definition meter_block (n : nat) (t : Z) : list obj :=
  [OMeterSnap 0 0 0 0 0; OEwma (NewEWMA (ewma_alpha mexp 1)); OEwma (NewEWMA (ewma_alpha mexp 5)); OEwma (NewEWMA (ewma_alpha mexp 15)); OMeter n (VEwma (n + 1)) (VEwma (n + 2)) (VEwma (n + 3)) t false].
Lemma new_meter_exact o w : usenil w = false -> let n := List.length (heap w) in
  new_meter mexp o w = (MkWorld (heap w ++ meter_block n (o_now o)) (alive w ++ [n + 4]) true false, Ok (VMeter (n + 4))).
Proof.
  intros U n. unfold new_meter, unless_nil, bind, gets, alloc, ask, new_ewma, unless_nil, bind, gets, alloc, ret. rewrite U.
  cbn [usenil set_heap heap alive ticking]. rewrite U. cbn [usenil set_heap heap alive ticking]. rewrite U. cbn [usenil set_heap heap alive ticking]. rewrite U. cbn [usenil set_heap heap alive ticking].
  rewrite ?U. rewrite <- !app_assoc. cbn [app]. rewrite !app_length. cbn [List.length]. fold n. reflexivity.
Qed.
Lemma new_timer_exact o w : usenil w = false -> let n := List.length (heap w) in
  new_timer mexp o w =
    (MkWorld (heap w ++ [OExp (NewExpDecaySample 1028 f_0015 (o_now o)); OHist (VExp n)] ++ meter_block (n + 2) (o_now o) ++ [OTimer (VHist (n + 1)) (VMeter (n + 6))]) (alive w ++ [n + 6]) true false, Ok (VTimer (n + 7))).
Proof.
  intros U n. unfold new_timer.
  assert (E1 : new_exp 1028 f_0015 o w = (set_heap (heap w ++ [OExp (NewExpDecaySample 1028 f_0015 (o_now o))]) w, Ok (VExp n))).
  { unfold new_exp, unless_nil, bind at 1, gets. rewrite U. change (1028 <? 0)%Z with false. cbv iota. unfold bind, ask, alloc, ret. change (Z.to_nat 1028) with 1028. reflexivity. }
  unfold unless_nil, bind at 1, gets. rewrite U. unfold bind at 1. rewrite E1.
  assert (E2 : forall v w, usenil w = false -> new_hist v o w = (set_heap (heap w ++ [OHist v]) w, Ok (VHist (List.length (heap w))))).
  { intros v w0 U0. unfold new_hist, unless_nil, bind at 1, gets. rewrite U0. reflexivity. }
  unfold bind at 1. rewrite E2 by exact U. unfold bind at 1. set (w2 := set_heap _ (set_heap _ _)).
  rewrite (new_meter_exact o w2 U). unfold bind, alloc, ret. cbn [set_heap heap usenil alive ticking]. subst w2. cbn [set_heap heap alive].
  rewrite !app_length. cbn [List.length meter_block]. fold n. unfold set_heap. cbn [heap alive ticking usenil]. rewrite <- !app_assoc. cbn [app].
  rewrite <- !(Nat.add_assoc n). cbn [Nat.add]. reflexivity.
Qed.
Definition aside (v : val) : Prop := match v with VEwma _ | VMeter _ | VTimer _ => False | _ => True end.
Lemma construct_kind ct o w w' i : construct mexp ct o w = (w', Ok i) -> let n := List.length (heap w) in
  aside i \/ (exists a, i = VEwma n /\ heap w' = heap w ++ [OEwma (NewEWMA a)]) \/
  (i = VMeter (n + 4) /\ heap w' = heap w ++ meter_block n (o_now o) /\ alive w' = alive w ++ [n + 4]) \/
  (i = VTimer (n + 7) /\ heap w' = heap w ++ [OExp (NewExpDecaySample 1028 f_0015 (o_now o)); OHist (VExp n)] ++ meter_block (n + 2) (o_now o) ++ [OTimer (VHist (n + 1)) (VMeter (n + 6))] /\ alive w' = alive w ++ [n + 6]) \/
  exists h m, ct = KCustomTimer h m /\ i = VTimer n /\ heap w' = heap w ++ [OTimer h m].
Proof.
  intros C n. destruct ct; cbn [construct] in C; unfold new_uniform, new_exp, new_hist, new_ewma in C.
  all: try (apply unless_nil_ok in C; destruct C as [(U & -> & ->)|(U & C)]; [left; exact Logic.I|]).
  all: try (inversion C; subst; left; exact Logic.I).
  - destruct (size <? 0)%Z; [discriminate|]. inversion C; subst. left; exact Logic.I.
  - destruct (size <? 0)%Z; [discriminate|]. inversion C; subst. left; exact Logic.I.
  - inversion C; subst. right; left. exists alpha. auto.
  - right; right; left. pose proof (new_meter_exact o w U) as X. unfold new_meter, unless_nil in X. unfold bind at 1, gets in X. rewrite U in X. rewrite X in C. inversion C; subst. auto.
  - right; right; right; left. pose proof (new_timer_exact o w U) as X. unfold new_timer, unless_nil at 1 in X. unfold bind at 1, gets at 1 in X. rewrite U in X. rewrite X in C. inversion C; subst. auto.
  - inversion C; subst. do 4 right. exists h, m. auto.
Qed.
Lemma but_reg_tag w1 h l t : but_reg w1 h -> t <> TReg -> tagat h l t -> tagat (heap w1) l t.
Proof.
  intros [->|(l0 & y & es & E & ->)] N (z & Z & Tz); [exists z; auto|]. destruct (Nat.eq_dec l0 l) as [<-|D]; [rewrite lset_nth_eq in Z by (eapply nth_lt; eauto); inversion Z as [Y]; rewrite <- Y in Tz; cbn in Tz; congruence|].
  rewrite lset_nth_neq in Z by auto. exists z; auto.
Qed.
Lemma env_step (st : state) c o : snd (fst (step mexp st (c, o))) = snd st ++ match snd (step mexp st (c, o)) with Some (Ok r) => yields r | _ => [] end.
Proof.
  unfold World.step. cbn [fst snd]. destruct (World.call mexp (snd st) c) as [m|]; [|now rewrite app_nil_r]. destruct (m o (fst st)) as [w' [r|]]; cbn [fst snd]; [auto|now rewrite app_nil_r].
Qed.
Lemma own_step (st : state) c o : inv st -> own_averages st -> own_averages (fst (step mexp st (c, o))).
Proof.
  intros I P l k Hl Tk B. destruct (step_inv mexp st c o I) as (I' & L & _). set (st' := fst (step mexp st (c, o))) in *. pose proof L as (Len & LL & LN).
  assert (New : forall l0, l0 < List.length (heap (fst st)) -> ~ tagat (heap (fst st)) k TMeter -> ~ block k l0).
  { intros l0 L0 N B0. destruct Tk as (y & E & Ty). destruct y; cbn in Ty; try discriminate. destruct (wf_shape _ (proj1 I') _ _ _ _ _ _ _ E) as (_ & _ & _ & Ek).
    destruct (le_lt_dec (List.length (heap (fst st))) k) as [Lk|Lk].
    - pose proof (LN _ _ Lk E) as F. cbn in F. unfold block in B0. lia.
    - apply N. apply nth_error_Some in Lk. destruct (nth_error (heap (fst st)) k) as [z|] eqn:Ez; [|congruence]. destruct (LL _ _ Ez) as (z' & Ez' & X). exists z. split; auto. pose proof (chg_tag _ _ _ _ _ X) as Tg. rewrite E in Ez'. inversion Ez'; subst z'. exact Tg. }
  assert (DT : tagat (heap (fst st)) k TMeter \/ ~ tagat (heap (fst st)) k TMeter).
  { destruct (nth_error (heap (fst st)) k) as [z|] eqn:Ez; [|right; intros (z & Z & _); congruence]. destruct (tag_eqb (tag_of z) TMeter) eqn:TE; [left; exists z; split; auto; destruct z; cbn in TE; try discriminate; reflexivity|right; intros (z' & Z & Tz); rewrite Ez in Z; inversion Z; subst; rewrite Tz in TE; discriminate]. }
  assert (Old : In (VEwma l) (snd st) -> False).
  { intros H. pose proof (proj2 I) as V. rewrite Forall_forall in V. pose proof (V _ H) as Vl. cbn in Vl. destruct Vl as (y & E & _). destruct DT as [DT|DT]; [exact (P _ _ H DT B)|]. apply (New l); auto. eapply nth_lt; eauto. }
  unfold st' in Hl. rewrite env_step in Hl. apply in_app_iff in Hl. destruct Hl as [Hl|Hl]; [auto|]. destruct (snd (step mexp st (c, o))) as [[r|]|] eqn:R; try contradiction.
  pose proof (yields_origin mexp st c o r I R) as O. rewrite Forall_forall in O. destruct (O _ Hl) as [H|[(l0 & n & H)|[H|(nk & ct & w1 & Ek & Ec & _ & H)]]]; [auto| |contradiction|].
  - destruct (registered_vok _ _ _ _ (proj1 I) H) as [_ M]. discriminate.
  - destruct (construct_kind _ _ _ _ _ Ec) as [D|[(a & E & Eh)|[(D & _)|[(D & _)|(h & m & _ & D & _)]]]]; [contradiction| |discriminate|discriminate|discriminate].
    inversion E; subst l. fold st' in H. apply (but_reg_tag _ _ _ _ H) in Tk; [|discriminate]. rewrite Eh in Tk. destruct Tk as (y & Ey & Ty). pose proof (nth_lt _ _ _ Ey) as Lk. rewrite app_length in Lk. cbn in Lk. unfold block in B. lia.
Qed.
Lemma own_init : own_averages state_init.
Proof. intros l k H. cbn in H. destruct H as [H|H]; [discriminate|contradiction]. Qed.
Lemma own_run p : forall st : state, inv st -> own_averages st -> own_averages (run mexp st p).
Proof. induction p as [|[c o] p IH]; intros st I P; [exact P|]. rewrite run_cons. apply IH; [apply step_inv; auto|apply own_step; auto]. Qed.
End Hold.

Section Meter.
Variable mexp : f64 -> f64.
(** meter [k] made at [t0] *)
Variables (k s : nat) (t0 : Z).
Hypothesis KS : k = s + 4.
Definition average (m : Z) (h : list ewma_op) : obj := OEwma (ewma_run (NewEWMA (ewma_alpha mexp m)) h).
Definition published (es : list mevent) : obj :=
  OMeterSnap (wrap64 (tally es)) (float64bits (shown mexp t0 es RK1)) (float64bits (shown mexp t0 es RK5)) (float64bits (shown mexp t0 es RK15)) (float64bits (shown mexp t0 es RKMean)).
Definition avgs (h : list obj) (ops : list ewma_op) : Prop :=
  nth_error h (s + 1) = Some (average 1 ops) /\ nth_error h (s + 2) = Some (average 5 ops) /\ nth_error h (s + 3) = Some (average 15 ops).
Definition parts (h : list obj) (es : list mevent) : Prop := nth_error h s = Some (published es) /\ avgs h (map as_ewma es).

Lemma tally_app es e : tally (es ++ [e]) = (tally es + amount e)%Z.
Proof. unfold tally. rewrite fold_right_app. cbn [fold_right]. induction es as [|x es IH]; cbn [fold_right]; lia. Qed.
Lemma body st n r1 r5 r15 mn es e o w : o_now o = at_time e -> n = wrap64 (tally (es ++ [e])) ->
  nth_error (heap w) s = Some (OMeterSnap n r1 r5 r15 mn) -> avgs (heap w) (map as_ewma es) ->
  exists w', (ewma_mut (as_ewma e) (VEwma (s + 1));; ewma_mut (as_ewma e) (VEwma (s + 2));; ewma_mut (as_ewma e) (VEwma (s + 3));; update_snapshot (MkM s (VEwma (s + 1)) (VEwma (s + 2)) (VEwma (s + 3)) t0 st)) o w = (w', Ok tt) /\
  parts (heap w') (es ++ [e]) /\ (forall l, ~ block k l -> nth_error (heap w') l = nth_error (heap w) l) /\ alive w' = alive w /\ List.length (heap w') = List.length (heap w).
Proof.
  intros Ho Hn Es (E1 & E5 & E15). assert (L1 := nth_lt _ _ _ E1). assert (L5 := nth_lt _ _ _ E5). assert (L15 := nth_lt _ _ _ E15). assert (Ls := nth_lt _ _ _ Es).
  unfold bind at 1. rewrite (do_mut _ _ _ _ _ _ E1).
  set (h1 := lset (heap w) (s + 1) _). assert (A5 : nth_error h1 (s + 2) = Some (average 5 (map as_ewma es))) by (unfold h1; rewrite lset_nth_neq; [auto|lia]).
  unfold bind at 1. rewrite (do_mut _ _ (as_ewma e) (s + 2) o (set_heap h1 w) A5). cbn [heap set_heap].
  set (h2 := lset h1 (s + 2) _). assert (A15 : nth_error h2 (s + 3) = Some (average 15 (map as_ewma es))) by (unfold h2, h1; rewrite !lset_nth_neq; [auto|lia|lia]).
  unfold bind at 1. match goal with |- context [ewma_mut _ (VEwma (s + 3)) o ?w0] => change w0 with (set_heap h2 w) end. rewrite (do_mut _ _ (as_ewma e) (s + 3) o (set_heap h2 w) A15). cbn [heap set_heap].
  set (h3 := lset h2 (s + 3) _). match goal with |- context [update_snapshot _ o ?w0] => change w0 with (set_heap h3 w) end.
  assert (Len : List.length h3 = List.length (heap w)) by (unfold h3, h2, h1; now rewrite !lset_length).
  assert (B : avgs h3 (map as_ewma (es ++ [e]))).
  { rewrite map_app. cbn [map]. unfold h3, h2, h1. repeat split.
    - rewrite !lset_nth_neq by lia. apply lset_nth_eq; auto.
    - rewrite lset_nth_neq by lia. apply lset_nth_eq. rewrite lset_length. auto.
    - apply lset_nth_eq. rewrite !lset_length. auto. }
  assert (Bs : nth_error h3 s = Some (OMeterSnap n r1 r5 r15 mn)) by (unfold h3, h2, h1; rewrite !lset_nth_neq by lia; auto).
  assert (Bo : forall l, ~ block k l -> nth_error h3 l = nth_error (heap w) l) by (intros l Nl; unfold h3, h2, h1; rewrite !lset_nth_neq; unfold block in Nl; try lia; auto).
  clearbody h3. clear h1 h2 A5 A15. pose proof B as (B1 & B5 & B15).
  unfold update_snapshot. cbn [mo_a1 mo_a5 mo_a15 mo_snap mo_start]. unfold bind at 1. rewrite (do_rate _ _ (s + 1) o (set_heap h3 w) B1). unfold bind at 1. rewrite (do_rate _ _ (s + 2) o (set_heap h3 w) B5). unfold bind at 1. rewrite (do_rate _ _ (s + 3) o (set_heap h3 w) B15).
  unfold msnap_get, bind, load, ask, store, ret. cbn [heap set_heap]. rewrite Bs. cbn [s_count]. eexists. split; [reflexivity|]. cbn [heap set_heap alive].
  assert (PB : published (es ++ [e]) = OMeterSnap n (float64bits (per_second (ewma_alpha mexp 1) (map as_ewma (es ++ [e])))) (float64bits (per_second (ewma_alpha mexp 5) (map as_ewma (es ++ [e])))) (float64bits (per_second (ewma_alpha mexp 15) (map as_ewma (es ++ [e])))) (float64bits (fdiv (f_of_int n) (ExpDecay.seconds (time_sub (o_now o) t0))))).
  { unfold published. rewrite <- Hn. cbn [shown]. f_equal. f_equal. unfold mean_rate. destruct (es ++ [e]) as [|x r] eqn:X; [destruct es; discriminate|]. rewrite <- Hn, Ho.
    replace (last r x) with e; auto. destruct es as [|y es]; cbn in X; inversion X; subst; auto. symmetry. apply last_last. }
  unfold parts. rewrite PB. repeat split.
  - apply lset_nth_eq. rewrite Len. auto.
  - rewrite lset_nth_neq by lia. apply B1.
  - rewrite lset_nth_neq by lia. apply B5.
  - rewrite lset_nth_neq by lia. apply B15.
  - intros l Nl. rewrite lset_nth_neq; [apply Bo; auto|]. unfold block in Nl. lia.
  - now rewrite lset_length.
Qed.
Lemma do_mark n es o w : nth_error (heap w) k = Some (OMeter s (VEwma (s + 1)) (VEwma (s + 2)) (VEwma (s + 3)) t0 false) -> parts (heap w) es ->
  exists w', meter_mark n (VMeter k) o w = (w', Ok tt) /\ parts (heap w') (es ++ [EMark n (o_now o)]).
Proof.
  intros K (Es & A). unfold meter_mark, meter_get. unfold bind at 1 2. unfold load. rewrite K. cbn [ret mo_stopped mo_snap mo_a1 mo_a5 mo_a15]. unfold msnap_get. unfold bind at 1 2. unfold load. rewrite Es. unfold published. cbn [ret s_count s_r1 s_r5 s_r15 s_mean].
  unfold bind at 1, store. set (w1 := set_heap _ w).
  destruct (body false (wrap64 (wrap64 (tally es) + n)) (float64bits (shown mexp t0 es RK1)) (float64bits (shown mexp t0 es RK5)) (float64bits (shown mexp t0 es RK15)) (float64bits (shown mexp t0 es RKMean)) es (EMark n (o_now o)) o w1 eq_refl) as (w' & E & P & _).
  - rewrite tally_app. cbn [amount]. now rewrite wrap64_add_l.
  - unfold w1. cbn [heap set_heap]. apply lset_nth_eq. eapply nth_lt; eauto.
  - destruct A as (A1 & A5 & A15). unfold w1, avgs. cbn [heap set_heap]. rewrite !lset_nth_neq by lia. auto.
  - exists w'. split; [exact E|exact P].
Qed.
Lemma do_tick st es o w : nth_error (heap w) k = Some (OMeter s (VEwma (s + 1)) (VEwma (s + 2)) (VEwma (s + 3)) t0 st) -> parts (heap w) es ->
  exists w', meter_tick k o w = (w', Ok tt) /\ parts (heap w') (es ++ [ETick (o_now o)]).
Proof.
  intros K (Es & A). unfold meter_tick, meter_get. unfold bind at 1 2. unfold load. rewrite K. cbn [ret mo_stopped mo_snap mo_a1 mo_a5 mo_a15].
  edestruct (body st) with (e := ETick (o_now o)) as (w' & E & P & _); [| |exact Es|exact A|exists w'; split; [exact E|exact P]]; [reflexivity|]. rewrite tally_app. cbn [amount]. now rewrite Z.add_0_r.
Qed.

(** ** every call *)
Record minv (st : state) (es : list mevent) : Prop := {
  mi_inv : inv st;
  mi_own : own_averages st;
  mi_k : exists stp, nth_error (heap (fst st)) k = Some (OMeter s (VEwma (s + 1)) (VEwma (s + 2)) (VEwma (s + 3)) t0 stp);
  mi_parts : parts (heap (fst st)) es
}.
Lemma parts_Q es h w : parts h es -> Q (block k) h w -> parts (heap w) es.
Proof.
  intros (Es & E1 & E5 & E15) q. assert (B : forall j, j <= 3 -> block k (s + j)) by (intros j Hj; unfold block; lia).
  repeat split; (eapply Q_at; [exact q| |eassumption]); [rewrite <- (Nat.add_0_r s)| | |]; apply B; lia.
Qed.
Lemma block_tags st es : minv st es -> forall l y, block k l -> nth_error (heap (fst st)) l = Some y -> tag_of y = TEwma \/ tag_of y = TMeterSnap.
Proof.
  intros M l y B E. destruct (mi_parts _ _ M) as (Es & E1 & E5 & E15). unfold block in B.
  assert (H : l = s \/ l = s + 1 \/ l = s + 2 \/ l = s + 3) by lia. destruct H as [-> |[-> |[-> | ->]]]; [rewrite Es in E|rewrite E1 in E|rewrite E5 in E|rewrite E15 in E]; inversion E; subst; auto.
Qed.
Lemma alive_meter (st : state) l : inv st -> In l (alive (fst st)) -> exists s a b c t, nth_error (heap (fst st)) l = Some (OMeter s a b c t false).
Proof. intros I H. apply (wf_alive _ (proj1 I)) in H. exact H. Qed.
Lemma other_off st es l : minv st es -> In l (alive (fst st)) -> l <> k -> off (block k) l.
Proof.
  intros M A D i Bl Bk. destruct (alive_meter _ _ (mi_inv _ _ M) A) as (sl & a & b & c & t & El). destruct (mi_k _ _ M) as (stp & Ek). apply D. symmetry.
  exact (blocks_apart _ _ _ _ _ _ _ _ _ _ _ _ _ _ _ i (wf_mtags _ (proj1 (mi_inv _ _ M))) Ek El Bk Bl).
Qed.
(** a call that does not reach the meter *)
Definition misses (st : state) (c : op) : Prop :=
  (forall y v, mark_arg c = Some y -> nth_error (snd st) y = Some v -> meter_of (fst st) v = Some k -> ~ In k (alive (fst st))) /\
  (c = ORound -> ~ In k (alive (fst st))).
Lemma parts_miss st es c o : minv st es -> misses st c -> parts (heap (fst (fst (step mexp st (c, o))))) es.
Proof.
  intros M (H2 & H3). pose proof (mi_inv _ _ M) as I. destruct (mi_k _ _ M) as (stp & Ek).
  assert (S : spares (block k) st c).
  { split; [|split].
    - intros y l _ E. apply (mi_own _ _ M); [eapply nth_error_In; eauto|]. eexists. split; [exact Ek|reflexivity].
    - intros y v k' A E Mv Ak. apply (other_off st es); auto. intros ->. exact (H2 y v A E Mv Ak).
    - intros Hc k' Ak. apply (other_off st es); auto. intros ->. exact (H3 Hc Ak). }
  destruct (mi_parts _ _ M) as (Es & E1 & E5 & E15). assert (B : forall j, j <= 3 -> block k (s + j)) by (intros j Hj; unfold block; lia).
  repeat split; (apply (step_frame mexp (block k) st c o _ _ I (block_tags st es M) S); [|assumption]); [rewrite <- (Nat.add_0_r s)| | |]; apply B; lia.
Qed.
Lemma tick_pd ls : forall o w w' msg, mtags (heap w) -> tick_all ls o w = (w', Panic msg) -> msg = msg_dangling.
Proof.
  induction ls as [|l ls IH]; intros o w w' msg T; cbn [tick_all]; [discriminate|]. unfold bind at 1.
  assert (q : Q (fun _ => False) (heap w) (fst (meter_tick l o w))) by (apply keeps_tick; [exact T|intros i _ F; exact F|apply Q_refl]).
  destruct (meter_tick l o w) as [w1 [[]|m]] eqn:E; cbn [fst] in q.
  - apply IH. apply (Q_mtags _ _ T _ q).
  - intros X. inversion X; subst. revert E. unfold meter_tick, meter_get. unfold bind at 1 2. unfold load. destruct (nth_error (heap w) l) as [y|] eqn:El; [|intros Y; inversion Y; auto].
    destruct y; try (intros Y; inversion Y; auto; fail). destruct (T _ _ _ _ _ _ _ El) as (-> & -> & -> & _). cbn [ret mo_a1 mo_a5 mo_a15].
    match goal with |- ?m0 o w = _ -> _ => assert (G2 : TimerHistory.pd m0) by (do 3 (apply TimerHistory.pd_bind; [apply TimerHistory.pd_ewma_mut|intros ?]); apply TimerHistory.pd_update_snapshot) end. apply G2.
Qed.
Lemma tick_all_app l1 l2 o w : tick_all (l1 ++ l2) o w = (tick_all l1;; tick_all l2) o w.
Proof.
  revert w. induction l1 as [|l l1 IH]; intros w; [reflexivity|]. cbn [app tick_all]. unfold bind. destruct (meter_tick l o w) as [w1 [[]|]]; auto. rewrite IH. reflexivity.
Qed.
Lemma round_parts st es o : minv st es -> In k (alive (fst st)) -> parts (heap (fst (fst (step mexp st (ORound, o))))) (es ++ [ETick (o_now o)]).
Proof.
  intros M A. pose proof (mi_inv _ _ M) as I. pose proof (proj1 I) as W. destruct (mi_k _ _ M) as (stp & Ek). pose proof (wf_mtags _ W) as T.
  pose proof (MeterRun.visit_perm (o_order o) _ (wf_nodup _ W)) as Pm.
  assert (Nd : NoDup (visit (o_order o) (alive (fst st)))) by (eapply Permutation_NoDup; [apply Permutation_sym; exact Pm|apply W]).
  assert (Hk : In k (visit (o_order o) (alive (fst st)))) by (eapply Permutation_in; [apply Permutation_sym; exact Pm|exact A]).
  assert (Hall : forall l, In l (visit (o_order o) (alive (fst st))) -> In l (alive (fst st))) by (intros l; apply Permutation_in; exact Pm).
  assert (Off : forall l, In l (visit (o_order o) (alive (fst st))) -> l <> k -> off (block k) l) by (intros; eapply other_off; eauto).
  unfold World.step. cbn [fst snd World.call]. unfold unit_rv, tick_meters. unfold bind at 1 2 3, gets, ask.
  pose proof (fun w' msg => tick_pd (visit (o_order o) (alive (fst st))) o (fst st) w' msg T) as PD.
  pose proof (step_inv mexp st ORound o I) as (_ & _ & _ & ND). unfold World.step in ND. cbn [fst snd World.call] in ND. unfold unit_rv, tick_meters in ND. unfold bind at 1 2 3, gets, ask in ND.
  destruct (in_split _ _ Hk) as (l1 & l2 & E). rewrite E in *. apply NoDup_remove_2 in Nd. rewrite in_app_iff in Nd.
  assert (q1 : Q (block k) (heap (fst st)) (fst (tick_all l1 o (fst st)))).
  { apply (keeps_tick_all _ _ T); [|apply Q_refl]. intros l Hl. apply Off; [apply in_app_iff; auto|intros ->; tauto]. }
  rewrite tick_all_app in *. unfold bind in PD |- *. unfold bind in ND.
  destruct (tick_all l1 o (fst st)) as [w1 [[]|m1]]; cbn [fst snd] in *.
  2: { exfalso. apply ND. f_equal. f_equal. eapply PD; eauto. }
  pose proof (parts_Q _ _ _ (mi_parts _ _ M) q1) as P1. pose proof (Q_meter' _ _ _ _ _ _ _ _ _ _ q1 Ek) as Ek1.
  destruct (do_tick stp es o w1 Ek1 P1) as (w2 & E2 & P2). cbn [tick_all] in *. unfold bind in PD |- *. unfold bind in ND. rewrite E2 in *.
  assert (Tag2 : mtags (heap w2)).
  { assert (q : Q (fun _ => False) (heap w1) (fst (meter_tick k o w1))) by (apply keeps_tick; [apply (Q_mtags _ _ T _ q1)|intros i _ F; exact F|apply Q_refl]). rewrite E2 in q. apply (Q_mtags _ _ (Q_mtags _ _ T _ q1) _ q). }
  assert (q3 : Q (block k) (heap w2) (fst (tick_all l2 o w2))).
  { apply (keeps_tick_all _ _ Tag2); [|apply Q_refl]. intros l Hl. apply Off; [apply in_app_iff; right; now right|intros ->; tauto]. }
  pose proof (parts_Q _ _ _ P2 q3) as P3. destruct (tick_all l2 o w2) as [w3 [[]|m3]]; exact P3.
Qed.
Lemma timer_step (st : state) c o y l d : c = OUpdate y d \/ c = OTimeEnd y d \/ c = OUpdateSince y d -> nth_error (snd st) y = Some (VTimer l) ->
  exists d', step mexp st (c, o) = match timer_update mexp d' (VTimer l) o (fst st) with (w, Ok _) => ((w, snd st), Some (Ok RUnit)) | (w, Panic msg) => ((w, snd st), Some (Panic msg)) end.
Proof.
  intros [-> |[-> | ->]] E; unfold World.step; cbn [fst snd World.call]; unfold obind, only; rewrite E; cbn [m_update cls class_eqb]; unfold unit_rv, bind at 1;
    [exists d|exists (time_sub (o_now o) d); rewrite end_update|exists (time_sub (o_now o) d); rewrite since_update];
    destruct (timer_update mexp _ (VTimer l) o (fst st)) as [w' [[]|]]; unfold ret; cbn [yields]; rewrite ?app_nil_r; reflexivity.
Qed.
Lemma timer_parts (st : state) es c o y l d : minv st es -> In k (alive (fst st)) -> c = OUpdate y d \/ c = OTimeEnd y d \/ c = OUpdateSince y d -> nth_error (snd st) y = Some (VTimer l) ->
  meter_of (fst st) (VTimer l) = Some k ->
  parts (heap (fst (fst (step mexp st (c, o))))) (es ++ match snd (step mexp st (c, o)) with Some (Ok _) => [EMark 1 (o_now o)] | _ => [] end).
Proof.
  intros M A Hc E Mk. destruct (timer_step st c o y l d Hc E) as (d' & ->). destruct (mi_k _ _ M) as (stp & Ek).
  assert (stp = false) as -> by (destruct (alive_meter _ _ (mi_inv _ _ M) A) as (? & ? & ? & ? & ? & X); congruence).
  cbn [meter_of] in Mk. destruct (nth_error (heap (fst st)) l) as [z|] eqn:El; [|discriminate]. destruct z; try discriminate. destruct m; try discriminate. inversion Mk; subst l0.
  unfold timer_update, timer_get, bind, load. rewrite El. cbn [ret].
  assert (q : Q (block k) (heap (fst st)) (fst (hist_update mexp d' h o (fst st)))) by (apply keeps_hist_update; [exact (block_tags st es M)|apply Q_refl]).
  destruct (hist_update mexp d' h o (fst st)) as [w1 [[]|m1]]; cbn [fst snd] in *; pose proof (parts_Q _ _ _ (mi_parts _ _ M) q) as P1; [|now rewrite app_nil_r].
  destruct (do_mark 1 es o w1 (Q_meter' _ _ _ _ _ _ _ _ _ _ q Ek) P1) as (w2 & -> & P2). exact P2.
Qed.
Lemma mark_parts (st : state) es o y n : minv st es -> In k (alive (fst st)) -> nth_error (snd st) y = Some (VMeter k) -> parts (heap (fst (fst (step mexp st (OMark y n, o))))) (es ++ [EMark n (o_now o)]).
Proof.
  intros M A E. destruct (mi_k _ _ M) as (stp & Ek).
  assert (stp = false) as -> by (destruct (alive_meter _ _ (mi_inv _ _ M) A) as (? & ? & ? & ? & ? & X); congruence).
  unfold World.step. cbn [fst snd World.call]. unfold obind, only. rewrite E. cbn [cls class_eqb]. unfold unit_rv, bind at 1. destruct (do_mark n es o (fst st) Ek (mi_parts _ _ M)) as (w2 & -> & P2). exact P2.
Qed.
Lemma parts_step (st : state) es c o : minv st es -> parts (heap (fst (fst (step mexp st (c, o))))) (es ++ happens k st c (snd (step mexp st (c, o))) (o_now o)).
Proof.
  intros M. unfold happens. destruct (memn k (alive (fst st))) eqn:A.
  2: { rewrite app_nil_r. assert (N : ~ In k (alive (fst st))) by (rewrite <- memn_in; congruence). apply parts_miss; auto. split; auto. }
  apply memn_in in A.
  assert (ST : step mexp st (c, o) = (st, None) -> parts (heap (fst (fst (step mexp st (c, o))))) (es ++ [])) by (intros ->; rewrite app_nil_r; apply M).
  assert (Meet : forall y v, nth_error (snd st) y = Some v -> meter_of (fst st) v = Some k -> v = VMeter k \/ exists l, v = VTimer l).
  { intros y v _ Mv. destruct v; cbn in Mv; try discriminate; [left; congruence|eauto]. }
  assert (TC : forall y d, c = OUpdate y d \/ c = OTimeEnd y d \/ c = OUpdateSince y d -> parts (heap (fst (fst (step mexp st (c, o)))))
     (es ++ match nth_error (snd st) y, snd (step mexp st (c, o)) with Some (VTimer l), Some (Ok _) => match meter_of (fst st) (VTimer l) with Some k' => if Nat.eqb k' k then [EMark 1 (o_now o)] else [] | None => [] end | _, _ => [] end)).
  { intros y d Hc. assert (Ma : mark_arg c = Some y) by (destruct Hc as [-> |[-> | ->]]; reflexivity).
    assert (NR : c <> ORound) by (destruct Hc as [-> |[-> | ->]]; discriminate).
    destruct (nth_error (snd st) y) as [v|] eqn:E.
    2: { apply ST. unfold World.step. destruct Hc as [-> |[-> | ->]]; cbn [fst snd World.call]; unfold obind; rewrite E; destruct st; reflexivity. }
    assert (D : meter_of (fst st) v = Some k \/ meter_of (fst st) v <> Some k) by (destruct (meter_of (fst st) v) as [k'|]; [destruct (Nat.eq_dec k' k); [left|right]; congruence|right; discriminate]).
    destruct D as [Mv|Mv].
    - destruct (Meet y v E Mv) as [-> |(l & ->)].
      + assert (S0 : step mexp st (c, o) = (st, None)) by (unfold World.step; destruct Hc as [-> |[-> | ->]]; cbn [fst snd World.call]; unfold obind, only; rewrite E; destruct st; reflexivity). apply ST. exact S0.
      + rewrite Mv, Nat.eqb_refl. exact (timer_parts st es c o y l d M A Hc E Mv).
    - assert (K0 : parts (heap (fst (fst (step mexp st (c, o))))) es) by (apply parts_miss; auto; split; [intros y' v' E' E'' Mv'; rewrite Ma in E'; inversion E'; subst y'; congruence|intros X; congruence]).
      assert (Z0 : match v, snd (step mexp st (c, o)) with VTimer l, Some (Ok _) => match meter_of (fst st) (VTimer l) with Some k' => if Nat.eqb k' k then [EMark 1 (o_now o)] else [] | None => [] end | _, _ => [] end = []).
      { destruct v; auto. destruct (snd (step mexp st (c, o))) as [[r|]|]; auto. destruct (meter_of (fst st) (VTimer l)) as [k'|]; auto. destruct (Nat.eqb_spec k' k); auto. subst. congruence. }
      rewrite Z0, app_nil_r. exact K0. }
  assert (Mi : mark_arg c = None -> c <> ORound -> parts (heap (fst (fst (step mexp st (c, o))))) (es ++ [])).
  { intros H1 H2. rewrite app_nil_r. apply parts_miss; auto. split; [intros y v E; congruence|intros; congruence]. }
  destruct c; try (apply Mi; [reflexivity|discriminate]).
  - apply round_parts; auto.
  - eapply TC; eauto.
  - destruct (nth_error (snd st) x) as [v|] eqn:E.
    2: { apply ST. unfold World.step. cbn [fst snd World.call]. unfold obind. rewrite E. destruct st; reflexivity. }
    assert (D : meter_of (fst st) v = Some k \/ meter_of (fst st) v <> Some k) by (destruct (meter_of (fst st) v) as [k'|]; [destruct (Nat.eq_dec k' k); [left|right]; congruence|right; discriminate]).
    destruct D as [Mv|Mv].
    + destruct (Meet x v E Mv) as [-> |(l & ->)].
      * rewrite Nat.eqb_refl. apply mark_parts; auto.
      * apply ST. unfold World.step. cbn [fst snd World.call]. unfold obind, only. rewrite E. destruct st; reflexivity.
    + assert (K0 : parts (heap (fst (fst (step mexp st (OMark x n, o))))) es) by (apply parts_miss; auto; split; [intros y' v' E' E'' Mv'; cbn in E'; inversion E'; subst y'; congruence|discriminate]).
      destruct v; try (rewrite app_nil_r; exact K0). destruct (Nat.eqb_spec l k); [subst; cbn in Mv; congruence|]. rewrite app_nil_r; exact K0.
  - eapply TC; eauto.
  - eapply TC; eauto.
Qed.
Lemma minv_step (st : state) es c o : minv st es -> minv (fst (step mexp st (c, o))) (es ++ happens k st c (snd (step mexp st (c, o))) (o_now o)).
Proof.
  intros M. pose proof (mi_inv _ _ M) as I. destruct (step_inv mexp st c o I) as (I' & (_ & L & _) & _). constructor; auto.
  - apply own_step; auto. apply M.
  - destruct (mi_k _ _ M) as (stp & Ek). destruct (L _ _ Ek) as (y & E & X). destruct y; cbn in X; try discriminate X. destruct X as (-> & -> & -> & -> & -> & _). eauto.
  - apply parts_step; auto.
Qed.
Lemma minv_run q : forall st es, minv st es -> minv (run mexp st q) (es ++ happened mexp k st q).
Proof.
  induction q as [|[c o] q IH]; intros st es M; cbn [happened]; [rewrite app_nil_r; exact M|]. rewrite run_cons, app_assoc. apply IH. now apply minv_step.
Qed.
End Meter.

(** ** a new meter *)
Lemma meter_block_at mexp h n t s0 r k : n = List.length h -> k = n + 4 -> s0 = n -> parts mexp s0 t (h ++ meter_block mexp n t ++ r) [] /\
  nth_error (h ++ meter_block mexp n t ++ r) k = Some (OMeter s0 (VEwma (s0 + 1)) (VEwma (s0 + 2)) (VEwma (s0 + 3)) t false).
Proof.
  intros -> -> ->. assert (P0 : published mexp t [] = OMeterSnap 0 0 0 0 0).
  { unfold published, shown, per_second, mean_rate. cbn [map tick_counts tick_ledger fold_left fst float_average tally fold_right]. 
    assert (Z1 : float64bits (fmul f_zero (f_of_int (10 ^ 9))) = 0%Z) by (vm_compute; reflexivity). assert (Z2 : float64bits f_zero = 0%Z) by (vm_compute; reflexivity). rewrite Z1, Z2. reflexivity. }
  unfold parts, avgs, average. rewrite P0. cbn [map]. rewrite !nth_app_r. pose proof (nth_app_r h (meter_block mexp (List.length h) t ++ r) 0) as X0. rewrite Nat.add_0_r in X0. rewrite X0. repeat split.
Qed.
Lemma but_reg_at w1 h l y : but_reg w1 h -> tag_of y <> TReg -> nth_error (heap w1) l = Some y -> nth_error h l = Some y.
Proof.
  intros [->|(l0 & z & es & E & ->)] N H; auto. rewrite lset_nth_neq; auto. intros ->. rewrite E in H. inversion H; subst. cbn in N. congruence.
Qed.
Lemma but_reg_parts mexp w1 h s t es : but_reg w1 h -> parts mexp s t (heap w1) es -> parts mexp s t h es.
Proof. intros B (Es & E1 & E5 & E15). repeat split; (eapply but_reg_at; [exact B| |eassumption]; cbn; discriminate). Qed.
Lemma created mexp (st : state) c o v k : inv st -> own_averages st -> snd (step mexp st (c, o)) = Some (Ok (RVal v)) -> List.length (heap (fst st)) <= k ->
  meter_of (fst (fst (step mexp st (c, o)))) v = Some k -> exists s, k = s + 4 /\ minv mexp k s (o_now o) (fst (step mexp st (c, o))) [] /\ In k (alive (fst (fst (step mexp st (c, o))))).
Proof.
  intros I Ow R Lk Mk. destruct (step_inv mexp st c o I) as (I' & L & _). pose proof (proj1 I) as W.
  assert (Old : vok (heap (fst st)) v -> False).
  { intros V. assert (M0 : meter_of (fst st) v = Some k).
    { rewrite <- Mk. symmetry. destruct v; auto. cbn [meter_of]. destruct V as (y & E & T). destruct y; cbn in T; try discriminate.
      destruct L as (_ & L & _). destruct (L _ _ E) as (y' & E' & X). cbn in X. rewrite E, E'. destruct y'; try discriminate X. inversion X; subst. reflexivity. }
    assert (T : tagat (heap (fst st)) k TMeter).
    { destruct v; cbn in M0; try discriminate; [inversion M0; subst; exact V|]. destruct (nth_error (heap (fst st)) l) as [y|] eqn:E; [|discriminate]. destruct y; try discriminate. destruct m; try discriminate. inversion M0; subst. pose proof (wf_obj _ W _ _ E) as O. cbn in O. tauto. }
    destruct T as (y & E & _). apply nth_lt in E. lia. }
  pose proof (yields_origin mexp st c o _ I R) as O. cbn [yields] in O. inversion O as [|? ? O' _]; subst. destruct O' as [H|[(l0 & n & H)|[H|(nk & ct & w1 & Ek & Ec & Ea & H)]]].
  - exfalso. apply Old. pose proof (proj2 I) as V. rewrite Forall_forall in V. auto.
  - exfalso. apply Old. apply (registered_vok _ _ _ _ W H).
  - destruct v; try contradiction; discriminate.
  - pose proof (own_step mexp st c o I Ow) as Ow'. set (st1 := fst (step mexp st (c, o))) in *.
    destruct (construct_kind _ _ _ _ _ _ Ec) as [D|[(a & -> & _)|[(-> & Eh & El)|[(-> & Eh & El)|(h & m & -> & -> & Eh)]]]]; [destruct v; try contradiction; discriminate|discriminate| | |].
    + cbn in Mk. inversion Mk as [Mk']. exists (List.length (heap (fst st))). rewrite Mk'. split; auto. rewrite <- (app_nil_r (meter_block _ _ _)) in Eh.
      destruct (meter_block_at mexp (heap (fst st)) _ (o_now o) _ [] k eq_refl (eq_sym Mk') eq_refl) as [P K]. rewrite <- Eh in P, K. split.
      * constructor; auto; [exists false; eapply but_reg_at; [exact H|discriminate|exact K]|eapply but_reg_parts; eauto].
      * rewrite Ea, El, Mk'. apply in_app_iff. right. now left.
    + set (n := List.length (heap (fst st))) in *. assert (T : nth_error (heap (fst st1)) (n + 7) = Some (OTimer (VHist (n + 1)) (VMeter (n + 6)))).
      { eapply but_reg_at; [exact H|discriminate|]. rewrite Eh. unfold n. rewrite nth_app_r. reflexivity. }
      cbn [meter_of] in Mk. rewrite T in Mk. inversion Mk as [Mk']. exists (n + 2). split; [lia|]. rewrite Mk'.
      assert (Eh' : heap w1 = (heap (fst st) ++ [OExp (NewExpDecaySample 1028 f_0015 (o_now o)); OHist (VExp n)]) ++ meter_block mexp (n + 2) (o_now o) ++ [OTimer (VHist (n + 1)) (VMeter (n + 6))]) by (rewrite Eh, <- app_assoc; reflexivity).
      destruct (meter_block_at mexp (heap (fst st) ++ [OExp (NewExpDecaySample 1028 f_0015 (o_now o)); OHist (VExp n)]) (n + 2) (o_now o) (n + 2) [OTimer (VHist (n + 1)) (VMeter (n + 6))] k) as [P K]; [rewrite app_length; reflexivity|lia|reflexivity|]. rewrite <- Eh' in P, K. split.
      * constructor; auto; [exists false; eapply but_reg_at; [exact H|discriminate|exact K]|eapply but_reg_parts; eauto].
      * rewrite Ea, El, Mk'. apply in_app_iff. right. now left.
    + exfalso. cbn [meter_of] in Mk. rewrite (but_reg_at _ _ _ (OTimer h m) H ltac:(discriminate)) in Mk by (rewrite Eh; apply nth_snoc). destruct m; try discriminate. inversion Mk; subst l.
      assert (V : vok (heap (fst st)) (VMeter k)).
      { pose proof (proj2 I) as V. rewrite Forall_forall in V. apply V. destruct nk; cbn [ctor_of] in Ek; try discriminate; unfold obind, arg in Ek.
        - destruct (nth_error (snd st) s) as [u|]; [|discriminate]. destruct (cls u); discriminate.
        - destruct (nth_error (snd st) h0) as [u|]; [|discriminate]. destruct (cls u); try discriminate. destruct (nth_error (snd st) m) as [u'|] eqn:Em; [|discriminate]. destruct (cls u'); try discriminate. inversion Ek; subst. eapply nth_error_In; eauto. }
      destruct V as (y & E & _). apply nth_lt in E. lia.
Qed.

(** ** averages of the program's own *)
Section Average.
Variable mexp : f64 -> f64.
Variables (l : nat) (a : f64).
Record ainv (st : state) (h : list ewma_op) : Prop := {
  ai_inv : inv st;
  ai_own : own_averages st;
  ai_env : In (VEwma l) (snd st);
  ai_at : nth_error (heap (fst st)) l = Some (OEwma (ewma_run (NewEWMA a) h))
}.
Lemma at_step (st : state) h c o : ainv st h -> nth_error (heap (fst (fst (step mexp st (c, o))))) l = Some (OEwma (ewma_run (NewEWMA a) (h ++ touched l st c))).
Proof.
  intros A. pose proof (ai_inv _ _ A) as I.
  assert (K : (forall y l', ewma_arg c = Some y -> nth_error (snd st) y = Some (VEwma l') -> l' <> l) -> nth_error (heap (fst (fst (step mexp st (c, o))))) l = Some (OEwma (ewma_run (NewEWMA a) (h ++ [])))).
  { intros N. rewrite app_nil_r. assert (Of : forall k, In k (alive (fst st)) -> off (eq l) k).
    { intros k Ak i B <-. destruct (alive_meter _ _ I Ak) as (? & ? & ? & ? & ? & E). revert B. apply (ai_own _ _ A); [apply A|]. eexists. split; [exact E|reflexivity]. }
    apply (step_frame mexp (eq l) st c o); auto; [|split; [|split]|apply A].
    - intros l0 y <- E. rewrite (ai_at _ _ A) in E. inversion E; subst. now left.
    - intros y l' Ea E <-. exact (N y l Ea E eq_refl).
    - intros y v k _ _ _ Ak. auto.
    - intros _ k Ak. auto. }
  assert (D : forall y, (nth_error (snd st) y = Some (VEwma l) /\ match nth_error (snd st) y with Some (VEwma l') => Nat.eqb l' l | _ => false end = true) \/
     ((forall l', nth_error (snd st) y = Some (VEwma l') -> l' <> l) /\ match nth_error (snd st) y with Some (VEwma l') => Nat.eqb l' l | _ => false end = false)).
  { intros y. destruct (nth_error (snd st) y) as [v|]; [|right; split; [discriminate|reflexivity]]. destruct v; try (right; split; [discriminate|reflexivity]). destruct (Nat.eqb_spec l0 l); [left; subst; auto|right; split; auto; intros l' X; inversion X; subst; auto]. }
  destruct c; cbn [touched]; try (apply K; cbn; discriminate).
  - destruct (D x) as [(E & ->)|(N & ->)]; [|apply K; cbn; intros y l' X; inversion X; subst; auto].
    unfold World.step. cbn [fst snd World.call]. unfold obind. rewrite E. cbn [m_update cls]. unfold unit_rv, bind at 1. rewrite (do_mut _ _ _ _ _ _ (ai_at _ _ A)). cbn [ret fst snd heap set_heap]. apply lset_nth_eq. eapply nth_lt, A.
  - destruct (D x) as [(E & ->)|(N & ->)]; [|apply K; cbn; intros y l' X; inversion X; subst; auto].
    unfold World.step. cbn [fst snd World.call]. unfold obind, only. rewrite E. cbn [cls class_eqb]. unfold unit_rv, bind at 1. rewrite (do_mut _ _ _ _ _ _ (ai_at _ _ A)). cbn [ret fst snd heap set_heap]. apply lset_nth_eq. eapply nth_lt, A.
Qed.
Lemma ainv_run q : forall (st : state) h, ainv st h -> ainv (run mexp st q) (h ++ averaged mexp l st q).
Proof.
  induction q as [|[c o] q IH]; intros st h A; cbn [averaged]; [rewrite app_nil_r; exact A|]. rewrite run_cons, app_assoc. apply IH. constructor.
  - apply step_inv. apply A.
  - apply own_step; apply A.
  - rewrite env_step. apply in_app_iff. left. apply A.
  - now apply at_step.
Qed.
End Average.
