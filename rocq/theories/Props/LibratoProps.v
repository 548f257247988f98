(** Property C49: batches for Librato.  The registry is the value [v] which the program holds at
    [r], and it holds the metric registered as [nm] at [at_ nm]; [now] is the time that the
    ticker delivers. *)
From Coq Require Import ZArith List String Bool Lia.
From Verif.Model Require Import GoInt GoFloat GoBase World Fmt Report Librato.
From Verif.Spec Require Import ApiSpec RegistrySpec GetAllSpec TextSpec ReportSpec LibratoSpec.
From Verif.Proofs Require Import IntFacts WorldBase WorldStep GetAllProofs HealthProofs RegistryProofs ReportProofs LibratoProofs.
From Verif.Props Require Import SnapshotProps HealthProps GetAllProps ReportProps WriteProps.
Import ListNotations.
Local Open Scope Z_scope.
Local Open Scope string_scope.

(** ** the time stamp *)
Theorem C49_time : forall mexp p v o sq self now w' bt, let st := reach mexp p in
  0 < interval_sec self -> 0 <= now / 10 ^ 9 <= max_int64 ->
  build_request sq self now v o (fst st) = (w', Ok bt) ->
  (interval_sec self | b_time bt) /\ b_time bt <= now / 10 ^ 9 < b_time bt + interval_sec self.
Proof.
  intros mexp p v o sq self now w' bt st Hk Hn H. clearbody st. unfold build_request in H. unfold go_div, unix in H. set (k := interval_sec self) in *. set (t := now / 10 ^ 9) in *.
  replace (k =? 0)%Z with false in H by (symmetry; apply Z.eqb_neq; lia). rewrite (bind_ok _ _ _ _ _ _ (eq_refl : lift (Ok (wrap64 (t ÷ k))) o (fst st) = (fst st, Ok (wrap64 (t ÷ k))))) in H.
  assert (Q : t ÷ k = t / k) by (apply Z.quot_div_nonneg; lia). pose proof (Z.div_mod t k). pose proof (Z.mod_pos_bound t k Hk). assert (B : 0 <= t / k <= t) by (split; [apply Z.div_pos; lia|apply Z.div_le_upper_bound; nia]).
  unfold max_int64 in Hn. rewrite Q, (wrap64_id (t / k)) in H by (unfold is_int64, min_int64, max_int64; lia). rewrite wrap64_id in H by (unfold is_int64, min_int64, max_int64; nia).
  destruct (reg_each v o (fst st)) as [w1 [es|msg]] eqn:E; [rewrite (bind_ok _ _ _ _ _ _ E) in H|rewrite (bind_panic _ _ _ _ _ _ E) in H; discriminate].
  destruct (measure_each sq self es o w1) as [w2 [[gs cs]|msg]] eqn:E2; [rewrite (bind_ok _ _ _ _ _ _ E2) in H|rewrite (bind_panic _ _ _ _ _ _ E2) in H; discriminate]. unfold ret in H. injection H as <- <-. cbn [b_time].
  split; [exists (t / k); reflexivity|]. nia.
Qed.
(** an interval below one second: every batch panics *)
Theorem C49_sub_second : forall mexp p v o sq d s ps u now, let st := reach mexp p in
  Z.abs d < 10 ^ 9 -> forall ns, let self := new_reporter d s ps u in
  snd (build_request sq (MkReporter ns (source self) (interval self) (percentiles self) (timer_attributes self) (interval_sec self)) now v o (fst st)) = Panic msg_div0.
Proof.
  intros mexp p v o sq d s ps u now st Hd ns self. unfold self, new_reporter. cbn [interval_sec interval percentiles timer_attributes source]. unfold build_request. cbn [interval_sec].
  assert (Q : d ÷ 10 ^ 9 = 0) by (apply Z.quot_small_iff; lia). rewrite Q. unfold go_div. cbn [Z.eqb]. reflexivity.
Qed.
(** the interval in whole seconds, when it is at least one second *)
Theorem C49_interval : forall d s ps u, 10 ^ 9 <= d -> 0 < interval_sec (new_reporter d s ps u) /\ interval_sec (new_reporter d s ps u) = d / 10 ^ 9.
Proof. intros d s ps u H. cbn [new_reporter interval_sec]. rewrite Z.quot_div_nonneg by lia. split; [|reflexivity]. pose proof (Z.div_le_lower_bound d (10 ^ 9) 1). lia. Qed.

(** ** the measurements *)
Lemma table_entries mexp (st : state) o self at_ table v es : (forall nm i, In (nm, i) es <-> shown st v nm = Some i) ->
  table_of mexp st o self at_ table es = entries_of mexp st o self at_ table v (map fst es).
Proof.
  intros Sh. assert (S : forall nm i, In (nm, i) es -> shown st v nm = Some i) by (intros; now apply Sh). clear Sh. unfold table_of, entries_of. induction es as [|[nm i] es IH]; cbn [flat_map map fst snd]; [reflexivity|].
  rewrite (S nm i (or_introl eq_refl)), IH; [reflexivity|]. intros n j H. apply S. now right.
Qed.
Lemma librato_run mexp (st : state) r v b o sq self at_ now : inv st -> nth_error (snd st) r = Some v -> base v = Some b ->
  (forall nm i, shown st v nm = Some i -> nth_error (snd st) (at_ nm) = Some i) -> interval_sec self <> 0 ->
  exists w' res, build_request sq self now v o (fst st) = (w', res) /\
    match res with
    | Ok bt => (exists names, visits st v names /\ Forall2 (fitting sq mexp st o self) (gauges_of mexp st o self at_ v names) (b_gauges bt) /\ Forall2 (fitting sq mexp st o self) (counters_of mexp st o self at_ v names) (b_counters bt)) /\
        b_source bt = source self /\ ~ percentile_panics mexp st o self at_ v
    | Panic _ => percentile_panics mexp st o self at_ v
    end.
Proof.
  intros I E B At K. destruct (reg_each_run st v b o I (held_vok st r v I E) B) as (es & R & ND & Sh & F). unfold build_request, go_div. rewrite (proj2 (Z.eqb_neq _ _) K).
  match goal with |- exists _ _, bind (lift (Ok ?z)) _ _ _ = _ /\ _ => rewrite (bind_ok _ _ _ _ _ _ (eq_refl : lift (Ok z) o (fst st) = (fst st, Ok z))) end. rewrite (bind_ok _ _ _ _ _ _ R).
  destruct (measure_each_run sq mexp st o self at_ es I) with (w := fst st) as (w' & r' & M & _ & H).
  - rewrite Forall_forall in *. intros [nm i] Hi. destruct (F _ Hi) as (H1 & H2). cbn [fst snd] in *. split; [exact H1|]. split; [exact H2|]. apply At, Sh, Hi.
  - apply near_start.
  - destruct r' as [[gs cs]|msg].
    + rewrite (bind_ok _ _ _ _ _ _ M). do 2 eexists. split; [reflexivity|]. cbn [b_gauges b_counters b_source]. destruct H as (Hg & Hc & Hp). split; [|split; [reflexivity|]].
      * exists (map fst es). split; [now apply es_visits|]. unfold gauges_of, counters_of. rewrite <- !table_entries by exact Sh. auto.
      * intros (nm & i & p & msg & Si & Ki & Ci & Pi & Ai). apply (Hp nm i msg); [now apply Sh|]. split; [exact Ki|]. split; [exact Ci|eauto].
    + rewrite (bind_panic _ _ _ _ _ _ M). do 2 eexists. split; [reflexivity|]. destruct H as (nm & i & Hi & Ki & Ci & p & Hp & S). exists nm, i, p, msg. split; [now apply Sh|auto].
Qed.
(** every metric contributes exactly the measurements of the tables, whose values are what the
    accessors answer *)
Theorem C49_batch : forall mexp p r v b o sq self at_ now w' bt, let st := reach mexp p in
  nth_error (snd st) r = Some v -> base v = Some b ->
  (forall nm i, shown st v nm = Some i -> nth_error (snd st) (at_ nm) = Some i) ->
  build_request sq self now v o (fst st) = (w', Ok bt) ->
  b_source bt = source self /\ exists names, visits st v names /\
    Forall2 (fun xe m => fits sq mexp st o self (fst xe) (snd xe) m) (gauges_of mexp st o self at_ v names) (b_gauges bt) /\
    Forall2 (fun xe m => fits sq mexp st o self (fst xe) (snd xe) m) (counters_of mexp st o self at_ v names) (b_counters bt).
Proof.
  intros mexp p r v b o sq self at_ now w' bt st. assert (I : inv st) by exact (reach_inv mexp p). clearbody st. intros E B At H.
  assert (K : interval_sec self <> 0). { intros K. unfold build_request, go_div in H. rewrite K in H. discriminate. }
  destruct (librato_run mexp st r v b o sq self at_ now I E B At K) as (w1 & res & H1 & X). rewrite H in H1. injection H1 as <- <-. destruct X as (X & S & _). auto.
Qed.
(** making a batch fails if and only if the interval is below one second, or a percentile of a
    non-empty histogram or timer cannot be computed *)
Theorem C49_panics_iff : forall mexp p r v b o sq self at_ now, let st := reach mexp p in
  nth_error (snd st) r = Some v -> base v = Some b ->
  (forall nm i, shown st v nm = Some i -> nth_error (snd st) (at_ nm) = Some i) ->
  (exists msg, snd (build_request sq self now v o (fst st)) = Panic msg) <-> interval_sec self = 0 \/ percentile_panics mexp st o self at_ v.
Proof.
  intros mexp p r v b o sq self at_ now st. assert (I : inv st) by exact (reach_inv mexp p). clearbody st. intros E B At. destruct (Z.eq_dec (interval_sec self) 0) as [K|K].
  - split; [auto|]. intros _. unfold build_request, go_div. rewrite K. eexists. reflexivity.
  - destruct (librato_run mexp st r v b o sq self at_ now I E B At K) as (w1 & res & H1 & X). rewrite H1. cbn [snd]. destruct res as [bt|msg].
    + split; [intros (m & H); discriminate|]. intros [H|H]; [contradiction|]. destruct X as (_ & _ & X). contradiction.
    + split; [auto|]. intros _. eauto.
Qed.

(** ** how many measurements *)
Definition gauges_number (n : nat) (k : class) (positive : bool) : nat :=
  match k with CGauge | CGaugeF => 1 | CMeter => 3 | CHist => if positive then 1 + n else 0 | CTimer => if positive then 4 + n else 0 | _ => 0 end%nat.
Definition counters_number (k : class) (positive : bool) : nat :=
  match k with CCounter => if positive then 1 else 0 | CMeter | CTimer => 1 | _ => 0 end%nat.
Definition total (st : state) (v : val) (number : string -> class -> nat) (names : list string) : nat :=
  list_sum (map (fun nm => match shown st v nm with Some i => number nm (cls i) | None => 0%nat end) names).
Lemma entries_length mexp (st : state) o self at_ table (number : class -> bool -> nat) v names : (forall f x k b, List.length (table f x k b) = number k b) ->
  List.length (entries_of mexp st o self at_ table v names) = total st v (fun nm k => number k (counted mexp st o at_ nm)) names.
Proof.
  intros L. unfold entries_of, total. induction names as [|nm names IH]; cbn [flat_map map list_sum fold_right]; [reflexivity|]. rewrite app_length. unfold list_sum in IH. rewrite IH. f_equal. destruct (shown st v nm); [|reflexivity]. now rewrite map_length, L.
Qed.
Lemma forall2_len {A B} (R : A -> B -> Prop) l m : Forall2 R l m -> List.length l = List.length m.
Proof. induction 1; cbn; congruence. Qed.
Theorem C49_numbers : forall mexp p r v b o sq self at_ now w' bt, let st := reach mexp p in
  nth_error (snd st) r = Some v -> base v = Some b ->
  (forall nm i, shown st v nm = Some i -> nth_error (snd st) (at_ nm) = Some i) ->
  build_request sq self now v o (fst st) = (w', Ok bt) ->
  exists names, visits st v names /\
    List.length (b_gauges bt) = total st v (fun nm k => gauges_number (List.length (percentiles self)) k (counted mexp st o at_ nm)) names /\
    List.length (b_counters bt) = total st v (fun nm k => counters_number k (counted mexp st o at_ nm)) names.
Proof.
  intros mexp p r v b o sq self at_ now w' bt st E B At H. destruct (C49_batch mexp p r v b o sq self at_ now w' bt E B At H) as (_ & names & V & G & C). fold st in V, G, C. exists names. split; [exact V|].
  apply forall2_len in G, C. rewrite <- G, <- C. unfold gauges_of, counters_of. split; apply entries_length; intros f x k q; destruct k; cbn [gauge_entries counter_entries gauges_number counters_number]; try destruct q; cbn [List.length]; rewrite ?app_length, ?map_length; cbn [List.length]; lia.
Qed.

(** ** example: a counter "c" that is zero, a histogram "h" with values 1 and 3, an empty one "e", a
    timer "t" with one event; every ten seconds, at 123.4 s *)
Local Open Scope nat_scope.
Definition sold : list (op * orc) := map (fun c => (c, hurt))
  [ONew NCounter; ORegister 0 "c" 1; ONew (NUniform 9); ONew (NHist 2); OUpdate 3 1; OUpdate 3 3; ORegister 0 "h" 3;
   ONew (NUniform 9); ONew (NHist 4); ORegister 0 "e" 5; ONew NTimer; OUpdate 6 7; ORegister 0 "t" 6]%Z.
Definition at_s (nm : string) : nat := if String.eqb nm "c" then 1 else if String.eqb nm "h" then 3 else if String.eqb nm "e" then 5 else 6.
Definition ten (ps : list f64) : reporter := let r := new_reporter (10 ^ 10) "src" ps 1000000 in MkReporter "ns" (source r) (interval r) (percentiles r) (timer_attributes r) (interval_sec r).
Definition name_of (m : measurement) : string := match lookup "name" m with Some (LS s) => s | _ => "" end.
Definition built (ps : list f64) : res (Z * list string * list string) :=
  match snd (build_request (fun x => fmul x x) (ten ps) (1234 * 10 ^ 8) (VReg 0) hurt (fst (reach one_exp sold))) with
  | Ok b => Ok (b_time b, map name_of (b_gauges b), map name_of (b_counters b))
  | Panic m => Panic m
  end.
Lemma sold_shown nm : shown (reach one_exp sold) (VReg 0) nm =
  if String.eqb "c" nm then Some (VCounter 2) else if String.eqb "h" nm then Some (VHist 5) else if String.eqb "e" nm then Some (VHist 8) else if String.eqb "t" nm then Some (VTimer 16) else None.
Proof.
  unfold shown. cbn [base]. change (full (VReg 0) "") with "". assert (P : String.prefix "" nm = true) by (destruct nm; reflexivity). rewrite P. unfold registered.
  replace (nth_error (heap (fst (reach one_exp sold))) 0) with (Some (OReg [("c", VCounter 2); ("h", VHist 5); ("e", VHist 8); ("t", VTimer 16)])) by (vm_compute; reflexivity). unfold find. cbn [fst snd].
  destruct (String.eqb "c" nm); [reflexivity|]. destruct (String.eqb "h" nm); [reflexivity|]. destruct (String.eqb "e" nm); [reflexivity|]. destruct (String.eqb "t" nm); reflexivity.
Qed.
Example C49_example : let st := reach one_exp sold in
  nth_error (snd st) 0 = Some (VReg 0) /\ (forall nm i, shown st (VReg 0) nm = Some i -> nth_error (snd st) (at_s nm) = Some i) /\
  built [ratio 1 2] = Ok (120%Z, ["ns.h.hist"; "ns.h.hist.0.50"; "ns.t.timer.mean"; "ns.t.timer.50"; "ns.t.rate.1min"; "ns.t.rate.5min"; "ns.t.rate.15min"], ["ns.t"]) /\
  counted one_exp st hurt at_s "c" = false /\ counted one_exp st hurt at_s "e" = false /\ counted one_exp st hurt at_s "h" = true /\
  percentile_panics one_exp st hurt (ten [f_nan]) at_s (VReg 0) /\ (exists msg, built [f_nan] = Panic msg).
Proof.
  cbv zeta. split; [vm_compute; reflexivity|]. split; [|split; [vm_compute; reflexivity|split; [vm_compute; reflexivity|split; [vm_compute; reflexivity|split; [vm_compute; reflexivity|split]]]]].
  - intros nm i S. rewrite sold_shown in S. destruct (String.eqb_spec "c" nm) as [<-|_]; [injection S as <-; vm_compute; reflexivity|]. destruct (String.eqb_spec "h" nm) as [<-|_]; [injection S as <-; vm_compute; reflexivity|].
    destruct (String.eqb_spec "e" nm) as [<-|_]; [injection S as <-; vm_compute; reflexivity|]. destruct (String.eqb_spec "t" nm) as [<-|_]; [injection S as <-; vm_compute; reflexivity|discriminate].
  - exists "h", (VHist 5), f_nan. eexists. split; [rewrite sold_shown; reflexivity|]. split; [now left|]. split; [vm_compute; reflexivity|]. split; [now left|vm_compute; reflexivity].
  - eexists. vm_compute. reflexivity.
Qed.
