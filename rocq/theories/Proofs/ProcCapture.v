(** Facts used by Props/RuntimeProps.v: the items of a capture, the pauses, samples. *)
From Coq Require Import ZArith List String Bool Lia Arith Permutation.
From Verif.Model Require Import GoInt GoFloat GoBase Stats Uniform ExpDecay Conc CounterGauge Ewma Meter World Runtime.
From Verif.Spec Require Import RegistrySpec RuntimeSpec.
From Verif.Proofs Require Import IntFacts WorldBase WorldStep WorldFrame WorldSnap WorldReads RegistryProofs RegistryStep RegistryNew ExpDecayProofs ExpDecayHeap TimerHistory RuntimeProofs ProcProofs ProcHistory.
Import ListNotations.
Local Open Scope nat_scope.
Local Open Scope list_scope.

(** ** the item of a field *)
Lemma once (B A F : list (string * payload)) f q c : NoDup (map fst (B ++ A)) -> (forall i, In i F -> fst i = c) -> f <> c -> In (f, q) (B ++ A) ->
  exists i1 i2, B ++ F ++ A = i1 ++ (f, q) :: i2 /\ ~ In f (map fst (i1 ++ i2)) /\ (forall i, In i (i1 ++ i2) -> In i (B ++ F ++ A)).
Proof.
  intros ND HF Nc Hin.
  assert (X : forall L1 L2, NoDup (map fst (L1 ++ (f, q) :: L2)) -> ~ In f (map fst (L1 ++ L2))).
  { intros L1 L2 N. rewrite map_app in *. cbn [map fst] in N. apply NoDup_remove_2 in N. exact N. }
  assert (NF : ~ In f (map fst F)) by (intros Z; apply in_map_iff in Z; destruct Z as (i & E & Hi); apply HF in Hi; congruence).
  apply in_app_or in Hin. destruct Hin as [Hin|Hin]; apply in_split in Hin; destruct Hin as (L1 & L2 & ->).
  - exists L1, (L2 ++ F ++ A). rewrite <- !app_assoc in ND |- *. cbn [app] in *. split; [reflexivity|]. specialize (X L1 (L2 ++ A) ND). split.
    + rewrite !map_app, !in_app_iff in *. tauto.
    + intros i. rewrite !in_app_iff. cbn [In]. rewrite !in_app_iff. tauto.
  - exists (B ++ F ++ L1), L2. split; [now rewrite <- !app_assoc|]. rewrite app_assoc in ND. specialize (X (B ++ L1) L2 ND). split.
    + rewrite !map_app, !in_app_iff in *. tauto.
    + intros i. rewrite !in_app_iff. cbn [In]. tauto.
Qed.
Lemma rt_once p r t f q : f <> "PauseNs"%string -> In (f, q) (rt_before p r t ++ rt_after p r) ->
  exists i1 i2, rt_items p r t = i1 ++ (f, q) :: i2 /\ ~ In f (map fst (i1 ++ i2)) /\ Forall (item_ok rt_create) (i1 ++ i2).
Proof.
  intros N H. destruct (once (rt_before p r t) (rt_after p r) (feed "PauseNs" (pauses (pv_numGC p) (rd_mem r))) f q "PauseNs") as (i1 & i2 & E & Nn & Sub); auto.
  - apply strs_nodup. reflexivity.
  - intros i Hi. unfold feed in Hi. apply in_map_iff in Hi. destruct Hi as (n & <- & _). reflexivity.
  - exists i1, i2. split; [exact E|]. split; [exact Nn|]. apply Forall_forall. intros i Hi. pose proof (rt_items_ok p r t) as K. rewrite Forall_forall in K. apply K. apply Sub. exact Hi.
Qed.
Lemma dbg_once last g t f q : f <> "Pause"%string -> In (f, q) ([("ReadGCStats"%string, US t); ("LastGC"%string, UZ (gc_LastGC g)); ("NumGC"%string, UZ (gc_NumGC g))] ++ [("PauseTotal"%string, UZ (gc_PauseTotal g))]) ->
  exists i1 i2, dbg_items last g t = i1 ++ (f, q) :: i2 /\ ~ In f (map fst (i1 ++ i2)) /\ Forall (item_ok dbg_create) (i1 ++ i2).
Proof.
  intros N H. destruct (once [("ReadGCStats"%string, US t); ("LastGC"%string, UZ (gc_LastGC g)); ("NumGC"%string, UZ (gc_NumGC g))] [("PauseTotal"%string, UZ (gc_PauseTotal g))] (feed "Pause" (dbg_feed last g)) f q "Pause") as (i1 & i2 & E & Nn & Sub); auto.
  - apply strs_nodup. reflexivity.
  - intros i Hi. unfold feed in Hi. apply in_map_iff in Hi. destruct Hi as (n & <- & _). reflexivity.
  - exists i1, i2. split; [exact E|]. split; [exact Nn|]. apply Forall_forall. intros i Hi. pose proof (dbg_items_ok last g t) as K. rewrite Forall_forall in K. apply K. apply Sub. exact Hi.
Qed.
Lemma kind_of_field (cr : list (string * mk)) f k k' : NoDup (map fst cr) -> In (f, k) cr -> In (f, k') cr -> k = k'.
Proof.
  induction cr as [|[a b] cr IH]; intros ND H H'; [contradiction|]. cbn [map fst] in ND. inversion ND; subst. destruct H as [H|H], H' as [H'|H'].
  - congruence.
  - injection H as -> ->. exfalso. apply H2. change f with (fst (f, k')). now apply in_map.
  - injection H' as -> ->. exfalso. apply H2. change f with (fst (f, k)). now apply in_map.
  - auto.
Qed.

Section Shown.
Variable mexp : f64 -> f64.
Notation preach := (preach mexp).
Lemma value_gauge (st : state) x l n o : nth_error (snd st) x = Some (VGauge l) -> nth_error (heap (fst st)) l = Some (OGauge n) -> snd (step mexp st (OValue x, o)) = Some (Ok (RZ n)).
Proof. intros E El. unfold World.step. cbn [fst snd World.call]. unfold obind. rewrite E. cbn [m_value cls]. unfold z_rv, gauge_value, g_do. unfold bind, load. rewrite El. reflexivity. Qed.
Lemma value_gaugef (st : state) x l b o : nth_error (snd st) x = Some (VGaugeF l) -> nth_error (heap (fst st)) l = Some (OGaugeF b) -> snd (step mexp st (OValue x, o)) = Some (Ok (RF (float64frombits b))).
Proof. intros E El. unfold World.step. cbn [fst snd World.call]. unfold obind. rewrite E. cbn [m_value cls]. unfold f_rv, gaugef_value, gf_do. unfold bind, load. rewrite El. reflexivity. Qed.
Lemma in_env (st : state) x v : nth_error (snd st) x = Some v -> In v (snd st). Proof. apply nth_error_In. Qed.
Lemma reach_state h : inv (p_state (preach h)). Proof. exact (proj1 (preach_PI mexp h)). Qed.

(** the object of a metric after a capture *)
Lemma captured_cell h name f k g r rd os q : runtime_metric mexp h name g -> In (name, f) rt_register -> In (f, k) rt_create -> f <> "PauseNs"%string ->
  result mexp h (PCaptureRuntime r rd) os <> None ->
  In (f, q) (rt_before (rt_prev (preach h)) rd (o_now (os 0)) ++ rt_after (rt_prev (preach h)) rd) ->
  exists l y j, own (fst (p_state (preach h))) g = Some l /\ nth_error (heap (fst (p_state (preach h)))) l = Some y /\ cell y /\
    match k with MGauge => exists n, y = OGauge n | MGaugeF => exists b, y = OGaugeF b | _ => exists s, y = OExp s /\ swf N0 s end /\
    nth_error (heap (fst (p_state (next mexp h (PCaptureRuntime r rd) os)))) l = Some (app1 mexp y q (os (S j))) /\
    (forall i1 i2, rt_items (rt_prev (preach h)) rd (o_now (os 0)) = i1 ++ (f, q) :: i2 -> ~ In f (map fst (i1 ++ i2)) -> Forall (item_ok rt_create) (i1 ++ i2) -> nth_error (heap (fst (p_state (next mexp h (PCaptureRuntime r rd) os)))) l = Some (app1 mexp y q (os (S (List.length i1))))) /\
    snd (p_state (next mexp h (PCaptureRuntime r rd) os)) = snd (p_state (preach h)) /\
    made (fst (p_state (next mexp h (PCaptureRuntime r rd) os))) k g /\ own (fst (p_state (next mexp h (PCaptureRuntime r rd) os))) g = Some l.
Proof.
  intros M Hn Hk NP Ok Hin. destruct (metric_at mexp h name f k g M Hn Hk) as (D & E & Mg). pose proof (preach_PI mexp h) as P.
  destruct (made_own _ _ _ Mg) as (l & O). destruct (made_cell (p_state (preach h)) k g l (proj1 P) (in_env _ _ _ E) Mg O) as (y & Ey & Cy & Ky).
  destruct (capture_step mexp (preach h) r rd os P D (capture_ok_registry mexp _ _ _ _ Ok)) as (w' & Ep & _ & _ & C & Gr).
  unfold next. rewrite preach_snoc, Ep. cbn [fst p_state snd].
  assert (OW : owner (p_state (preach h)) (at_field (rt_tab (preach h)) f) = Some l) by (unfold owner; rewrite E; exact O).
  pose proof P as (_ & T & _). rewrite D in T.
  assert (S : forall i1 i2, rt_items (rt_prev (preach h)) rd (o_now (os 0)) = i1 ++ (f, q) :: i2 -> ~ In f (map fst (i1 ++ i2)) -> Forall (item_ok rt_create) (i1 ++ i2) -> nth_error (heap w') l = Some (app1 mexp y q (os (S (List.length i1))))).
  { intros i1 i2 Ei Nf Fo. rewrite (C l y Ey Cy), Ei. f_equal. rewrite (eff_single mexp (p_state (preach h)) rt_create (rt_tab (preach h)) l f q i1 i2 (fun n => os (S n)) y T ltac:(change f with (fst (f, k)); now apply in_map) OW Fo Nf). reflexivity. }
  destruct (rt_once _ _ _ _ _ NP Hin) as (i1 & i2 & Ei & Nf & Fo).
  exists l, y, (List.length i1). destruct Gr as [_ Gm]. destruct (Gm k g Mg) as [M' O']. cbn [fst] in *. repeat (split; [solve [eauto]|]). congruence.
Qed.
Lemma dbg_captured_cell h name f k g r rd os q : debug_metric mexp h name g -> In (name, f) dbg_register -> In (f, k) dbg_create -> f <> "Pause"%string ->
  result mexp h (PCaptureDebug r rd) os <> None ->
  In (f, q) ([("ReadGCStats"%string, US (o_now (os 0))); ("LastGC"%string, UZ (gc_LastGC rd)); ("NumGC"%string, UZ (gc_NumGC rd))] ++ [("PauseTotal"%string, UZ (gc_PauseTotal rd))]) ->
  exists l y, own (fst (p_state (preach h))) g = Some l /\ nth_error (heap (fst (p_state (preach h)))) l = Some y /\ cell y /\
    match k with MGauge => exists n, y = OGauge n | MGaugeF => exists b, y = OGaugeF b | _ => exists s, y = OExp s /\ swf N0 s end /\
    (forall i1 i2, dbg_items (dbg_last (preach h)) rd (o_now (os 0)) = i1 ++ (f, q) :: i2 -> ~ In f (map fst (i1 ++ i2)) -> Forall (item_ok dbg_create) (i1 ++ i2) -> nth_error (heap (fst (p_state (next mexp h (PCaptureDebug r rd) os)))) l = Some (app1 mexp y q (os (S (List.length i1))))) /\
    snd (p_state (next mexp h (PCaptureDebug r rd) os)) = snd (p_state (preach h)) /\
    made (fst (p_state (next mexp h (PCaptureDebug r rd) os))) k g /\ own (fst (p_state (next mexp h (PCaptureDebug r rd) os))) g = Some l.
Proof.
  intros M Hn Hk NP Ok Hin. destruct (dbg_metric_at mexp h name f k g M Hn Hk) as (D & E & Mg). pose proof (preach_PI mexp h) as P.
  destruct (made_own _ _ _ Mg) as (l & O). destruct (made_cell (p_state (preach h)) k g l (proj1 P) (in_env _ _ _ E) Mg O) as (y & Ey & Cy & Ky).
  destruct (dbg_capture_step mexp (preach h) r rd os P D (dbg_capture_ok_registry mexp _ _ _ _ Ok)) as (w' & Ep & _ & _ & C & Gr).
  unfold next. rewrite preach_snoc, Ep. cbn [fst p_state snd].
  assert (OW : owner (p_state (preach h)) (at_field (dbg_tab (preach h)) f) = Some l) by (unfold owner; rewrite E; exact O).
  pose proof P as (_ & _ & T). rewrite D in T.
  assert (S : forall i1 i2, dbg_items (dbg_last (preach h)) rd (o_now (os 0)) = i1 ++ (f, q) :: i2 -> ~ In f (map fst (i1 ++ i2)) -> Forall (item_ok dbg_create) (i1 ++ i2) -> nth_error (heap w') l = Some (app1 mexp y q (os (S (List.length i1))))).
  { intros i1 i2 Ei Nf Fo. rewrite (C l y Ey Cy), Ei. f_equal. rewrite (eff_single mexp (p_state (preach h)) dbg_create (dbg_tab (preach h)) l f q i1 i2 (fun n => os (S n)) y T ltac:(change f with (fst (f, k)); now apply in_map) OW Fo Nf). reflexivity. }
  exists l, y. destruct Gr as [_ Gm]. destruct (Gm k g Mg) as [M' O']. cbn [fst] in *. repeat (split; [solve [eauto]|]). congruence.
Qed.

(** ** samples *)
Lemma sample_own w k g l : made w k g -> own w g = Some l -> k = MHist \/ k = MTimer -> sample_of w g = match nth_error (heap w) l with Some (OExp x) => Some x | _ => None end.
Proof.
  intros M O [->| ->]; cbn in M.
  - destruct M as (a & e & -> & E & _). unfold sample_of; cbn in O |- *. rewrite E in O |- *. injection O as ->. reflexivity.
  - destruct M as (a & hl & m & e & -> & E & Eh & _). unfold sample_of; cbn in O |- *. rewrite E, Eh in O |- *. injection O as ->. reflexivity.
Qed.
Lemma fold_record l : forall x, fold_left (fun y no => app1 mexp y (UZ (fst no)) (snd no)) l (OExp x) = OExp (record_all mexp x l).
Proof. induction l as [|[n o] l IH]; intros x; [reflexivity|]. cbn [fold_left app1 fst snd]. rewrite IH. reflexivity. Qed.
Lemma update_facts s t v u : swf N0 s ->
  let s' := fst (exp_update mexp s t v u) in
  swf N0 s' /\ x_count s' = wrap64 (x_count s + 1) /\ h_len (x_heap s') = Nat.min N0 (S (h_len (x_heap s))) /\
  (h_len (x_heap s) < N0 -> Permutation (exp_Values s') (v :: exp_Values s)).
Proof.
  intros W. unfold exp_update. destruct (exp_update_ok N0 s t v u (mexp (exp_arg1 s t)) (mexp (exp_arg2 s t)) ltac:(unfold N0; lia) W) as (s' & gone & keep & E & W' & _ & C & L & (K1 & K2 & _) & R).
  rewrite E. cbn [fst]. repeat (split; [assumption|]). intros Lt. rewrite (K2 Lt) in K1. cbn [app] in K1. unfold exp_Values.
  destruct (x_t1 s <? t)%Z; destruct R as (_ & _ & R & _).
  - rewrite R, map_map. cbn [map scale e_v xnew]. apply Permutation_cons; [reflexivity|]. rewrite K1. reflexivity.
  - rewrite R. cbn [map e_v xnew]. apply Permutation_cons; [reflexivity|]. rewrite K1. reflexivity.
Qed.
Lemma record_facts l : forall s, swf N0 s ->
  swf N0 (record_all mexp s l) /\ x_count (record_all mexp s l) = match l with [] => x_count s | _ => wrap64 (x_count s + Z.of_nat (List.length l)) end /\
  h_len (x_heap (record_all mexp s l)) = match l with [] => h_len (x_heap s) | _ => Nat.min N0 (h_len (x_heap s) + List.length l) end /\
  (h_len (x_heap s) + List.length l <= N0 -> Permutation (exp_Values (record_all mexp s l)) (map fst l ++ exp_Values s)).
Proof.
  induction l as [|[n o] l IH]; intros s W; [cbn; auto|]. cbn [record_all fold_left fst snd]. destruct (update_facts s (o_now o) n (o_rand o) W) as (W1 & C1 & L1 & V1).
  destruct (IH _ W1) as (W' & C' & L' & V'). unfold record_all in *. split; [exact W'|]. cbn [List.length].
  split; [|split].
  - rewrite C', C1. destruct l; [cbn; f_equal; lia|]. rewrite wrap64_add_l. f_equal. rewrite !Nat2Z.inj_succ. lia.
  - rewrite L', L1. destruct l; cbn [List.length]; lia.
  - intros Le. destruct W as (_ & _ & Wl). rewrite V' by (rewrite L1; lia). cbn [map fst app]. rewrite V1 by lia. symmetry. apply Permutation_middle.
Qed.
End Shown.

(** ** the circular buffer *)
Lemma seg P n (r : reading) : shows P n r -> forall i k c, i + c <= 256 -> (k + 255) mod 256 = i -> 1 <= k -> k + c <= S n -> n < k + 256 ->
  map (fun j => nth j (ms_PauseNs (rd_mem r)) 0%Z) (seq i c) = map P (seq k c).
Proof.
  intros (_ & _ & H) i k c. revert i k. induction c as [|c IH]; intros i k Li E K1 K2 K3; [reflexivity|]. cbn [seq map]. f_equal.
  - rewrite <- E. apply H; lia.
  - destruct c; [reflexivity|]. apply IH; lia.
Qed.
Lemma mod_of_nat n : (Z.of_nat n mod 2 ^ 32 mod 256)%Z = Z.of_nat (n mod 256).
Proof.
  rewrite Nat2Z.inj_mod. change (Z.of_nat 256) with 256%Z. pose proof (Z.div_mod (Z.of_nat n) (2 ^ 32) ltac:(lia)) as E.
  rewrite E at 2. replace (2 ^ 32 * (Z.of_nat n / 2 ^ 32) + Z.of_nat n mod 2 ^ 32)%Z with (Z.of_nat n mod 2 ^ 32 + (2 ^ 24 * (Z.of_nat n / 2 ^ 32)) * 256)%Z by (change (2 ^ 32)%Z with (256 * 2 ^ 24)%Z; lia). now rewrite Z.mod_add by lia.
Qed.
Lemma pauses_are P n0 n (r : reading) : shows P n r -> n0 <= n -> (Z.of_nat (n - n0) < 2 ^ 32)%Z ->
  pauses (Z.of_nat n0 mod 2 ^ 32) (rd_mem r) = map wrap64 (map P (recorded_gcs n0 n)).
Proof.
  intros Sh Le Gap. pose proof Sh as (Nn & _). unfold pauses, recorded_gcs. rewrite Nn. f_equal.
  rewrite !mod_of_nat. unfold sub32. rewrite <- Zminus_mod. replace (Z.of_nat n - Z.of_nat n0)%Z with (Z.of_nat (n - n0)) by lia. rewrite (Z.mod_small (Z.of_nat (n - n0))) by lia.
  assert (D0 : n0 = 256 * (n0 / 256) + n0 mod 256) by (apply Nat.div_mod; lia). assert (D : n = 256 * (n / 256) + n mod 256) by (apply Nat.div_mod; lia).
  assert (M0 : n0 mod 256 < 256) by (apply Nat.mod_upper_bound; lia). assert (M : n mod 256 < 256) by (apply Nat.mod_upper_bound; lia).
  unfold segment. destruct (Z.leb_spec 256 (Z.of_nat (n - n0))) as [G|G].
  - destruct (Nat.ltb_spec (n - n0) 256) as [X|_]; [lia|]. change (Z.to_nat (256 - 0)) with 256. change (Z.to_nat 0) with 0.
    replace 256 with (n mod 256 + (256 - n mod 256)) at 1 by lia. rewrite seq_app, !map_app. f_equal.
    + destruct (Nat.eq_dec (n mod 256) 0) as [Z0|Z0]; [rewrite Z0; reflexivity|]. apply (seg P n r Sh); lia.
    + cbn [Nat.add]. apply (seg P n r Sh); lia.
  - destruct (Nat.ltb_spec (n - n0) 256) as [_|X]; [|lia]. destruct (Z.ltb_spec (Z.of_nat (n mod 256)) (Z.of_nat (n0 mod 256))) as [W|W].
    + replace (Z.to_nat (256 - Z.of_nat (n0 mod 256))) with (256 - n0 mod 256) by lia. replace (Z.to_nat (Z.of_nat (n mod 256) - 0)) with (n mod 256) by lia. rewrite Nat2Z.id. change (Z.to_nat 0) with 0.
      assert (Q : n / 256 = S (n0 / 256)) by lia.
      replace (n - n0) with ((256 - n0 mod 256) + n mod 256) by lia. rewrite (seq_app (256 - n0 mod 256)), map_app. f_equal.
      * apply (seg P n r Sh); lia.
      * destruct (Nat.eq_dec (n mod 256) 0) as [Z0|Z0]; [rewrite Z0; reflexivity|]. apply (seg P n r Sh); lia.
    + rewrite Nat2Z.id. replace (Z.to_nat (Z.of_nat (n mod 256) - Z.of_nat (n0 mod 256))) with (n mod 256 - n0 mod 256) by lia.
      assert (Q : n / 256 = n0 / 256) by lia. replace (n - n0) with (n mod 256 - n0 mod 256) by lia.
      destruct (Nat.eq_dec (n mod 256) (n0 mod 256)) as [Z0|Z0]; [rewrite Z0, Nat.sub_diag; reflexivity|]. apply (seg P n r Sh); lia.
Qed.
