(** Properties C50 and C53, continued: how often each pause is recorded. *)
From Coq Require Import ZArith List String Bool Lia Arith Permutation.
From Verif.Model Require Import GoInt GoFloat GoBase Stats Uniform ExpDecay Conc CounterGauge Ewma Meter World Runtime.
From Verif.Spec Require Import RegistrySpec RuntimeSpec.
From Verif.Proofs Require Import IntFacts FloatFacts WorldBase WorldStep WorldFrame WorldSnap WorldReads RegistryProofs RegistryStep RegistryNew ExpDecayProofs ExpDecayHeap TimerHistory RuntimeProofs ProcProofs ProcHistory ProcCapture.
From Verif.Props Require Import RuntimeProps.
Import ListNotations.
Local Open Scope nat_scope.
Local Open Scope list_scope.

(** ** C50 *)
Lemma fst_combine {A B} (os : nat -> B) (vs : list A) : forall j, map fst (combine vs (map os (seq j (List.length vs)))) = vs.
Proof. induction vs as [|v vs IH]; intros j; [reflexivity|]. cbn [List.length seq map combine fst]. f_equal. apply IH. Qed.
(** exactly min(k, 256) of them, the latest ones *)
Lemma recorded_length n0 n : n0 <= n -> List.length (recorded_gcs n0 n) = Nat.min (n - n0) 256.
Proof.
  intros L. unfold recorded_gcs. destruct (Nat.ltb_spec (n - n0) 256); [rewrite seq_length; lia|]. rewrite app_length, !seq_length. pose proof (Nat.mod_upper_bound n 256). lia.
Qed.
Theorem C50_which : forall n0 n, n0 <= n ->
  NoDup (recorded_gcs n0 n) /\ List.length (recorded_gcs n0 n) = Nat.min (n - n0) 256 /\
  forall k, In k (recorded_gcs n0 n) <-> n0 < k <= n /\ n < k + 256.
Proof.
  intros n0 n L. assert (D : n = 256 * (n / 256) + n mod 256) by (apply Nat.div_mod; lia). pose proof (Nat.mod_upper_bound n 256 ltac:(lia)) as B.
  split; [|split; [now apply recorded_length|]]; unfold recorded_gcs; destruct (Nat.ltb_spec (n - n0) 256) as [G|G].
  - apply seq_NoDup.
  - assert (A : forall a b : list nat, NoDup a -> NoDup b -> (forall k, In k a -> ~ In k b) -> NoDup (a ++ b)).
    { induction a as [|x a IH]; intros b Na Nb Dj; [exact Nb|]. inversion Na; subst. cbn. constructor; [rewrite in_app_iff; intros [?|?]; [contradiction|apply (Dj x); cbn; auto]|]. apply IH; auto. intros k Hk. apply Dj. now right. }
    apply A; try apply seq_NoDup. intros k H1 H2. rewrite in_seq in *. lia.
  - intros k. rewrite in_seq. lia.
  - intros k. rewrite in_app_iff, !in_seq. lia.
Qed.
(** Count and Values of the histogram's sample *)
Theorem C50_count : forall mexp h g r rd os P n0 n x o, runtime_metric mexp h "runtime.MemStats.PauseNs" g ->
  nth_error (snd (p_state (preach mexp h))) x = Some g -> result mexp h (PCaptureRuntime r rd) os <> None ->
  match last_capture mexp h with Some rd0 => shows P n0 rd0 | None => n0 = 0 end -> shows P n rd -> n0 <= n -> (Z.of_nat n - Z.of_nat n0 < 2 ^ 32)%Z ->
  exists c, snd (step mexp (p_state (preach mexp h)) (OCount x, o)) = Some (Ok (RZ c)) /\
    (n0 = n -> snd (step mexp (p_state (next mexp h (PCaptureRuntime r rd) os)) (OCount x, o)) = Some (Ok (RZ c))) /\
    (n0 < n -> snd (step mexp (p_state (next mexp h (PCaptureRuntime r rd) os)) (OCount x, o)) = Some (Ok (RZ (as_int64 (c + Z.of_nat (Nat.min (n - n0) 256)))))).
Proof.
  intros mexp h g r rd os P n0 n x o M Ex Ok H0 Hn Le Lt. destruct (C50_pauses mexp h g r rd os P n0 n M Ok H0 Hn Le Lt) as (s & S1 & S2). cbv zeta in S2.
  destruct (metric_at mexp h _ "PauseNs" MHist g M ltac:(inl) ltac:(inl)) as (D & _ & Mg). pose proof (preach_PI mexp h) as PIh.
  assert (M' : made (fst (p_state (next mexp h (PCaptureRuntime r rd) os))) MHist g /\ snd (p_state (next mexp h (PCaptureRuntime r rd) os)) = snd (p_state (preach mexp h))).
  { destruct (capture_step mexp (preach mexp h) r rd os PIh D (capture_ok_registry mexp _ _ _ _ Ok)) as (w' & Ep & _ & _ & _ & Gr). unfold next. rewrite preach_snoc, Ep. cbn [fst p_state snd]. split; [apply (proj2 Gr); exact Mg|reflexivity]. }
  assert (C : forall (st : state) s, nth_error (snd st) x = Some g -> made (fst st) MHist g -> sample_of (fst st) g = Some s -> snd (step mexp st (OCount x, o)) = Some (GoBase.Ok (RZ (x_count s)))).
  { intros st s' E (l & e & -> & El & _) Sa. unfold sample_of in Sa. rewrite El in Sa. destruct (nth_error (heap (fst st)) e) as [[]|] eqn:Ee; try discriminate Sa. injection Sa as ->.
    unfold World.step. cbn [fst snd World.call]. unfold obind. rewrite E. cbn [m_count cls]. unfold z_rv, bind at 1.
    rewrite (r_hist_count (VHist l) o (fst st) (x_count s') (exp_Values s')); [reflexivity|]. cbn [hdata]. rewrite El. cbn [sdata]. rewrite Ee. reflexivity. }
  destruct M' as [M' E'].
  assert (W : swf N0 s). { destruct Mg as (l & e & -> & El & q & Eq & W). unfold sample_of in S1. rewrite El, Eq in S1. injection S1 as <-. exact W. }
  set (l := combine _ _) in S2. destruct (record_facts mexp l s W) as (_ & Cn & _).
  assert (Ll : List.length l = Nat.min (n - n0) 256). { unfold l. rewrite combine_length, !map_length, seq_length, Nat.min_id. now apply recorded_length. }
  exists (x_count s). split; [now apply C|]. split; intros Hlt; rewrite (C _ (record_all mexp s l)); auto; rewrite ?E'; auto; do 3 f_equal; rewrite Cn.
  - destruct l; [reflexivity|]. cbn [List.length] in Ll. lia.
  - destruct l as [|a l']; [cbn [List.length] in Ll; lia|]. rewrite Ll. reflexivity.
Qed.
Theorem C50_values : forall mexp h g r rd os P n0 n, runtime_metric mexp h "runtime.MemStats.PauseNs" g ->
  result mexp h (PCaptureRuntime r rd) os <> None ->
  match last_capture mexp h with Some rd0 => shows P n0 rd0 | None => n0 = 0 end -> shows P n rd -> n0 <= n -> (Z.of_nat n - Z.of_nat n0 < 2 ^ 32)%Z ->
  exists s s', sample_of (fst (p_state (preach mexp h))) g = Some s /\ sample_of (fst (p_state (next mexp h (PCaptureRuntime r rd) os))) g = Some s' /\
    (List.length (exp_Values s) + Nat.min (n - n0) 256 <= 1028 ->
     Permutation (exp_Values s') (map (fun k => as_int64 (P k)) (recorded_gcs n0 n) ++ exp_Values s)).
Proof.
  intros mexp h g r rd os P n0 n M Ok H0 Hn Le Lt. destruct (C50_pauses mexp h g r rd os P n0 n M Ok H0 Hn Le Lt) as (s & S1 & S2). cbv zeta in S2.
  destruct (metric_at mexp h _ "PauseNs" MHist g M ltac:(inl) ltac:(inl)) as (D & _ & Mg).
  assert (W : swf N0 s). { destruct Mg as (l & e & -> & El & q & Eq & W). unfold sample_of in S1. rewrite El, Eq in S1. injection S1 as <-. exact W. }
  set (vs := map _ _) in *. set (l := combine _ _) in S2. destruct (record_facts mexp l s W) as (_ & _ & _ & Pm).
  assert (Fl : map fst l = vs). { apply fst_combine. }
  assert (Ll : List.length l = Nat.min (n - n0) 256). { rewrite <- (map_length fst), Fl. unfold vs. rewrite map_length. now apply recorded_length. }
  exists s, (record_all mexp s l). split; [exact S1|]. split; [exact S2|]. intros Room. rewrite <- Fl. apply Pm. unfold N0. rewrite Ll.
  assert (Lh : List.length (exp_Values s) = h_len (x_heap s)). { unfold exp_Values. rewrite map_length. apply hvalues_length. destruct W as (_ & W1 & W2). unfold hwf. lia. }
  rewrite <- Lh. change (Z.to_nat 1028) with 1028. exact Room.
Qed.

(** over a sequence of captures *)
Fixpoint all_recorded (n0 : nat) (ns : list nat) : list nat :=
  match ns with [] => [] | n :: r => recorded_gcs n0 n ++ all_recorded n r end.
Fixpoint rising (n0 : nat) (ns : list nat) (gap : Z) : Prop :=
  match ns with [] => True | n :: r => n0 <= n /\ (Z.of_nat n - Z.of_nat n0 < gap)%Z /\ rising n r gap end.
Definition captures (cs : list (option nat * reading * (nat -> orc))) : history := map (fun c => (PCaptureRuntime (fst (fst c)) (snd (fst c)), snd c)) cs.
Theorem C50_history : forall mexp P cs ns h g n0, runtime_metric mexp h "runtime.MemStats.PauseNs" g ->
  Forall (fun c => result mexp h (PCaptureRuntime (fst (fst c)) (snd (fst c))) (snd c) <> None) cs ->
  match last_capture mexp h with Some rd0 => shows P n0 rd0 | None => n0 = 0 end ->
  Forall2 (fun c n => shows P n (snd (fst c))) cs ns -> rising n0 ns (2 ^ 32) ->
  exists s l, sample_of (fst (p_state (preach mexp h))) g = Some s /\
    sample_of (fst (p_state (preach mexp (h ++ captures cs)))) g = Some (record_all mexp s l) /\
    map fst l = map (fun k => as_int64 (P k)) (all_recorded n0 ns).
Proof.
  intros mexp P cs ns h g n0 M Oks H0 F Ri. revert h n0 M Oks H0 Ri. induction F as [|[[r rd] os] n cs ns Sh F IH]; intros h n0 M Oks H0 Ri.
  - destruct (metric_at mexp h _ "PauseNs" MHist g M ltac:(inl) ltac:(inl)) as (_ & _ & Mg). destruct Mg as (l & e & -> & El & q & Eq & W).
    exists q, []. cbn [captures map]. rewrite app_nil_r. unfold sample_of. rewrite El, Eq. cbn. auto.
  - cbn [fst snd] in *. destruct Ri as (Le & Lt & Ri). inversion Oks as [|? ? Ok Oks']; subst. cbn [fst snd] in *.
    destruct (C50_pauses mexp h g r rd os P n0 n M Ok H0 Sh Le Lt) as (s & S1 & S2). cbv zeta in S2. unfold next in S2.
    destruct (metric_at mexp h _ "PauseNs" MHist g M ltac:(inl) ltac:(inl)) as (D & _ & _). pose proof (preach_PI mexp h) as PIh.
    destruct (capture_step mexp (preach mexp h) r rd os PIh D (capture_ok_registry mexp _ _ _ _ Ok)) as (w' & Ep & _).
    set (h1 := h ++ [(PCaptureRuntime r rd, os)]) in *.
    assert (P1 : preach mexp h1 = fst (pstep mexp (preach mexp h) (PCaptureRuntime r rd, os))) by apply preach_snoc.
    destruct (IH h1 n (metric_later mexp h [(PCaptureRuntime r rd, os)] _ _ M)) as (s' & l & A1 & A2 & A3); auto.
    + rewrite Forall_forall in *. intros c Hc. specialize (Oks' c Hc). pose proof (capture_ok_registry mexp _ _ _ _ Oks') as Rg. unfold result.
      assert (D1 : rt_done (preach mexp h1) = true) by (rewrite P1, Ep; reflexivity).
      assert (Rg1 : is_registry (snd (p_state (preach mexp h1))) (fst (fst c)) = true) by (rewrite P1, Ep; exact Rg).
      destruct (capture_step mexp (preach mexp h1) (fst (fst c)) (snd (fst c)) (snd c) (preach_PI mexp h1) D1 Rg1) as (w2 & Ep2 & _). rewrite Ep2. discriminate.
    + unfold h1. rewrite last_capture_snoc. unfold result. rewrite Ep. cbn [snd]. exact Sh.
    + rewrite S2 in A1. injection A1 as <-. set (l0 := combine _ _) in A2. exists s, (l0 ++ l). split; [exact S1|].
      change (captures ((r, rd, os) :: cs)) with ([(PCaptureRuntime r rd, os)] ++ captures cs). rewrite app_assoc. fold h1. split.
      * rewrite A2. unfold record_all. now rewrite fold_left_app.
      * cbn [all_recorded]. rewrite !map_app, A3. f_equal. apply fst_combine.
Qed.
(** no pause is recorded twice; none is missed if at most 256 collections happen between captures *)
Theorem C50_once : forall ns n0 gap, rising n0 ns gap ->
  NoDup (all_recorded n0 ns) /\ (forall k, In k (all_recorded n0 ns) -> n0 < k <= last ns n0) /\
  ((gap <= 257)%Z -> forall k, n0 < k <= last ns n0 -> In k (all_recorded n0 ns)).
Proof.
  assert (A : forall a b : list nat, NoDup a -> NoDup b -> (forall k, In k a -> ~ In k b) -> NoDup (a ++ b)).
  { induction a as [|x a IH]; intros b Na Nb Dj; [exact Nb|]. inversion Na; subst. cbn. constructor; [rewrite in_app_iff; intros [?|?]; [contradiction|apply (Dj x); cbn; auto]|]. apply IH; auto. intros k Hk. apply Dj. now right. }
  induction ns as [|n ns IH]; intros n0 gap Ri.
  - cbn. split; [constructor|]. split; [contradiction|]. intros _ k H. lia.
  - destruct Ri as (Le & Lt & Ri). destruct (IH n gap Ri) as (N & B & F). destruct (C50_which n0 n Le) as (N1 & _ & I1).
    assert (La : last (n :: ns) n0 = last ns n). { destruct ns as [|m ns]; [reflexivity|]. cbn [last]. clear. revert m. induction ns as [|a ns IH]; intros m; [reflexivity|]. cbn [last] in *. apply IH. }
    rewrite La. assert (Ge : n <= last ns n). { clear - Ri. revert n Ri. induction ns as [|m ns IH]; intros n Ri; [cbn; lia|]. destruct Ri as (L & _ & Ri). specialize (IH m Ri). assert (E : last (m :: ns) n = last ns m). { destruct ns as [|a ns]; [reflexivity|]. cbn [last]. clear. revert a. induction ns as [|b ns IH]; intros a; [reflexivity|]. cbn [last] in *. apply IH. } rewrite E. lia. }
    cbn [all_recorded]. split; [|split].
    + apply A; auto. intros k H1 H2. apply I1 in H1. apply B in H2. lia.
    + intros k. rewrite in_app_iff. intros [H|H]; [apply I1 in H; lia|apply B in H; lia].
    + intros G k H. rewrite in_app_iff. destruct (Nat.le_gt_cases k n) as [K|K]; [left; apply I1; lia|right; apply F; [exact G|lia]].
Qed.

(** ** C53 *)
Theorem C53_pause : forall mexp h g r rd os P T n0 n, debug_metric mexp h "debug.GCStats.Pause" g ->
  result mexp h (PCaptureDebug r rd) os <> None ->
  (forall i, 1 <= i -> T i <> 0%Z) -> (forall i j, 1 <= i -> 1 <= j -> T i = T j -> i = j) ->
  match last_gc_capture mexp h with Some rd0 => gc_shows P T n0 rd0 | None => n0 = 0 end -> gc_shows P T n rd -> n0 <= n ->
  exists s, sample_of (fst (p_state (preach mexp h))) g = Some s /\
    sample_of (fst (p_state (next mexp h (PCaptureDebug r rd) os))) g = Some (record_all mexp s (if n0 <? n then [(P n, os 4)] else [])).
Proof.
  intros mexp h g r rd os P T n0 n M Ok T0 Ti H0 (HL & HP) Le.
  destruct (dbg_metric_at mexp h _ "Pause" MHist g M ltac:(inl) ltac:(inl)) as (D & E & Mg). pose proof (preach_PI mexp h) as PIh.
  destruct (made_own _ _ _ Mg) as (l & O). destruct (made_cell (p_state (preach mexp h)) MHist g l (proj1 PIh) (in_env _ _ _ E) Mg O) as (y & Ey & Cy & s & -> & W).
  exists s. rewrite (sample_own _ MHist g l Mg O) by auto. rewrite Ey. split; [reflexivity|].
  destruct (dbg_capture_step mexp (preach mexp h) r rd os PIh D (dbg_capture_ok_registry mexp _ _ _ _ Ok)) as (w' & Ep & _ & _ & C & Gr).
  unfold next. rewrite preach_snoc, Ep. cbn [fst p_state snd]. destruct Gr as [_ Gm]. destruct (Gm MHist g Mg) as [M' O']. cbn [fst] in *. rewrite O in O'.
  rewrite (sample_own _ MHist g l M' O') by auto. rewrite (C l _ Ey Cy). unfold dbg_items.
  pose proof PIh as (_ & _ & Tb). rewrite D in Tb.
  assert (Pv : dbg_feed (dbg_last (preach mexp h)) rd = if n0 <? n then [P n] else []).
  { unfold dbg_feed. rewrite gc_prev_reach. destruct (last_gc_capture mexp h) as [rd0|]; cbn [option_map].
    - destruct H0 as (HL0 & _). rewrite HL0, HL. destruct (Nat.ltb_spec n0 n) as [L|L].
      + replace (Z.eqb (match n0 with O => 0%Z | _ => T n0 end) (match n with O => 0%Z | _ => T n end)) with false.
        * destruct n; [lia|]. destruct (gc_Pause rd); [discriminate HP|]. injection HP as ->. reflexivity.
        * symmetry. apply Z.eqb_neq. intros X. destruct n; [lia|]. destruct n0; [symmetry in X; apply (T0 (S n)); [lia|exact X]|]. apply Ti in X; lia.
      + replace n0 with n by lia. now rewrite Z.eqb_refl.
    - subst n0. destruct n; [destruct (gc_Pause rd); [reflexivity|discriminate HP]|]. destruct (gc_Pause rd); [discriminate HP|]. injection HP as ->. reflexivity. }
  rewrite Pv.
  rewrite (eff_feed mexp (p_state (preach mexp h)) dbg_create (dbg_tab (preach mexp h)) l "Pause" (if n0 <? n then [P n] else []) _ _ (fun n => os (S n)) _ Tb ltac:(apply (strs_sub ["Pause"%string] (map fst dbg_create)); [reflexivity|left; reflexivity])).
  - rewrite fold_record. destruct (n0 <? n); reflexivity.
  - unfold owner. rewrite E. exact O.
  - apply Forall_forall. intros i Hi. pose proof (dbg_items_ok (dbg_last (preach mexp h)) rd (o_now (os 0))) as K. rewrite Forall_forall in K. apply K. unfold dbg_items. rewrite !in_app_iff in *. tauto.
  - cbn [app map fst]. intros X. cut (existsb (String.eqb "Pause") ["ReadGCStats"%string; "LastGC"%string; "NumGC"%string; "PauseTotal"%string] = true); [discriminate|]. apply existsb_exists. exists "Pause"%string. split; [exact X|reflexivity].
Qed.
