(** Property C43 (one goroutine): timers. *)
From Coq Require Import ZArith List String Bool Lia Arith Permutation.
From Verif.Model Require Import GoInt GoFloat GoBase Stats ExpDecay Meter World.
From Verif.Spec Require Import ApiSpec Reservoir DecaySpec RegistrySpec TimerSpec.
From Verif.Proofs Require Import IntFacts UniformProofs WorldBase WorldOps WorldStep WorldReads RegistryProofs MeterFrame AliveProofs ExpDecayProofs WorldSnap TimerPrivate TimerHistory.
From Verif.Props Require Import SnapshotProps StopProps.
Import ListNotations.
Local Open Scope nat_scope.
Local Open Scope list_scope.

Definition events (ds : list Z) : list revent := map RecordV ds.
Lemma recorded_events ds : recorded (events ds) = ds.
Proof. induction ds as [|d ds IH] using rev_ind; [reflexivity|]. unfold events in *. rewrite map_app. cbn [map]. rewrite recorded_snoc. cbn [rec_step]. now rewrite IH. Qed.
Lemma few_events ds : (slen ds < 2 ^ 63)%Z -> few (events ds).
Proof.
  intros H p q E. unfold events in E. apply map_eq_app in E. destruct E as (d1 & d2 & -> & <- & <-). change (map RecordV d1) with (events d1). rewrite recorded_events. unfold slen in *. rewrite app_length in H. lia.
Qed.
Lemma slen_snoc {A} (l : list A) x : slen (l ++ [x]) = (slen l + 1)%Z.
Proof. unfold slen. rewrite app_length. cbn. lia. Qed.
Lemma wrap_small n : (0 <= n < 2 ^ 63)%Z -> wrap64 n = n.
Proof. intros H. apply wrap64_id. unfold is_int64, min_int64, max_int64. lia. Qed.

Lemma timer_run mexp e hl k tl s t0 q : forall st h ds, tinv mexp e hl k tl s t0 st h (slen ds) -> map xop_event h = events ds -> In k (alive (fst st)) ->
  (slen (ds ++ durations mexp tl st q) < 2 ^ 63)%Z ->
  exists h' n, tinv mexp e hl k tl s t0 (run mexp st q) h' n /\ map xop_event h' = events (ds ++ durations mexp tl st q) /\
    (In k (alive (fst (run mexp st q))) -> n = slen (ds ++ durations mexp tl st q)).
Proof.
  assert (DEAD : forall q st h ds n, tinv mexp e hl k tl s t0 st h n -> map xop_event h = events ds -> ~ In k (alive (fst st)) -> (slen (ds ++ durations mexp tl st q) < 2 ^ 63)%Z ->
    exists h' n, tinv mexp e hl k tl s t0 (run mexp st q) h' n /\ map xop_event h' = events (ds ++ durations mexp tl st q) /\ ~ In k (alive (fst (run mexp st q)))).
  { clear q. induction q as [|[c o] q IH]; intros st h ds n T E A F.
    - exists h, n. cbn [durations]. rewrite app_nil_r. auto.
    - rewrite run_cons. cbn [durations] in *. pose proof (p_inv _ _ _ _ _ (t_priv _ _ _ _ _ _ _ _ _ _ T)) as I.
      assert (Lk : k < List.length (heap (fst st))) by (destruct (t_meter _ _ _ _ _ _ _ _ _ _ T) as (? & ? & ? & ? & ? & X); eapply nth_lt; eauto).
      assert (A' : ~ In k (alive (fst (fst (step mexp st (c, o)))))) by (rewrite (alive_step mexp st c o k I Lk); tauto).
      destruct (records tl (snd st) c) eqn:R.
      + rewrite app_assoc in F |- *. assert (E' : map xop_event (h ++ [XUpdate (o_now o) (duration c o) (o_rand o)]) = events (ds ++ [duration c o])) by (unfold events in *; rewrite !map_app, E; reflexivity).
        assert (Fh : few (map xop_event (h ++ [XUpdate (o_now o) (duration c o) (o_rand o)]))) by (rewrite E'; apply few_events; unfold slen in *; rewrite app_length in F; lia).
        destruct (tinv_record mexp e hl k tl s t0 st h n c o T R Fh) as (_ & _ & T' & _). eapply IH; eauto.
      + eapply IH; eauto. eapply tinv_other; eauto. }
  induction q as [|[c o] q IH]; intros st h ds T E A F.
  - exists h, (slen ds). cbn [durations]. rewrite app_nil_r. auto.
  - rewrite run_cons. cbn [durations] in *. pose proof (p_inv _ _ _ _ _ (t_priv _ _ _ _ _ _ _ _ _ _ T)) as I.
    destruct (records tl (snd st) c) eqn:R.
    + rewrite app_assoc in F |- *. assert (E' : map xop_event (h ++ [XUpdate (o_now o) (duration c o) (o_rand o)]) = events (ds ++ [duration c o])) by (unfold events in *; rewrite !map_app, E; reflexivity).
      assert (Fs : (slen (ds ++ [duration c o]) < 2 ^ 63)%Z) by (unfold slen in *; rewrite app_length in F; lia).
      assert (Fh : few (map xop_event (h ++ [XUpdate (o_now o) (duration c o) (o_rand o)]))) by (rewrite E'; now apply few_events).
      destruct (tinv_record mexp e hl k tl s t0 st h _ c o T R Fh) as (_ & _ & T' & A'). 
      assert (Mk : memn k (alive (fst st)) = true) by now apply memn_in. rewrite Mk in T'. rewrite slen_snoc in Fs. rewrite wrap_small in T' by (unfold slen in *; lia). rewrite <- slen_snoc with (x := duration c o) in T'.
      eapply IH; eauto. now rewrite A'.
    + cbn [app] in F |- *. pose proof (tinv_other mexp e hl k tl s t0 st h _ c o T R) as T'. destruct (in_dec Nat.eq_dec k (alive (fst (fst (step mexp st (c, o)))))) as [A'|A'].
      * eapply IH; eauto.
      * destruct (DEAD q _ _ _ _ T' E A' F) as (h' & n & T2 & E2 & A2). exists h', n. repeat (split; auto). tauto.
Qed.

(** what is read off a timer in terms of its history *)
Lemma timer_data mexp e hl k tl s t0 st h n o : tinv mexp e hl k tl s t0 st h n -> exists m, mdata (heap (fst st)) (VMeter k) = Some m /\ s_count m = n /\
  vdata o (heap (fst st)) (VTimer tl) = Some (DTimer (exp_Count (sample_after mexp t0 h)) (exp_Values (sample_after mexp t0 h)) m).
Proof.
  intros T. pose proof (t_priv _ _ _ _ _ _ _ _ _ _ T) as P. destruct (t_meter _ _ _ _ _ _ _ _ _ _ T) as (a & b & c & t & stp & Ek). destruct (t_count _ _ _ _ _ _ _ _ _ _ T) as (r1 & r5 & r15 & m & Es).
  assert (D : mdata (heap (fst st)) (VMeter k) = Some (MkS n r1 r5 r15 m)) by (unfold mdata; rewrite Ek; unfold msdata; rewrite Es; reflexivity).
  exists (MkS n r1 r5 r15 m). split; auto. split; auto. cbn [vdata tdata]. rewrite (p_timer _ _ _ _ _ P). cbn [hdata]. rewrite (p_hist _ _ _ _ _ P). cbn [sdata]. rewrite (t_exp _ _ _ _ _ _ _ _ _ _ T), D. reflexivity.
Qed.

(** The calls that make a timer as NewTimer does (NewTimer, NewRegisteredTimer,
    GetOrRegisterTimer and GetOrRegister with NewTimer).  [x] is the variable that holds
    the new timer, [k] its meter, [ds] what is recorded on it by the rest [q] of the
    program, through whatever variable (Get, Each, ... may have handed it out again). *)
Definition new_timer_call (mexp : f64 -> f64) (st : state) (c : op) (o : orc) (tl : nat) : Prop :=
  makes_timer c = true /\ snd (step mexp st (c, o)) = Some (Ok (RVal (VTimer tl))) /\ List.length (heap (fst st)) <= tl.
Section C43.
Variables (mexp : f64 -> f64) (p q : list (op * orc)) (c : op) (o : orc) (tl : nat).
Let st := reach mexp p.
Let st1 := fst (step mexp st (c, o)).
Let st2 := run mexp st1 q.
Let x := List.length (snd st).
Let ds := durations mexp tl st1 q.
Hypothesis made_new : new_timer_call mexp st c o tl.
Hypothesis not_too_many : (slen ds < 2 ^ 63)%Z.

Lemma after_q : exists k, meter_of (fst st1) (VTimer tl) = Some k /\ exists e hl s t0 h n, tinv mexp e hl k tl s t0 st2 h n /\ map xop_event h = events ds /\ (In k (alive (fst st2)) -> n = slen ds) /\
  nth_error (snd st2) x = Some (VTimer tl) /\ In k (alive (fst st1)).
Proof.
  destruct made_new as (M & R & L). pose proof (reach_inv mexp p) as I. fold st in I.
  destruct (made mexp st c o tl I M R L) as (-> & T & A). fold st1 in T, A. eexists. split; [cbn [meter_of]; rewrite (p_timer _ _ _ _ _ (t_priv _ _ _ _ _ _ _ _ _ _ T)); reflexivity|].
  destruct (timer_run mexp _ _ _ _ _ _ q st1 [] [] T eq_refl A not_too_many) as (h & n & T2 & E2 & A2). cbn [app] in E2, A2. eexists _, _, _, _, h, n. split; [exact T2|]. split; [exact E2|]. split; [exact A2|]. split; [|exact A].
  unfold st2. apply run_env. unfold st1. revert R. unfold World.step. cbn [fst snd]. destruct (World.call mexp (snd st) c) as [mm|]; [|discriminate]. destruct (mm o (fst st)) as [w [r|]]; cbn [fst snd]; [|discriminate]. intros X; inversion X; subst. cbn [yields is_metric cls]. apply nth_end.
Qed.
End C43.

(** Count is the number of recorded durations *)
Theorem C43_count : forall mexp p q c o o' tl, let st := reach mexp p in let st1 := fst (step mexp st (c, o)) in let ds := durations mexp tl st1 q in
  new_timer_call mexp st c o tl -> (slen ds < 2 ^ 63)%Z ->
  snd (step mexp (run mexp st1 q) (OCount (List.length (snd st)), o')) = Some (Ok (RZ (slen ds))).
Proof.
  intros mexp p q c o o' tl st st1 ds M F. destruct (after_q mexp p q c o tl M F) as (k & _ & e & hl & s & t0 & h & n & T & E & _ & X & _). fold st in X, T, E. fold st1 in X, T, E. fold ds in E.
  destruct (timer_data _ _ _ _ _ _ _ _ _ _ o' T) as (m & _ & _ & D). rewrite (read_ok mexp _ (OCount (List.length (snd st))) o' _ _ _ eq_refl X D). unfold read_data.
  pose proof (few_events ds F) as Fe. rewrite <- E in Fe. destruct (exp_count_size mexp 1028 f_0015 t0 h ltac:(lia) Fe) as (C & _). unfold sample_after. rewrite C, E, recorded_events. reflexivity.
Qed.
(** while the timer is not stopped its meter has counted the same number *)
Theorem C43_meter : forall mexp p q c o tl k, let st := reach mexp p in let st1 := fst (step mexp st (c, o)) in let ds := durations mexp tl st1 q in let st2 := run mexp st1 q in
  new_timer_call mexp st c o tl -> (slen ds < 2 ^ 63)%Z -> meter_of (fst st1) (VTimer tl) = Some k ->
  In k (alive (fst st1)) /\ (In k (alive (fst st2)) -> exists m, mdata (heap (fst st2)) (VMeter k) = Some m /\ s_count m = slen ds).
Proof.
  intros mexp p q c o tl k st st1 ds st2 M F Mk. destruct (after_q mexp p q c o tl M F) as (k' & Mk' & e & hl & s & t0 & h & n & T & E & N & X & A). fold st in Mk', X, T, E, N, A. fold st1 in Mk', X, T, E, N, A. fold ds in E, N. fold st2 in T, N, X. 
  assert (k' = k) by congruence. subst k'. split; auto. intros A2. destruct (timer_data _ _ _ _ _ _ _ _ _ _ o T) as (m & D & C & _). exists m. split; auto. rewrite C. auto.
Qed.
(** every call that records returns normally and records (with or without a running meter):
    Count goes up by one *)
Theorem C43_records : forall mexp p q c o tl y ts d o', let st := reach mexp p in let st1 := fst (step mexp st (c, o)) in let ds := durations mexp tl st1 q in let st2 := run mexp st1 q in
  new_timer_call mexp st c o tl -> (slen ds + 1 < 2 ^ 63)%Z -> nth_error (snd st2) y = Some (VTimer tl) ->
  forall c', In c' [OUpdate y d; OUpdateSince y ts; OTimeEnd y ts] ->
  snd (step mexp st2 (c', o')) = Some (Ok RUnit) /\
  forall o2, snd (step mexp (fst (step mexp st2 (c', o'))) (OCount (List.length (snd st)), o2)) = Some (Ok (RZ (slen ds + 1))).
Proof.
  intros mexp p q c o tl y ts d o' st st1 ds st2 M F Ey c' Hc.
  assert (R : records tl (snd st2) c' = true) by (cbn in Hc; destruct Hc as [<-|[<-|[<-|[]]]]; cbn; rewrite Ey; apply Nat.eqb_refl).
  split.
  - assert (F1 : (slen ds < 2 ^ 63)%Z) by lia. destruct (after_q mexp p q c o tl M F1) as (k & _ & e & hl & s & t0 & h & n & T & E & _). fold st in T, E. fold st1 in T, E. fold ds in E. fold st2 in T.
    apply (tinv_record mexp e hl k tl s t0 st2 h n c' o' T R). rewrite map_app, E. cbn [map xop_event]. replace (events ds ++ _) with (events (ds ++ [duration c' o'])) by (unfold events; now rewrite map_app). apply few_events. now rewrite slen_snoc.
  - intros o2. assert (Dq : forall q' s0, durations mexp tl s0 (q' ++ [(c', o')]) = durations mexp tl s0 q' ++ (if records tl (snd (run mexp s0 q')) c' then [duration c' o'] else [])).
    { clear. induction q' as [|[cc oo] q' IH]; intros s0; cbn [durations app]; [now rewrite app_nil_r|]. now rewrite IH, app_assoc, run_cons. }
    assert (Dr : durations mexp tl st1 (q ++ [(c', o')]) = ds ++ [duration c' o']) by (rewrite Dq; fold st2; rewrite R; reflexivity).
    pose proof (C43_count mexp p (q ++ [(c', o')]) c o o2 tl) as K. cbv zeta in K. fold st in K. fold st1 in K. rewrite Dr, slen_snoc in K. specialize (K M F).
    rewrite run_app in K. exact K.
Qed.
(** the statistics are those of at most 1028 of the recorded durations, and as long as no
    more were recorded, of all of them *)
Theorem C43_statistics : forall mexp p q c o tl, let st := reach mexp p in let st1 := fst (step mexp st (c, o)) in let ds := durations mexp tl st1 q in let st2 := run mexp st1 q in
  new_timer_call mexp st c o tl -> (slen ds < 2 ^ 63)%Z ->
  exists xs, submultiset xs ds /\ slen xs = Z.min (slen ds) 1028 /\ (slen ds <= 1028 -> Permutation xs ds)%Z /\
  forall o', (forall s, snd (step mexp st2 (OStat (List.length (snd st)) s, o')) = Some (Ok (stat_of s xs))) /\
             (forall ps, snd (step mexp st2 (OPercentiles (List.length (snd st)) ps, o')) = Some (res_map RFs (snd (SamplePercentiles xs ps)))).
Proof.
  intros mexp p q c o tl st st1 ds st2 M F. destruct (after_q mexp p q c o tl M F) as (k & _ & e & hl & s & t0 & h & n & T & E & _ & X & _). fold st in X, T, E. fold st1 in X, T, E. fold ds in E. fold st2 in X, T.
  pose proof (few_events ds F) as Fe. rewrite <- E in Fe. destruct (exp_count_size mexp 1028 f_0015 t0 h ltac:(lia) Fe) as (_ & S & L). pose proof (exp_only_recorded mexp 1028 f_0015 t0 h ltac:(lia) Fe) as Sub. rewrite E, recorded_events in S, Sub. rewrite S in L. clear S. change (Z.of_nat 1028) with 1028%Z in L.
  exists (exp_Values (sample_after mexp t0 h)). unfold sample_after at 1 2 3. split; auto. split; [exact L|]. split.
  - intros Le. destruct Sub as [rest Hp]. assert (rest = []) as ->; [|now rewrite app_nil_r in Hp]. apply Permutation_length in Hp. rewrite app_length in Hp. unfold slen in *. destruct rest; auto. cbn [List.length] in Hp. lia.
  - intros o'. destruct (timer_data _ _ _ _ _ _ _ _ _ _ o' T) as (m & _ & _ & D). split; intros.
    + rewrite (read_ok mexp _ (OStat (List.length (snd st)) s0) o' _ _ _ eq_refl X D). reflexivity.
    + rewrite (read_ok mexp _ (OPercentiles (List.length (snd st)) ps) o' _ _ _ eq_refl X D). reflexivity.
Qed.
(** Stop: afterwards the rates never change, whatever is called, and durations are still
    recorded ([C43_count] and [C43_records] hold for stopped timers too) *)
Theorem C43_stop : forall mexp p x tl o q o1 o2, let st := reach mexp p in nth_error (snd st) x = Some (VTimer tl) -> (exists k, meter_of (fst st) (VTimer tl) = Some k) ->
  let st1 := fst (step mexp st (OStop x, o)) in
  forall r, snd (step mexp (run mexp st1 q) (OMRate x r, o1)) = snd (step mexp st1 (OMRate x r, o2)).
Proof.
  intros mexp p x tl o q o1 o2 st Ex [k Mk] st1 r. pose proof (reach_inv mexp p) as I. fold st in I.
  assert (St1 : st1 = reach mexp (p ++ [(OStop x, o)])) by (unfold st1, st, reach; rewrite run_app; reflexivity).
  assert (V : vok (heap (fst st)) (VTimer tl)) by (destruct I as [_ Fo]; rewrite Forall_forall in Fo; apply Fo; eapply nth_error_In; eauto).
  destruct (vok_meter _ _ k (proj1 I) V Mk) as (s & a & b & c & t & stp & y & K & _). 
  assert (N : ~ In k (alive (fst st1))).
  { unfold st1. rewrite (alive_step mexp st (OStop x) o k I (nth_lt _ _ _ K)). intros [_ H]. apply H. cbn. exists (VTimer tl). split; auto. }
  assert (E1 : nth_error (snd st1) x = Some (VTimer tl)) by (apply step_env; auto).
  assert (M1 : meter_of (fst st1) (VTimer tl) = Some k) by (unfold st1; rewrite meter_of_step; auto).
  pose proof (C36_frozen mexp (p ++ [(OStop x, o)]) x (VTimer tl) k q o2 o1) as Fz. rewrite <- St1 in Fz. cbv zeta in Fz. destruct (Fz E1 M1 N) as (_ & Fr & _). apply Fr.
Qed.

(** a timer registered under "t", got back into another variable, updated through both,
    stopped by Unregister and updated again *)
Definition timer_story : list (op * orc) :=
  [(OUpdate 1 7, orc0); (OGet 0 "t", orc0); (OUpdate 2 5, orc0); (OUnregister 0 "t", orc0); (OUpdateSince 2 (-3), orc0)].
Example C43_example : let mexp := fun _ => f_half in let st := reach mexp [] in let c := OGetOrRegisterX GTimer "t" None in let st1 := fst (step mexp st (c, orc0)) in
  new_timer_call mexp st c orc0 9 /\ durations mexp 9 st1 timer_story = [7; 5; 3]%Z /\ meter_of (fst st1) (VTimer 9) = Some 8 /\
  alive (fst (run mexp st1 (firstn 3 timer_story))) = [8] /\ alive (fst (run mexp st1 timer_story)) = [].
Proof.
  cbv zeta. split; [|split; [|split; [|split]]].
  - split; [reflexivity|]. split; [reflexivity|]. cbn. lia.
  - vm_compute. reflexivity.
  - reflexivity.
  - vm_compute. reflexivity.
  - vm_compute. reflexivity.
Qed.
