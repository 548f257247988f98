(** Property C70: what samples, and the histograms and timers on them, hold in any program. *)
From Coq Require Import ZArith List String Bool Lia Arith Permutation.
From Verif.Model Require Import GoInt GoFloat GoBase Stats Uniform ExpDecay Conc Ewma Meter World.
From Verif.Spec Require Import Reservoir DecaySpec RegistrySpec TimerSpec ContentSpec.
From Verif.Proofs Require Import FloatFacts ListFacts UniformProofs ExpDecayProofs WorldBase WorldStep WorldFrame WorldArrays WorldReads MeterHistory Calm Content SampleContent.
From Verif.Props Require Import SnapshotProps StopProps ReportProps.
Import ListNotations.
Local Open Scope nat_scope.
Local Open Scope list_scope.

(** NewUniformSample(n), NewExpDecaySample(n, alpha) with room for something *)
Definition makes_sample (k : newk) (n : Z) (s : val) : Prop :=
  (k = NUniform n /\ (0 <= n)%Z /\ exists l, s = VUniform l) \/ ((exists a, k = NExp n a) /\ (1 <= n)%Z /\ exists l, s = VExp l).

Lemma reach_hidden mexp p : hidden (reach mexp p).
Proof. unfold reach. exact (hidden_run mexp p state_init inv_init hidden_init). Qed.
Lemma all_when_few (xs r : list Z) n : submultiset xs r -> slen xs = Z.min (slen r) n -> (slen r <= n)%Z -> Permutation xs r.
Proof.
  intros [rest Hp] L Le. assert (rest = []) as ->; [|now rewrite app_nil_r in Hp]. apply Permutation_length in Hp. rewrite app_length in Hp. unfold slen in *. destruct rest; auto. cbn [List.length] in Hp. lia.
Qed.
(** the sample's own count and values *)
Lemma sample_holds mexp (st : state) k n o s q : inv st -> apart (fst st) -> hidden st -> makes_sample k n s -> let st1 := fst (step mexp st (ONew k, o)) in let es := along (noted s) mexp st1 q in
  snd (step mexp st (ONew k, o)) = Some (Ok (RVal s)) -> few es ->
  exists G : world -> list revent -> Prop, (forall w es d o, G w es -> few (es ++ [RecordV d]) -> G (fst (sample_update mexp d s o w)) (es ++ [RecordV d]) /\ snd (sample_update mexp d s o w) = Ok tt) /\
    (forall w es o, G w es -> G (fst (sample_clear s o w)) (es ++ [ResetAll]) /\ snd (sample_clear s o w) = Ok tt) /\
    (forall w w' es, G w es -> spared (fun _ => False) (heap w) (heap w') -> G w' es) /\ same_sample s s = true /\ G (fst (run mexp st1 q)) es /\
    exists xs, may_hold n (recorded es) xs /\ sdata (heap (fst (run mexp st1 q))) s = Some (slen (recorded es), xs).
Proof.
  intros I Ap Hd M st1 es R F. destruct (step_inv mexp st (ONew k) o I) as (I1 & _). fold st1 in I1.
  destruct M as [(-> & Hn & l & ->)|((a & ->) & Hn & l & ->)].
  - assert (U : ug l n (fst st1) []).
    { revert R. unfold st1, World.step. cbn [fst snd World.call ctor_of]. unfold obind. unfold v_rv, construct, new_uniform, unless_nil, bind, gets. destruct (usenil (fst st)); cbn [ret]; [discriminate|].
      destruct (n <? 0)%Z eqn:Z0; [discriminate|]. unfold new_slice, alloc, ret. cbn [fst snd heap set_heap]. intros X. injection X as Hl. exists (List.length (heap (fst st))), []. cbn [heap set_heap].
      rewrite app_length in Hl. cbn in Hl. subst l. split; [|split].
      - rewrite nth_error_app2 by (rewrite app_length; cbn; lia). rewrite app_length. cbn [List.length]. replace (_ - _) with 0 by lia. reflexivity.
      - rewrite nth_error_app1 by (rewrite app_length; cbn; lia). rewrite nth_error_app2, Nat.sub_diag by lia. reflexivity.
      - repeat split; cbn; auto; [change (slen (@nil Z)) with 0%Z; lia|apply submultiset_nil]. }
    assert (J : uj l n (run mexp st1 q) ([] ++ es)).
    { apply uj_run; auto. split; [now apply step_apart|]. split; [now apply hidden_step|exact U]. }
    cbn [app] in J. destruct J as (_ & _ & J). exists (ug l n). split; [intros; now apply ug_update|]. split; [intros; now apply ug_clear|]. split; [apply ug_spared|]. split; [apply Nat.eqb_refl|]. split; [exact J|].
    destruct J as (b & ys & E & Eb & (_ & _ & L & S)). cbn [u_values] in L, S. exists ys. split; [split; [exact S|split; [exact L|now apply all_when_few]]|]. cbn [sdata]. rewrite E. unfold arrdata. rewrite Eb. reflexivity.
  - assert (U : xg mexp l (Z.to_nat n) a (o_now o) (fst st1) []).
    { revert R. unfold st1, World.step. cbn [fst snd World.call ctor_of]. unfold obind. unfold v_rv, construct, new_exp, unless_nil, bind, gets. destruct (usenil (fst st)); cbn [ret]; [discriminate|].
      destruct (n <? 0)%Z eqn:Z0; [discriminate|]. unfold ask, alloc, ret. cbn [fst snd heap set_heap]. intros X. injection X as <-. exists []. cbn [heap set_heap]. split; [|reflexivity]. rewrite nth_error_app2, Nat.sub_diag by lia. reflexivity. }
    assert (HN : 1 <= Z.to_nat n) by lia.
    pose proof (xg_run mexp l (Z.to_nat n) a (o_now o) q st1 [] HN I1 U F) as J. cbn [app] in J. fold es in J.
    exists (xg mexp l (Z.to_nat n) a (o_now o)). split; [intros; now apply xg_update|]. split; [intros; now apply xg_clear|]. split; [apply xg_spared|]. split; [apply Nat.eqb_refl|]. split; [exact J|].
    destruct J as (h & E & Eh). rewrite <- Eh in F. destruct (exp_count_size mexp (Z.to_nat n) a (o_now o) h HN F) as (C & Sz & L). pose proof (exp_only_recorded mexp (Z.to_nat n) a (o_now o) h HN F) as S. rewrite Eh in C, Sz, S. rewrite Sz in L. rewrite Z2Nat.id in L by lia.
    eexists. split; [split; [exact S|split; [exact L|now apply all_when_few]]|]. cbn [sdata]. rewrite E, C. reflexivity.
Qed.

(** A sample of a program's own, and any program after: there are values [xs] that a reservoir
    of [n] may hold after what was recorded since the last Clear, and every reference to the
    sample, every histogram on it and every timer with such a histogram counts all that was
    recorded and computes its statistics from [xs]. *)
Theorem C70_contents : forall mexp p k n o s q, let st := reach mexp p in let st1 := fst (step mexp st (ONew k, o)) in let st2 := run mexp st1 q in let r := recorded (along (noted s) mexp st1 q) in
  makes_sample k n s -> snd (step mexp st (ONew k, o)) = Some (Ok (RVal s)) -> few (along (noted s) mexp st1 q) ->
  exists xs, may_hold n r xs /\
  forall x v o', nth_error (snd st2) x = Some v -> feeds (fst st2) v = Some s ->
    snd (step mexp st2 (OCount x, o')) = Some (Ok (RZ (slen r))) /\
    (forall t, snd (step mexp st2 (OStat x t, o')) = Some (Ok (stat_of t xs))) /\
    (forall ps, snd (step mexp st2 (OPercentiles x ps, o')) = Some (res_map RFs (snd (SamplePercentiles xs ps)))) /\
    (forall u, snd (step mexp st2 (OPercentile x u, o')) = Some (res_map RF (res_bind (snd (SamplePercentiles xs [u])) (fun l => sget l 0)))) /\
    (v = s -> snd (step mexp st2 (OSize x, o')) = Some (Ok (RZ (slen xs))) /\
      forall o2, snd (step mexp (fst (step mexp st2 (OValues x, o'))) (OReadSlice (List.length (snd st2)), o2)) = Some (Ok (RZs xs))).
Proof.
  intros mexp p k n o s q st. assert (I : inv st) by exact (reach_inv mexp p). assert (Ap : apart (fst st)) by exact (reach_apart mexp p). assert (Hd : hidden st) by exact (reach_hidden mexp p). clearbody st.
  intros st1 st2 r M R F. destruct (sample_holds mexp st k n o s q I Ap Hd M R F) as (G & _ & _ & _ & Ss & _ & xs & H & D). fold st1 in D. fold st2 in D. fold st1 in H. change (recorded (along (noted s) mexp st1 q)) with r in H, D.
  assert (I2 : inv st2). { unfold st2. apply inv_run. apply (step_inv mexp st (ONew k) o I). }
  exists xs. split; auto. intros x v o' E Fd. destruct (feeds_data st2 x v s _ _ o' I2 E Fd D Ss) as (d & Vd & Di & Ct & Sm).
  split; [rewrite (read_ok mexp st2 (OCount x) o' _ _ _ eq_refl E Vd); apply Ct|].
  split; [intros t; rewrite (read_ok mexp st2 (OStat x t) o' _ _ _ eq_refl E Vd); unfold read_data; rewrite Di; reflexivity|].
  split; [intros ps; rewrite (read_ok mexp st2 (OPercentiles x ps) o' _ _ _ eq_refl E Vd); unfold read_data; rewrite Di; reflexivity|].
  split; [intros u; rewrite (read_ok mexp st2 (OPercentile x u) o' _ _ _ eq_refl E Vd); unfold read_data; rewrite Di; reflexivity|].
  intros ->. assert (K : match s with VUniform _ | VExp _ => True | _ => False end) by (destruct s; try discriminate Ss; exact Logic.I).
  assert (d = DSample (slen r) xs) as -> by (destruct s; try contradiction; exact Sm).
  split; [rewrite (read_ok mexp st2 (OSize x) o' _ _ _ eq_refl E Vd); reflexivity|]. intros o2.
  assert (Vs : step mexp st2 (OValues x, o') = ((set_heap (heap (fst st2) ++ [OArr xs]) (fst st2), snd st2 ++ [VSlice (List.length (heap (fst st2)))]), Some (Ok (RVal (VSlice (List.length (heap (fst st2)))))))).
  { unfold World.step. cbn [fst snd World.call]. rewrite E. cbn [obind]. unfold World.only. assert (Cs : class_eqb (cls s) CSample = true) by (destruct s; try contradiction; reflexivity). rewrite Cs.
    assert (Sv : sample_values s o' (fst st2) = (set_heap (heap (fst st2) ++ [OArr xs]) (fst st2), Ok (VSlice (List.length (heap (fst st2)))))).
    { assert (Gn : bind (sample_contents s) (fun ys => bind (new_slice ys) (fun b => ret (VSlice b))) o' (fst st2) = (set_heap (heap (fst st2) ++ [OArr xs]) (fst st2), Ok (VSlice (List.length (heap (fst st2)))))).
      { unfold bind at 1. rewrite (r_contents s o' _ _ _ D). reflexivity. }
      destruct s; try contradiction; exact Gn. }
    unfold v_rv, bind. rewrite Sv. reflexivity. }
  rewrite Vs. cbn [fst]. unfold World.step. cbn [fst snd World.call]. unfold arg. rewrite nth_error_app2, Nat.sub_diag by lia. cbn [nth_error cls obind]. unfold slice_read, arr_get, bind, load. cbn [heap set_heap].
  rewrite nth_error_app2, Nat.sub_diag by lia. reflexivity.
Qed.
Print Assumptions C70_contents.

(** Update and Clear through the sample and through histograms on it always return. *)
Theorem C70_returns : forall mexp p k n o s q x v c o', let st := reach mexp p in let st1 := fst (step mexp st (ONew k, o)) in let st2 := run mexp st1 q in
  makes_sample k n s -> snd (step mexp st (ONew k, o)) = Some (Ok (RVal s)) -> few (along (noted s) mexp st1 (q ++ [(c, o')])) ->
  nth_error (snd st2) x = Some v -> feeds (fst st2) v = Some s -> (forall l, v <> VTimer l) -> c = OClear x \/ (exists d, c = OUpdate x d) ->
  snd (step mexp st2 (c, o')) = Some (Ok RUnit).
Proof.
  intros mexp p k n o s q x v c o' st. assert (I : inv st) by exact (reach_inv mexp p). assert (Ap : apart (fst st)) by exact (reach_apart mexp p). assert (Hd : hidden st) by exact (reach_hidden mexp p). clearbody st.
  intros st1 st2 M R F E Fd NT Hc. rewrite along_app in F. fold st2 in F. cbn [along] in F. rewrite app_nil_r in F. pose proof (few_app _ _ F) as F1.
  destruct (sample_holds mexp st k n o s q I Ap Hd M R F1) as (G & Gu & Gc & Gs & Ss & g & _). fold st1 in g. fold st2 in g.
  assert (Ec : event_call c = Some x) by (destruct Hc as [-> | (d & ->)]; reflexivity).
  destruct (event_step mexp s Ss G Gu Gc Gs st2 _ c o' x v Ec E Fd g F) as [_ Rt]. apply Rt; auto.
  destruct Hc as [-> | (d & ->)]; cbn [noted]; rewrite E, Fd, Ss; destruct v; try discriminate; exfalso; eapply NT; reflexivity.
Qed.
Print Assumptions C70_returns.

(** a sample of two, a histogram on it, a timer on the histogram, another sample beside them:
    9 is forgotten, 5, 7 and 3 (how long the timed function took) are not *)
Definition sample_story : list (op * orc) :=
  [(ONew (NHist 1), orc0); (ONew NMeter, orc0); (ONew (NCustomTimer 2 3), orc0); (ONew (NUniform 2), orc0);
   (OUpdate 2 9, orc0); (OClear 2, orc0); (OUpdate 5 1000, orc0); (OUpdate 1 5, orc0); (OUpdate 4 7, orc0); (OPercentiles 2 [f_half], orc0);
   (OSample 2, orc0); (OClear 5, orc0); (OTimeEnd 4 100, orc_at 103)]%Z.
Example C70_example : let st := reach one_exp [] in let st1 := fst (step one_exp st (ONew (NUniform 2), orc0)) in let st2 := run one_exp st1 sample_story in
  snd (step one_exp st (ONew (NUniform 2), orc0)) = Some (Ok (RVal (VUniform 3))) /\ makes_sample (NUniform 2) 2 (VUniform 3) /\
  along (noted (VUniform 3)) one_exp st1 sample_story = [RecordV 9; ResetAll; RecordV 5; RecordV 7; RecordV 3]%Z /\ recorded [RecordV 9; ResetAll; RecordV 5; RecordV 7; RecordV 3]%Z = [5; 7; 3]%Z /\
  map (fun x => option_map (feeds (fst st2)) (nth_error (snd st2) x)) [1; 2; 4; 5; 6] = [Some (Some (VUniform 3)); Some (Some (VUniform 3)); Some (Some (VUniform 3)); Some (Some (VUniform 12)); Some (Some (VUniform 3))] /\
  snd (step one_exp st2 (OCount 4, orc0)) = Some (Ok (RZ 3)) /\ snd (step one_exp st2 (OSize 6, orc0)) = Some (Ok (RZ 2)).
Proof.
  cbv zeta. split; [vm_compute; reflexivity|]. split; [left; repeat split; [lia|eauto]|]. repeat split; vm_compute; reflexivity.
Qed.
Example C70_example_few : few [RecordV 9; ResetAll; RecordV 5; RecordV 7; RecordV 3]%Z.
Proof. apply few_short. reflexivity. Qed.
(** the same with an ExpDecaySample *)
Example C70_example_exp : let st := reach one_exp [] in let k := NExp 2 f_half in let st1 := fst (step one_exp st (ONew k, orc0)) in let st2 := run one_exp st1 sample_story in
  snd (step one_exp st (ONew k, orc0)) = Some (Ok (RVal (VExp 2))) /\ makes_sample k 2 (VExp 2) /\
  along (noted (VExp 2)) one_exp st1 sample_story = [RecordV 9; ResetAll; RecordV 5; RecordV 7; RecordV 3]%Z /\
  snd (step one_exp st2 (OCount 4, orc0)) = Some (Ok (RZ 3)) /\ snd (step one_exp st2 (OSize 6, orc0)) = Some (Ok (RZ 2)).
Proof.
  cbv zeta. split; [vm_compute; reflexivity|]. split; [right; repeat split; [eauto|lia|eauto]|]. repeat split; vm_compute; reflexivity.
Qed.
