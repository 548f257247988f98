(** Property C62: reports only read.  A report leaves the state [w']; the program holds the
    values [snd st] before and after it. *)
From Coq Require Import ZArith List String Bool Lia.
From Verif.Model Require Import GoInt GoFloat GoBase World Fmt Report Librato.
From Verif.Spec Require Import ApiSpec RegistrySpec GetAllSpec ReportSpec ReadOnlySpec.
From Verif.Proofs Require Import ReportProgProofs WorldBase WorldStep WorldReads WorldFrame GetAllProofs HealthProofs ReadOnlyProofs.
From Verif.Props Require Import SnapshotProps HealthProps ReportProps WriteProps LibratoProps.
Import ListNotations.
Local Open Scope Z_scope.
Local Open Scope string_scope.

(** every metric the program holds, in the registry or not, reads as it did before the report;
    Variance and StdDev add floats in the order of the sample and are left out *)
Theorem C62_readings : forall mexp p runs v o w' x c o2, let st := reach mexp p in
  reported runs v o (fst st) w' -> reads c = Some x -> order_free c = true ->
  snd (step mexp (w', snd st) (c, o2)) = snd (step mexp st (c, o2)).
Proof.
  intros mexp p runs v o w' x c o2 st. assert (I : inv st) by exact (reach_inv mexp p). clearbody st. intros H R F. apply reported_kept in H. destruct H as [G _].
  destruct (nth_error (snd st) x) as [i|] eqn:E.
  - assert (Vi : vok (heap (fst st)) i). { destruct I as [_ Fe]. rewrite Forall_forall in Fe. apply Fe. eapply nth_error_In; eauto. }
    destruct (readable i) eqn:Rd.
    + destruct (vdata_ok o2 (fst st) i (proj1 I) Vi Rd) as (d & D). destruct (gentle_vdata _ _ _ _ _ G D) as (d' & D' & Q).
      rewrite (read_ok mexp (w', snd st) c o2 x i d' R E D'), (read_ok mexp st c o2 x i d R E D). symmetry. now apply read_deq.
    + now rewrite (read_none mexp (w', snd st) c o2 x i R E Rd), (read_none mexp st c o2 x i R E Rd).
  - unfold World.step. cbn [fst snd]. destruct c; cbn [reads] in R; try discriminate R; injection R as ->; cbn [World.call]; rewrite E; reflexivity.
Qed.
(** every registry, the reported one or another, keeps its names and their metrics *)
Theorem C62_registries : forall mexp p runs v o w', let st := reach mexp p in
  reported runs v o (fst st) w' -> forall l nm, (l < List.length (heap (fst st)))%nat -> registered w' l nm = registered (fst st) l nm.
Proof.
  intros mexp p runs v o w' st. clearbody st. intros H l nm L. apply reported_kept in H. destruct H as [G _]. unfold registered.
  destruct (nth_error (heap (fst st)) l) as [x|] eqn:E; [|apply nth_error_None in E; lia]. destruct (G l x E) as (y & E' & Q). rewrite E'. destruct x, y; cbn [mild] in Q; try discriminate Q; try (injection Q as ->); reflexivity.
Qed.
(** no meter is started or stopped, the arbiter is neither started nor stopped, and
    UseNilMetrics stays as it is *)
Theorem C62_meters : forall mexp p runs v o w', let st := reach mexp p in
  reported runs v o (fst st) w' -> alive w' = alive (fst st) /\ ticking w' = ticking (fst st) /\ usenil w' = usenil (fst st).
Proof. intros mexp p runs v o w' st. clearbody st. intros H. apply reported_kept in H. destruct H as [_ (_ & _ & A & U & _)]. destruct (A eq_refl). auto. Qed.
(** Graphite, OpenTSDB, StatHat, Librato and expvar run no health check: every check keeps its
    error *)
Theorem C62_health : forall mexp p v o w' x o2, let st := reach mexp p in
  reported false v o (fst st) w' -> snd (step mexp (w', snd st) (OError x, o2)) = snd (step mexp st (OError x, o2)).
Proof.
  intros mexp p v o w' x o2 st. assert (I : inv st) by exact (reach_inv mexp p). clearbody st. intros H. apply reported_kept in H. destruct H as [G (_ & T & _)].
  unfold World.step. cbn [fst snd World.call]. destruct (nth_error (snd st) x) as [i|] eqn:E; [|reflexivity]. cbn [obind]. unfold only. destruct (class_eqb (cls i) CHealth) eqn:C; [|reflexivity].
  assert (Vi : vok (heap (fst st)) i). { destruct I as [_ Fe]. rewrite Forall_forall in Fe. apply Fe. eapply nth_error_In; eauto. }
  destruct i; try discriminate C; [|reflexivity].
  assert (exists y, nth_error (heap (fst st)) l = Some y /\ tag_of y = THealth) as (y & El & Vt) by exact Vi. destruct (G l y El) as (z & Ez & Q).
  assert (z = y). { assert (Some y = Some z); [|congruence]. rewrite <- El. apply T; auto; [eapply nth_lt; eauto|]. destruct y; try discriminate Vt. destruct z; cbn [mild] in Q; try discriminate Q. reflexivity. } subst z.
  unfold health_error, bind, load. rewrite El, Ez. destruct y; reflexivity.
Qed.

(** ** what they do change *)
(** A report is a program: whatever it does to the metrics, panicking or not, calls of the API by
    the program itself do as well (with some more variables in the program), and only calls that
    read.  So everything said about the states programs reach holds after reports, too. *)
Theorem C62_program : forall mexp p runs r v b o w', let st := reach mexp p in
  nth_error (snd st) r = Some v -> base v = Some b -> reported runs v o (fst st) w' ->
  exists q more, Forall (fun co => snd co = o /\ reading_call runs (fst co) = true) q /\ reach mexp (p ++ q) = (w', snd st ++ more)%list.
Proof.
  intros mexp p runs r v b o w' st E B R. destruct (reported_moves mexp runs v b o st w' (reach_inv mexp p) (nth_error_In _ _ E) B R) as (q & C & Eq & more & G).
  exists q, more. split; [exact C|]. unfold reach. rewrite run_app. change (World.run mexp state_init p) with st. rewrite <- Eq, <- G. apply surjective_pairing.
Qed.
(** Librato sorts a histogram's own reservoir: its variance changes in the last bits *)
Definition five_hist : list (op * orc) := five ++ [(ONew (NHist 1), orc0); (ORegister 0 "h" 2, orc0)].
Definition librato_after (p : list (op * orc)) : world := fst (build_request (fun x => fmul x x) (ten [ratio 1 2]) (1234 * 10 ^ 8) (VReg 0) orc0 (fst (reach one_exp p))).
Theorem C62_variance_refuted : exists p v o w' x, let st := reach one_exp p in
  reported false v o (fst st) w' /\ snd (step one_exp (w', snd st) (OStat x SVariance, o)) <> snd (step one_exp st (OStat x SVariance, o)).
Proof.
  exists five_hist, (VReg 0), orc0, (librato_after five_hist), 2%nat. cbv zeta. split; [apply r_librato|]. intros H. apply (f_equal fbits) in H. vm_compute in H. discriminate H.
Qed.
(** and which readings a full reservoir loses later depends on whether the report came *)
Definition two_hist : list (op * orc) := [(ONew (NUniform 2), orc0); (ONew (NHist 1), orc0); (ORegister 0 "h" 2, orc0); (OUpdate 2 30, orc0); (OUpdate 2 10, orc0)].
Theorem C62_later_refuted : exists p v o w' x c, let st := reach one_exp p in
  reported false v o (fst st) w' /\
  snd (step one_exp (run one_exp (w', snd st) [(c, o)]) (OStat x SMax, o)) = Some (Ok (RZ 30)) /\
  snd (step one_exp (run one_exp st [(c, o)]) (OStat x SMax, o)) = Some (Ok (RZ 10)).
Proof.
  exists two_hist, (VReg 0), orc0, (librato_after two_hist), 2%nat, (OUpdate 2 5). cbv zeta. split; [apply r_librato|]. split; vm_compute; reflexivity.
Qed.
(** WriteOnce runs the health checks *)
Theorem C62_health_runs_refuted : exists p v o w' x, let st := reach one_exp p in
  reported true v o (fst st) w' /\ snd (step one_exp (w', snd st) (OError x, o)) <> snd (step one_exp st (OError x, o)).
Proof.
  exists shop, (VReg 0), hurt, (fst (write_once (fun _ => "on fire") put_all (VReg 0) hurt (fst (reach one_exp shop)))), 1%nat. cbv zeta. split; [apply r_write, put_all_sorts|].
  replace (snd (step one_exp (reach one_exp shop) (OError 1, hurt))) with (Some (Ok (RErr None))) by (vm_compute; reflexivity). intros H. assert (X : match snd (step one_exp (fst (write_once (fun _ => "on fire") put_all (VReg 0) hurt (fst (reach one_exp shop))), snd (reach one_exp shop)) (OError 1, hurt)) with Some (Ok (RErr (Some _))) => true | _ => false end = true) by (vm_compute; reflexivity). rewrite H in X. discriminate X.
Qed.

(** a registry with a counter, two histograms and a timer: Librato reads it, and afterwards
    the histogram's percentile, the timer's count and the registry are what they were *)
Example C62_example : let st := reach one_exp sold in
  let w' := fst (build_request (fun x => fmul x x) (ten [ratio 1 2]) (1234 * 10 ^ 8) (VReg 0) hurt (fst st)) in
  reported false (VReg 0) hurt (fst st) w' /\ built [ratio 1 2] <> Panic msg_div0 /\
  snd (step one_exp (w', snd st) (OStat 3 SSum, hurt)) = Some (Ok (RZ 4)) /\ snd (step one_exp (w', snd st) (OCount 6, hurt)) = Some (Ok (RZ 1)) /\
  registered w' 0%nat "h" = Some (VHist 5) /\ List.length (alive w') = 1%nat.
Proof.
  cbv zeta. split; [apply r_librato|]. split; [vm_compute; discriminate|]. repeat split; vm_compute; reflexivity.
Qed.
