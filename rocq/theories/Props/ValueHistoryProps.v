(** Property C71: what counters and gauges show in any program. *)
From Coq Require Import ZArith List String Bool Lia Arith.
From Verif.Model Require Import GoInt GoFloat GoBase Stats Uniform ExpDecay Conc CounterGauge Ewma Meter World.
From Verif.Spec Require Import RegistrySpec ContentSpec.
From Verif.Proofs Require Import IntFacts FloatFacts WorldBase WorldStep WorldFrame WorldReads MeterHistory Content.
From Verif.Props Require Import SnapshotProps StopProps ReportProps.
Import ListNotations.
Local Open Scope nat_scope.
Local Open Scope list_scope.

(** A call returned a new counter (by NewCounter, GetOrRegisterCounter and so on), and then any
    program ran.  Every reference to it shows the int64 sum of what Inc and Dec were given
    since the last Clear; nothing else in the program matters. *)
Theorem C71_counter : forall mexp p c o l q x o', let st := reach mexp p in let st1 := fst (step mexp st (c, o)) in let st2 := run mexp st1 q in let n := wrap64 (sum_since (along (counted l) mexp st1 q)) in
  snd (step mexp st (c, o)) = Some (Ok (RVal (VCounter l))) -> List.length (heap (fst st)) <= l -> nth_error (snd st2) x = Some (VCounter l) ->
  snd (step mexp st2 (OCount x, o')) = Some (Ok (RZ n)) /\ snd (step mexp st2 (OSnapshot x, o')) = Some (Ok (RVal (VCounterSnap n))).
Proof.
  intros mexp p c o l q x o' st. assert (I : inv st) by exact (reach_inv mexp p). clearbody st. intros st1 st2 n R L X.
  destruct (fresh_simple mexp st c o _ l I R eq_refl L) as (y & Ey & F). cbn in F. subst y. fold st1 in Ey.
  assert (J : cinv l st2 ([] ++ along (counted l) mexp st1 q)).
  { apply (along_run mexp (counted l) (fun _ => True) (cinv l)); auto.
    - intros. now apply counter_step.
    - apply (step_inv mexp st c o I). }
  cbn [app] in J. unfold cinv in J. fold n in J. split.
  - rewrite (read_ok mexp st2 (OCount x) o' x (VCounter l) (DCounter n) eq_refl X); [reflexivity|]. cbn [vdata]. now rewrite J.
  - unfold World.step. cbn [fst snd World.call]. rewrite X. cbn [obind]. unfold m_snapshot. cbn [cls]. unfold v_rv, counter_snapshot, c_do, c_load, bind, load. rewrite J. reflexivity.
Qed.
Print Assumptions C71_counter.
(** A gauge shows what Update was last given, 0 before. *)
Theorem C71_gauge : forall mexp p c o l q x o', let st := reach mexp p in let st1 := fst (step mexp st (c, o)) in let st2 := run mexp st1 q in let n := last (along (set_to l) mexp st1 q) 0%Z in
  snd (step mexp st (c, o)) = Some (Ok (RVal (VGauge l))) -> List.length (heap (fst st)) <= l -> nth_error (snd st2) x = Some (VGauge l) ->
  snd (step mexp st2 (OValue x, o')) = Some (Ok (RZ n)) /\ snd (step mexp st2 (OSnapshot x, o')) = Some (Ok (RVal (VGaugeSnap n))).
Proof.
  intros mexp p c o l q x o' st. assert (I : inv st) by exact (reach_inv mexp p). clearbody st. intros st1 st2 n R L X.
  destruct (fresh_simple mexp st c o _ l I R eq_refl L) as (y & Ey & F). cbn in F. subst y. fold st1 in Ey.
  assert (J : ginv l st2 ([] ++ along (set_to l) mexp st1 q)).
  { apply (along_run mexp (set_to l) (fun _ => True) (ginv l)); auto.
    - intros. now apply gauge_step.
    - apply (step_inv mexp st c o I). }
  cbn [app] in J. unfold ginv in J. fold n in J. split.
  - rewrite (read_ok mexp st2 (OValue x) o' x (VGauge l) (DGauge n) eq_refl X); [reflexivity|]. cbn [vdata]. now rewrite J.
  - unfold World.step. cbn [fst snd World.call]. rewrite X. cbn [obind]. unfold m_snapshot. cbn [cls]. unfold v_rv, gauge_snapshot, g_do, bind, load. rewrite J. reflexivity.
Qed.
Print Assumptions C71_gauge.
(** The same for GaugeFloat64, NaNs with their payload and signed zeros included. *)
Theorem C71_gauge_float64 : forall mexp p c o l q x o', let st := reach mexp p in let st1 := fst (step mexp st (c, o)) in let st2 := run mexp st1 q in let v := last (along (set_tof l) mexp st1 q) f_zero in
  snd (step mexp st (c, o)) = Some (Ok (RVal (VGaugeF l))) -> List.length (heap (fst st)) <= l -> nth_error (snd st2) x = Some (VGaugeF l) ->
  snd (step mexp st2 (OValue x, o')) = Some (Ok (RF v)) /\ snd (step mexp st2 (OSnapshot x, o')) = Some (Ok (RVal (VGaugeFSnap v))).
Proof.
  intros mexp p c o l q x o' st. assert (I : inv st) by exact (reach_inv mexp p). clearbody st. intros st1 st2 v R L X.
  destruct (fresh_simple mexp st c o _ l I R eq_refl L) as (y & Ey & F). cbn in F. subst y. fold st1 in Ey.
  assert (J : gfinv l st2 ([] ++ along (set_tof l) mexp st1 q)).
  { apply (along_run mexp (set_tof l) (fun _ => True) (gfinv l)); auto.
    - intros. now apply gaugef_step.
    - apply (step_inv mexp st c o I). }
  cbn [app] in J. unfold gfinv in J. 
  assert (V : float64frombits (last (map float64bits (along (set_tof l) mexp st1 q)) 0%Z) = v).
  { unfold v. generalize (along (set_tof l) mexp st1 q). intros es. induction es as [|e es IH]; [apply f64_eq_bits; vm_compute; reflexivity|].
    destruct es as [|e' es]; [cbn [map last]; apply frombits_bits|]. exact IH. }
  split.
  - rewrite (read_ok mexp st2 (OValue x) o' x (VGaugeF l) (DGaugeF v) eq_refl X); [reflexivity|]. cbn [vdata]. rewrite J. now rewrite V.
  - unfold World.step. cbn [fst snd World.call]. rewrite X. cbn [obind]. unfold m_snapshot. cbn [cls]. unfold v_rv, gaugef_snapshot, gf_do, bind, load. rewrite J. unfold store, ret. cbn [fst snd]. rewrite <- V. reflexivity.
Qed.
Print Assumptions C71_gauge_float64.

(** a registered counter, reached through the registry too *)
Local Open Scope string_scope.
Definition counter_story : list (op * orc) :=
  [(OInc 1 7, orc0); (OGetOrRegisterX GCounter "c" None, orc0); (OClear 2, orc0); (OInc 2 5, orc0); (ONew NCounter, orc0); (OInc 3 1000, orc0); (ODec 1 (- 2 ^ 63), orc0); (OGetAll 0, orc0); (OUnregister 0 "c", orc0)]%Z.
Example C71_example : let st := reach one_exp [] in let c := OGetOrRegisterX GCounter "c" None in let st1 := fst (step one_exp st (c, orc0)) in let st2 := run one_exp st1 counter_story in
  snd (step one_exp st (c, orc0)) = Some (Ok (RVal (VCounter 2))) /\ List.length (heap (fst st)) = 2 /\ nth_error (snd st2) 2 = Some (VCounter 2) /\
  along (counted 2) one_exp st1 counter_story = [CAdded 7; CCleared; CAdded 5; CAdded (2 ^ 63)]%Z /\
  wrap64 (sum_since [CAdded 7; CCleared; CAdded 5; CAdded (2 ^ 63)])%Z = (- 2 ^ 63 + 5)%Z.
Proof. cbv zeta. repeat split; vm_compute; reflexivity. Qed.
Example C71_example_gauge : let st := reach one_exp [] in let st1 := fst (step one_exp st (ONew NGauge, orc0)) in let q := [(OUpdate 1 7, orc0); (ONew NGauge, orc0); (OUpdate 2 9, orc0); (OUpdate 1 8, orc0); (ONewRegistered NGauge "g" None, orc0)]%Z in
  snd (step one_exp st (ONew NGauge, orc0)) = Some (Ok (RVal (VGauge 2))) /\ along (set_to 2) one_exp st1 q = [7; 8]%Z /\ snd (step one_exp (run one_exp st1 q) (OValue 3, orc0)) = Some (Ok (RZ 0)).
Proof. cbv zeta. repeat split; vm_compute; reflexivity. Qed.
Example C71_example_gauge_float64 : let st := reach one_exp [] in let st1 := fst (step one_exp st (ONewRegistered NGaugeF "g" (Some 0), orc0)) in let q := [(OUpdateF 1 f_half, orc0); (OGet 0 "g", orc0); (OUpdateF 2 f_zero, orc0); (OUpdateF 2 f_half, orc0)]%Z in
  snd (step one_exp st (ONewRegistered NGaugeF "g" (Some 0), orc0)) = Some (Ok (RVal (VGaugeF 2))) /\ map float64bits (along (set_tof 2) one_exp st1 q) = map float64bits [f_half; f_zero; f_half] /\ nth_error (snd (run one_exp st1 q)) 2 = Some (VGaugeF 2).
Proof. cbv zeta. repeat split; vm_compute; reflexivity. Qed.
