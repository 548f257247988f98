(** Property C56: exporting a registry as JSON.  The registry is the value [v] which the program
    holds at [r], and [b] the registry it stands for (a prefixed registry exports the whole
    registry underlying it); the program holds the metric registered as [nm] at [at_ nm]. *)
From Coq Require Import ZArith List String Bool Lia Permutation Sorted.
From Verif.Model Require Import GoInt GoFloat GoBase World Fmt Report Json.
From Verif.Spec Require Import ApiSpec RegistrySpec HealthSpec GetAllSpec TextSpec ReportSpec WriteSpec JsonSpec.
From Verif.Proofs Require Import WorldBase WorldCalls WorldStep GetAllProofs HealthProofs RegistryProofs TextProofs ReportProofs LineProofs WriteProofs JsonProofs JsonTextProofs.
From Verif.Props Require Import SnapshotProps HealthProps GetAllProps ReportProps WriteProps.
Import ListNotations.
Local Open Scope nat_scope.
Local Open Scope string_scope.

(** what GetAll collects *)
Definition collects mexp (st : state) b o at_ (nf : string * list (string * gval)) : Prop :=
  exists i, registered (fst st) b (fst nf) = Some i /\ is_metric i = true /\
    Forall2 (fun (kg : string * gval) (ka : string * op) => fst kg = fst ka /\ reported mexp st b o i (at_ (fst nf)) (snd ka) (as_result (snd kg))) (snd nf) (accessors (cls i) (at_ (fst nf))).
Lemma collected mexp (st : state) r v b o at_ w' l : inv st -> nth_error (snd st) r = Some v -> base v = Some b ->
  (forall nm i, registered (fst st) b nm = Some i -> nth_error (snd st) (at_ nm) = Some i) ->
  reg_get_all v o (fst st) = (w', Ok l) -> visits st (VReg b) (map fst l) /\ Forall (collects mexp st b o at_) l.
Proof.
  intros I E B At H. rewrite (reg_get_all_base v b B) in H. pose proof (vok_base st v b (held_vok st r v I E) B) as V.
  destruct (reg_each_run st (VReg b) b o I V eq_refl) as (es & R & ND & Sh & F). unfold std_get_all in H. change (std_registered b) with (reg_each (VReg b)) in H. rewrite (bind_ok _ _ _ _ _ _ R) in H.
  assert (M : Forall (fun kv => is_metric (snd kv) = true) es) by (eapply Forall_impl; [|exact F]; cbn; tauto).
  destruct (all_fields o es (fst st) w' l M H) as (rds & Er & ->).
  assert (At' : forall nm i, shown st (VReg b) nm = Some i -> nth_error (snd st) (at_ nm) = Some i) by (intros nm i; rewrite base_shown; auto).
  pose proof (each_reads mexp st (VReg b) o at_ es w' rds I ND Sh F At' Er) as Rd.
  assert (Nm : map fst es = map fst rds). { clear - Rd. induction Rd as [|nm [n rd] l m (Hn & _) _ IH]; cbn [map]; [reflexivity|]. cbn [fst] in *. congruence. }
  rewrite map_map. cbn [fst]. change (map (fun x => fst x) rds) with (map fst rds). rewrite <- Nm. split; [now apply es_visits|]. rewrite Forall_map.
  assert (Ms : forall nm i, shown st (VReg b) nm = Some i -> is_metric i = true). { intros nm i Si. apply Sh in Si. rewrite Forall_forall in M. apply (M _ Si). }
  clear - Rd Ms. induction Rd as [|nm [n rd] names rds (Hn & i & Si & H) _ IH]; constructor; auto. cbn [fst snd] in *. subst n. exists i. rewrite base_shown in Si. split; [exact Si|]. split; [eapply Ms; rewrite base_shown; eauto|].
  cbn [fst snd]. unfold reported. destruct (class_eqb (cls i) CHealth) eqn:Ch.
  - assert (C : cls i = CHealth) by (destruct (cls i); try discriminate Ch; reflexivity). rewrite C. destruct H as (e & -> & Se). cbn [fields_of accessors]. constructor; [|constructor]. split; [reflexivity|]. exists e. auto.
  - destruct H as (K & A). rewrite <- K. apply (fields_answer (fun c a => answer mexp st o standard (at_ nm) c = Some (Ok a))); [|exact A]. rewrite K. intros C. rewrite C in Ch. discriminate.
Qed.
Lemma forall2_keys {A B C} (P : string * B -> string * C -> Prop) (f : string * B -> string * A) l m : (forall a, fst (f a) = fst a) -> Forall2 (fun a b => fst a = fst b /\ P a b) l m -> map fst (map f l) = map fst m.
Proof. intros Hf. induction 1 as [|a b l m (Hk & _) _ IH]; cbn [map]; [reflexivity|]. now rewrite Hf, Hk, IH. Qed.
Lemma forall2_left {A B} (R : A -> B -> Prop) l m a : Forall2 R l m -> In a l -> exists b, In b m /\ R a b.
Proof. induction 1 as [|x y l m H _ IH]; intros Hi; [contradiction|]. destruct Hi as [<-|Hi]; [exists y; split; [now left|exact H]|]. destruct (IH Hi) as (b & H1 & H2). exists b. split; [now right|exact H2]. Qed.

(** the exported text is an object with one member for each registered metric, whose value is an
    object with one member for each field; member names ascend; the numbers are what the
    accessors answer *)
Theorem C56_text : forall mexp p r v b o at_ quote number error_text w' s, let st := reach mexp p in
  nth_error (snd st) r = Some v -> base v = Some b ->
  (forall nm i, registered (fst st) b nm = Some i -> nth_error (snd st) (at_ nm) = Some i) ->
  marshal_json quote number error_text v o (fst st) = (w', Ok (Some s)) ->
  exists ms, s = object_text quote ms /\ ascending (map fst ms) /\ (forall nm, In nm (map fst ms) <-> registered (fst st) b nm <> None) /\
    forall nm t, In (nm, t) ms -> exists i, registered (fst st) b nm = Some i /\ metric_text quote number error_text mexp st b o i (at_ nm) t.
Proof.
  intros mexp p r v b o at_ quote number error_text w' s st. assert (I : inv st) by exact (reach_inv mexp p). clearbody st. intros E B At H.
  unfold marshal_json in H. destruct (reg_get_all v o (fst st)) as [w1 [l|msg]] eqn:G; [rewrite (bind_ok _ _ _ _ _ _ G) in H|rewrite (bind_panic _ _ _ _ _ _ G) in H; discriminate]. unfold ret in H. apply pair_ok in H.
  destruct (collected mexp st r v b o at_ w1 l I E B At G) as ((ND & Vis) & C). unfold marshal in H.
  edestruct object_some as (ms & -> & As & P); [|exact H|]. { rewrite map_map. cbn [fst]. exact ND. }
  exists ms. split; [reflexivity|]. split; [exact As|].
  assert (Pn : Permutation (map fst l) (map fst ms)). { apply (Permutation_map fst) in P. rewrite !map_map in P. exact P. }
  split.
  - intros nm. rewrite <- base_shown, <- Vis. split; apply Permutation_in; [symmetry; exact Pn|exact Pn].
  - intros nm t Hi. apply (in_map (fun kt => (fst kt, Some (snd kt)))) in Hi. cbn [fst snd] in Hi. apply (Permutation_in _ (Permutation_sym P)) in Hi. apply in_map_iff in Hi. destruct Hi as ([n fs] & Hi & Hl). cbn [fst snd] in Hi. injection Hi as -> Ho.
    rewrite Forall_forall in C. destruct (C _ Hl) as (i & Ri & _ & F). cbn [fst snd] in *. exists i. split; [exact Ri|].
    assert (Kn : map fst (map (fun kg => (fst kg, json_value quote number error_text (snd kg))) fs) = map fst (accessors (cls i) (at_ nm))).
    { eapply forall2_keys; [|exact F]. reflexivity. }
    assert (Nk := accessors_nodup (cls i) (at_ nm)). rewrite <- Kn in Nk. destruct (object_some quote _ t Nk Ho) as (ts & -> & Ast & Pt).
    exists ts. split; [reflexivity|]. split; [exact Ast|]. split.
    + intros k. rewrite <- Kn. assert (Pk := Permutation_map fst Pt). rewrite (map_map _ fst ts) in Pk. cbn [fst] in Pk. split; apply Permutation_in; [symmetry; exact Pk|exact Pk].
    + intros k u Hk. apply (in_map (fun kt => (fst kt, Some (snd kt)))) in Hk. cbn [fst snd] in Hk. apply (Permutation_in _ (Permutation_sym Pt)) in Hk. apply in_map_iff in Hk. destruct Hk as ([k' g] & Hg & Hf). cbn [fst snd] in Hg. injection Hg as -> Hg.
      destruct (forall2_left _ _ _ _ F Hf) as ([k' c] & Hc & Ek & Rp). cbn [fst snd] in *. subst k'. exists c, (as_result g). split; [exact Hc|]. split; [exact Rp|].
      destruct g as [n|y|[e|]]; cbn [json_value as_result value_text] in *.
      * injection Hg as <-. split; [apply parse_fmt_d|apply fmt_d_number].
      * destruct (fis_finite y) eqn:Fy; [|discriminate]. injection Hg as <-. auto.
      * injection Hg as <-. reflexivity.
      * injection Hg as <-. reflexivity.
Qed.
(** exporting fails if and only if some reported float is NaN or infinite (supposing that GetAll
    returns at all) *)
Theorem C56_iff : forall mexp p r v b o at_ quote number error_text, let st := reach mexp p in
  nth_error (snd st) r = Some v -> base v = Some b ->
  (forall nm i, registered (fst st) b nm = Some i -> nth_error (snd st) (at_ nm) = Some i) ->
  prepared mexp st (VReg b) o standard true ->
  exists w' j, marshal_json quote number error_text v o (fst st) = (w', Ok j) /\ (j = None <-> unexportable mexp st b o at_).
Proof.
  intros mexp p r v b o at_ quote number error_text st. assert (I : inv st) by exact (reach_inv mexp p). clearbody st. intros E B At Pr.
  assert (G : exists w1 l, reg_get_all v o (fst st) = (w1, Ok l)).
  { pose proof (vok_base st v b (held_vok st r v I E) B) as V. destruct (reg_each_run st (VReg b) b o I V eq_refl) as (es & R & ND & Sh & F).
    rewrite (reg_get_all_base v b B). unfold std_get_all. change (std_registered b) with (reg_each (VReg b)). rewrite (bind_ok _ _ _ _ _ _ R).
    destruct (each_set_ok true ps5 o pairs es (fst st)) as (w' & ls & Er).
    - eapply prepared_set; eauto. intros nm i. apply Sh.
    - intros nm i rd _ _. unfold pairs. eauto.
    - destruct (same_readings _ _ _ _ _ Er) as (l & G & _). eauto. }
  destruct G as (w1 & l & G). exists w1, (marshal quote number error_text l). split; [unfold marshal_json; now rewrite (bind_ok _ _ _ _ _ _ G)|].
  destruct (collected mexp st r v b o at_ w1 l I E B At G) as ((ND & Vis) & C). rewrite Forall_forall in C. unfold marshal. rewrite object_none. split.
  - intros (nm & Hi). apply in_map_iff in Hi. destruct Hi as ([n fs] & Hi & Hl). cbn [fst snd] in Hi. injection Hi as -> Ho. apply object_none in Ho. destruct Ho as (k & Hk). apply in_map_iff in Hk. destruct Hk as ([k' g] & Hg & Hf). cbn [fst snd] in Hg. injection Hg as -> Hg.
    destruct (C _ Hl) as (i & Ri & _ & F). cbn [fst snd] in *. destruct (forall2_left _ _ _ _ F Hf) as ([k' c] & Hc & Ek & Rp). cbn [fst snd] in *. subst k'.
    destruct g as [z|y|[e|]]; cbn [json_value] in Hg; try discriminate. destruct (fis_finite y) eqn:Fy; [discriminate|]. exists nm, i, k, c, y. split; [exact Ri|]. split; [exact Hc|]. split; [|exact Fy].
    cbn [as_result] in Rp. unfold reported in Rp. destruct (class_eqb (cls i) CHealth); [destruct Rp as (e & Re & _); discriminate|exact Rp].
  - intros (nm & i & k & c & y & Ri & Hc & Ha & Fy).
    assert (Hn : In nm (map fst l)) by (apply Vis; rewrite base_shown; congruence). apply in_map_iff in Hn. destruct Hn as ([n fs] & Hn & Hl). cbn [fst] in Hn. subst n.
    destruct (C _ Hl) as (i' & Ri' & _ & F). cbn [fst snd] in *. rewrite Ri in Ri'. injection Ri' as <-.
    destruct (forall2_in _ _ _ (k, c) F Hc) as ([k' g] & Hg & Ek & Rp). cbn [fst snd] in *. subst k'.
    exists nm. apply in_map_iff. exists (nm, fs). split; [|exact Hl]. cbn [fst snd]. f_equal. apply object_none. exists k. apply in_map_iff. exists (k, g). split; [|exact Hg]. cbn [fst snd]. f_equal.
    assert (Nh : class_eqb (cls i) CHealth = false).
    { destruct (class_eqb (cls i) CHealth) eqn:Ch; auto. exfalso. assert (Ci : cls i = CHealth) by (destruct (cls i); try discriminate Ch; reflexivity). rewrite Ci in Hc. destruct Hc as [Hc|[]]. injection Hc as <- <-.
      unfold answer in Ha. cbn [order_free] in Ha. unfold World.step in Ha. cbn [fst snd World.call] in Ha. rewrite (At _ _ Ri) in Ha. cbn [obind] in Ha. destruct i; try discriminate Ci; unfold only in Ha; cbn [cls class_eqb] in Ha.
      - unfold health_error in Ha. unfold bind, load in Ha. destruct (nth_error (heap (fst st)) l0) as [[]|]; try discriminate Ha. 
      - discriminate Ha. }
    unfold reported in Rp. rewrite Nh in Rp. rewrite Ha in Rp. injection Rp as Rp. destruct g as [z|z|e]; cbn [as_result] in Rp; try discriminate. injection Rp as <-. cbn [json_value]. now rewrite Fy.
Qed.
(** WriteJSONOnce writes the exported text and a line feed, or nothing at all *)
Theorem C56_write : forall mexp p r v b o at_ quote number error_text, let st := reach mexp p in
  nth_error (snd st) r = Some v -> base v = Some b ->
  (forall nm i, registered (fst st) b nm = Some i -> nth_error (snd st) (at_ nm) = Some i) ->
  prepared mexp st (VReg b) o standard true ->
  exists w' out, write_json_once quote number error_text v o (fst st) = (w', Ok out) /\
    (unexportable mexp st b o at_ -> out = "") /\
    (~ unexportable mexp st b o at_ -> exists s w1, out = s ++ newline /\ marshal_json quote number error_text v o (fst st) = (w1, Ok (Some s))).
Proof.
  intros mexp p r v b o at_ quote number error_text st E B At Pr.
  destruct (C56_iff mexp p r v b o at_ quote number error_text E B At Pr) as (w' & j & H & Iff). fold st in H, Iff. unfold write_json_once. rewrite (bind_ok _ _ _ _ _ _ H). do 2 eexists. split; [reflexivity|]. split.
  - intros U. apply Iff in U. now subst.
  - intros U. destruct j as [s|]; [exists s, w'; auto|]. exfalso. apply U, Iff. reflexivity.
Qed.

(** a float gauge holding NaN makes the whole registry unexportable *)
Theorem C56_nan_gauge : forall mexp p r v b o at_ quote number error_text nm i x, let st := reach mexp p in
  nth_error (snd st) r = Some v -> base v = Some b ->
  (forall nm i, registered (fst st) b nm = Some i -> nth_error (snd st) (at_ nm) = Some i) ->
  prepared mexp st (VReg b) o standard true ->
  registered (fst st) b nm = Some i -> cls i = CGaugeF -> answer mexp st o standard (at_ nm) (OValue (at_ nm)) = Some (Ok (RF x)) -> fis_finite x = false ->
  exists w1 w2, marshal_json quote number error_text v o (fst st) = (w1, Ok None) /\ write_json_once quote number error_text v o (fst st) = (w2, Ok "").
Proof.
  intros mexp p r v b o at_ quote number error_text nm i x st E B At Pr Ri C A Fx.
  assert (U : unexportable mexp st b o at_). { exists nm, i, "value", (OValue (at_ nm)), x. rewrite C. repeat split; auto. now left. }
  destruct (C56_iff mexp p r v b o at_ quote number error_text E B At Pr) as (w1 & j & H & Iff). destruct (C56_write mexp p r v b o at_ quote number error_text E B At Pr) as (w2 & out & H2 & Hu & _).
  exists w1, w2. split; [rewrite (proj2 Iff U) in H; exact H|]. rewrite (Hu U) in H2. exact H2.
Qed.

(** ** examples: a counter "b" and a health check "a"; with a float gauge holding NaN; with a
    meter marked at the instant it was made *)
Definition quoted (s : string) : string := String (Ascii.ascii_of_nat 34) (s ++ String (Ascii.ascii_of_nat 34) "").
Definition fine : list (op * orc) := map (fun c => (c, hurt)) [ONew (NHealth 7); ORegister 0 "a" 1; ONew NCounter; OInc 2 (-12); ORegister 0 "b" 2; ONewPrefixedChild 0 "b"]%Z.
Definition nanned : list (op * orc) := (fine ++ map (fun c => (c, hurt)) [ONew NGaugeF; OUpdateF 4 f_nan; ORegister 0 "g" 4])%list.
Definition marked : list (op * orc) := (fine ++ map (fun c => (c, hurt)) [ONew NMeter; OMark 4 2; ORegister 0 "g" 4])%list.
Definition fine_text : string := "{" ++ quoted "a" ++ ":{" ++ quoted "error" ++ ":" ++ quoted "on fire" ++ "}," ++ quoted "b" ++ ":{" ++ quoted "count" ++ ":-12}}".
Definition at_f (nm : string) : nat := if String.eqb nm "a" then 1 else if String.eqb nm "b" then 2 else 4.
Definition third (g : option val) (nm : string) : option val :=
  if String.eqb "a" nm then Some (VHealth 2) else if String.eqb "b" nm then Some (VCounter 3) else if String.eqb "g" nm then g else None.
Definition exported (p : list (op * orc)) (v : val) : res (option string) := snd (marshal_json quoted (fun _ => "0.5") (fun _ => "on fire") v hurt (fst (reach one_exp p))).
Definition written_json (p : list (op * orc)) (v : val) : res string := snd (write_json_once quoted (fun _ => "0.5") (fun _ => "on fire") v hurt (fst (reach one_exp p))).
Lemma third_registered p g nm : nth_error (heap (fst (reach one_exp p))) 0 = Some (OReg (("a", VHealth 2) :: ("b", VCounter 3) :: match g with Some i => [("g", i)] | None => [] end)) -> registered (fst (reach one_exp p)) 0 nm = third g nm.
Proof.
  intros H. unfold registered, third. rewrite H. unfold find. destruct g as [i|]; cbn [fst snd]; destruct (String.eqb "a" nm); try reflexivity; destruct (String.eqb "b" nm); try reflexivity; destruct (String.eqb "g" nm); reflexivity.
Qed.
Lemma third_meets p g : nth_error (heap (fst (reach one_exp p))) 0 = Some (OReg (("a", VHealth 2) :: ("b", VCounter 3) :: match g with Some i => [("g", i)] | None => [] end)) ->
  nth_error (snd (reach one_exp p)) 1 = Some (VHealth 2) -> nth_error (snd (reach one_exp p)) 2 = Some (VCounter 3) -> (forall i, g = Some i -> nth_error (snd (reach one_exp p)) 4 = Some i) ->
  match g with Some (VGaugeF _) | Some (VMeter _) | None => True | _ => False end ->
  (forall nm i, registered (fst (reach one_exp p)) 0 nm = Some i -> nth_error (snd (reach one_exp p)) (at_f nm) = Some i) /\ prepared one_exp (reach one_exp p) (VReg 0) hurt standard true.
Proof.
  intros H H1 H2 H4 K. split.
  - intros nm i R. rewrite (third_registered p g nm H) in R. unfold third in R. destruct (String.eqb_spec "a" nm) as [<-|_]; [injection R as <-; exact H1|]. destruct (String.eqb_spec "b" nm) as [<-|_]; [injection R as <-; exact H2|]. destruct (String.eqb_spec "g" nm) as [<-|_]; [apply H4; exact R|discriminate].
  - split.
    + intros nm i S C. rewrite base_shown, (third_registered p g nm H) in S. unfold third in S. destruct (String.eqb "a" nm); [injection S as <-; destruct C; discriminate|]. destruct (String.eqb "b" nm); [injection S as <-; destruct C; discriminate|].
      destruct (String.eqb "g" nm); [|discriminate]. subst g. destruct i; try contradiction; destruct C; discriminate.
    + intros _ nm lh e f _ _ e'. reflexivity.
Qed.
(** the registry can be exported, also through the prefixed child *)
Example C56_example : let st := reach one_exp fine in
  nth_error (snd st) 0 = Some (VReg 0) /\ nth_error (snd st) 3 = Some (VPref (VReg 0) "b") /\
  (forall nm i, registered (fst st) 0 nm = Some i -> nth_error (snd st) (at_f nm) = Some i) /\ prepared one_exp st (VReg 0) hurt standard true /\
  exported fine (VReg 0) = Ok (Some fine_text) /\ exported fine (VPref (VReg 0) "b") = Ok (Some fine_text) /\ written_json fine (VReg 0) = Ok (fine_text ++ newline).
Proof.
  cbv zeta. split; [vm_compute; reflexivity|]. split; [vm_compute; reflexivity|].
  destruct (third_meets fine None) as (A & P); [vm_compute; reflexivity|vm_compute; reflexivity|vm_compute; reflexivity|discriminate|exact Logic.I|]. split; [exact A|]. split; [exact P|]. split; [|split]; vm_compute; reflexivity.
Qed.
Lemma infinite_answer a : match a with Some (Ok (RF x)) => negb (fis_finite x) | _ => false end = true -> exists x, a = Some (Ok (RF x)) /\ fis_finite x = false.
Proof. destruct a as [[[]|]|]; try discriminate. intros H. apply negb_true_iff in H. eauto. Qed.
Example C56_nan_gauge_example : let st := reach one_exp nanned in
  nth_error (snd st) 0 = Some (VReg 0) /\ (forall nm i, registered (fst st) 0 nm = Some i -> nth_error (snd st) (at_f nm) = Some i) /\ prepared one_exp st (VReg 0) hurt standard true /\
  registered (fst st) 0 "g" = Some (VGaugeF 4) /\ (exists x, answer one_exp st hurt standard (at_f "g") (OValue (at_f "g")) = Some (Ok (RF x)) /\ fis_finite x = false) /\
  exported nanned (VReg 0) = Ok None /\ written_json nanned (VReg 0) = Ok "".
Proof.
  cbv zeta. split; [vm_compute; reflexivity|].
  destruct (third_meets nanned (Some (VGaugeF 4))) as (A & P); [vm_compute; reflexivity|vm_compute; reflexivity|vm_compute; reflexivity|intros i [= <-]; vm_compute; reflexivity|exact Logic.I|]. split; [exact A|]. split; [exact P|].
  split; [vm_compute; reflexivity|]. split; [|split; vm_compute; reflexivity]. apply infinite_answer. vm_compute. reflexivity.
Qed.
(** the mean rate of a meter marked at the instant it was made is infinite *)
Example C56_meter_example : let st := reach one_exp marked in
  nth_error (snd st) 0 = Some (VReg 0) /\ (forall nm i, registered (fst st) 0 nm = Some i -> nth_error (snd st) (at_f nm) = Some i) /\ prepared one_exp st (VReg 0) hurt standard true /\
  unexportable one_exp st 0 hurt at_f /\ exported marked (VReg 0) = Ok None /\ written_json marked (VReg 0) = Ok "".
Proof.
  cbv zeta. split; [vm_compute; reflexivity|].
  destruct (third_meets marked (Some (VMeter 8))) as (A & P); [vm_compute; reflexivity|vm_compute; reflexivity|vm_compute; reflexivity|intros i [= <-]; vm_compute; reflexivity|exact Logic.I|]. split; [exact A|]. split; [exact P|].
  split; [|split; vm_compute; reflexivity]. exists "g", (VMeter 8), "mean.rate", (OMRate 4 RKMean), (f_inf false).
  split; [rewrite (third_registered marked (Some (VMeter 8))); vm_compute; reflexivity|]. split; [cbn; tauto|]. split; vm_compute; reflexivity.
Qed.
