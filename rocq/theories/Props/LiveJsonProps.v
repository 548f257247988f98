(** Property C72, the JSON export while the rest of the process goes on. *)
From Coq Require Import ZArith List String Bool Lia Permutation Sorted.
From Verif.Model Require Import GoInt GoFloat GoBase World Fmt Report Json Live LiveJson.
From Verif.Spec Require Import ApiSpec RegistrySpec HealthSpec GetAllSpec TextSpec ReportSpec ReadOnlySpec WriteSpec JsonSpec LiveSpec LiveJsonSpec.
From Verif.Proofs Require Import WorldBase WorldStep GetAllProofs TextProofs ReportProofs LineProofs WriteProofs JsonProofs JsonTextProofs LiveProofs.
From Verif.Props Require Import SnapshotProps HealthProps GetAllProps ReportProps JsonProps LiveProps.
Import ListNotations.
Local Open Scope nat_scope.
Local Open Scope string_scope.

Lemma zip_visited mexp s0 v (out : list (string * list (string * gval))) is_ segs : List.length segs = List.length out ->
  Forall2 (fun nf i => shown s0 v (fst nf) = Some i) out is_ -> Forall2 (fun i sf => listed mexp i (fst sf) (snd sf)) is_ (combine segs (map snd out)) ->
  exists vs : visited, map (fun t => fst (fst t)) vs = map fst out /\ map snd vs = segs /\ Forall (fun t => shown s0 v (fst (fst t)) = Some (snd (fst t))) vs /\
    forall n fs, In (n, fs) out -> exists i seg, In (n, i, seg) vs /\ listed mexp i seg fs.
Proof.
  intros L F. revert segs L. induction F as [|[n fs] i out is_ S F IH]; intros [|seg segs] L G; try discriminate L.
  - exists []. cbn. repeat split; auto. contradiction.
  - cbn [map combine] in G. inversion G as [|? ? ? ? G1 G2]; subst. injection L as L. destruct (IH _ L G2) as (vs & V1 & V2 & V3 & V4). exists ((n, i, seg) :: vs). cbn [map fst snd] in *.
    split; [congruence|]. split; [congruence|]. split; [now constructor|]. intros n' fs' [Hi|Hi].
    + injection Hi as <- <-. exists i, seg. split; [now left|exact G1].
    + destruct (V4 _ _ Hi) as (i' & sg & Hv & Ht). exists i', sg. split; [now right|exact Ht].
Qed.
Lemma listed_health mexp i seg fs : class_eqb (cls i) CHealth = true -> listed mexp i seg fs -> exists e, fs = [("error", GE e)] /\ error_seen mexp i seg e.
Proof.
  intros C H. unfold listed in H. destruct (cls i); try discriminate C. destruct H as (x & s1 & s2 & o1 & o2 & q & e & H1 & H2 & H3 & H4 & H5 & ->). exists e. split; [reflexivity|]. exists x, s1, s2, o1, o2, q. auto.
Qed.
Lemma listed_other mexp i seg fs : class_eqb (cls i) CHealth = false -> listed mexp i seg fs ->
  exists x s o, In s seg /\ nth_error (snd s) x = Some i /\
    Forall2 (fun (kg : string * gval) (ka : string * op) => fst kg = fst ka /\ answer mexp s o standard x (snd ka) = Some (Ok (as_result (snd kg)))) fs (accessors (cls i) x).
Proof. intros C H. unfold listed in H. destruct (cls i); try discriminate C; exact H. Qed.
Lemma value_written quote number error_text g t : json_value quote number error_text g = Some t -> value_text quote number error_text (as_result g) t.
Proof.
  intros Hg. destruct g as [n|y|[e|]]; cbn [json_value as_result value_text] in *.
  - injection Hg as <-. split; [apply parse_fmt_d|apply fmt_d_number].
  - destruct (fis_finite y) eqn:Fy; [|discriminate]. injection Hg as <-. auto.
  - injection Hg as <-. reflexivity.
  - injection Hg as <-. reflexivity.
Qed.
Lemma json_text_tells quote number error_text mexp i seg fs t : listed mexp i seg fs ->
  object quote (map (fun kg => (fst kg, json_value quote number error_text (snd kg))) fs) = Some t -> text_tells quote number error_text mexp i seg t.
Proof.
  intros Hl Ho. unfold text_tells. destruct (class_eqb (cls i) CHealth) eqn:Ch.
  - destruct (listed_health _ _ _ _ Ch Hl) as (e & -> & Es). destruct (object_some quote [("error", json_value quote number error_text (GE e))] t (NoDup_cons _ (fun x : In "error" [] => x) (NoDup_nil _)) Ho) as (ms & -> & As & P). exists ms. split; [reflexivity|]. split; [exact As|].
    cbn [map fst snd] in P. apply Permutation_length_1_inv in P. destruct ms as [|[k s] [|]]; try discriminate P. cbn [map fst snd] in P. injection P as -> P. exists e, s. split; [reflexivity|]. split; [exact Es|]. apply (value_written quote number error_text (GE e)). now symmetry.
  - destruct (listed_other _ _ _ _ Ch Hl) as (x & s & o & Hs & Ex & F).
    assert (Kn : map fst (map (fun kg => (fst kg, json_value quote number error_text (snd kg))) fs) = map fst (accessors (cls i) x)) by (eapply forall2_keys; [|exact F]; reflexivity).
    assert (Nk := accessors_nodup (cls i) x). rewrite <- Kn in Nk. destruct (object_some quote _ t Nk Ho) as (ts & -> & Ast & Pt).
    exists ts. split; [reflexivity|]. split; [exact Ast|]. exists x, s, o. split; [exact Hs|]. split; [exact Ex|]. split.
    + intros k. rewrite <- Kn. assert (Pk := Permutation_map fst Pt). rewrite (map_map _ fst ts) in Pk. cbn [fst] in Pk. split; apply Permutation_in; [symmetry; exact Pk|exact Pk].
    + intros k u Hk. apply (in_map (fun kt => (fst kt, Some (snd kt)))) in Hk. cbn [fst snd] in Hk. apply (Permutation_in _ (Permutation_sym Pt)) in Hk. apply in_map_iff in Hk. destruct Hk as ([k' g] & Hg & Hf). cbn [fst snd] in Hg. injection Hg as -> Hg.
      destruct (forall2_left _ _ _ _ F Hf) as ([k' c] & Hc & Ek & Rp). cbn [fst snd] in *. subst k'. exists c, (as_result g). split; [exact Hc|]. split; [exact Rp|]. now apply value_written.
Qed.

(** The export, if there is no panic: the metrics registered at the beginning are visited, each
    once.  The text is an object with ascending names, one member for each of them, which says
    what the metric answered at one instant.  There is an error only if a metric answered NaN
    or an infinity. *)
Theorem C72_json : forall mexp p r l gaps quote number error_text j, let st := reach mexp p in
  no_NewSampleSnapshot p -> Forall (fun g => no_NewSampleSnapshot (fst g)) gaps ->
  nth_error (snd st) r = Some (VReg l) ->
  let e := live_json mexp quote number error_text r gaps st in outcome e = Some (Ok j) ->
  exists s0 vs, acted e = s0 :: List.concat (map snd vs) /\ covers s0 (VReg l) vs /\
    match j with
    | Some s => exists ms, s = object_text quote ms /\ ascending (map fst ms) /\ (forall nm, In nm (map fst ms) <-> registered (fst s0) l nm <> None) /\
        forall nm t, In (nm, t) ms -> exists i seg, In (nm, i, seg) vs /\ text_tells quote number error_text mexp i seg t
    | None => exists nm i seg, In (nm, i, seg) vs /\ unwritable mexp i seg
    end.
Proof.
  intros mexp p r l gaps quote number error_text j st N G Er e H.
  unfold live_json in e. pose proof (ends_of _ _ _ _ H) as E. unfold e in E. destruct (ends_bind _ _ _ _ _ _ _ _ E) as (out & ss1 & g1 & st1 & ss2 & E1 & E2 & Ea).
  destruct (ends_ret _ _ _ _ _ _ _ E2) as (Ej & -> & _). rewrite app_nil_r in Ea. fold e in Ea. clear E E2 H.
  assert (H1 : outcome (live_get_all mexp r gaps st) = Some (Ok out)) by (red in E1; now rewrite E1).
  destruct (C72_get_all mexp p r l gaps out N G Er H1) as (s0 & is_ & segs & A1 & A2 & A3 & A4 & A5). fold st in A1. red in E1. rewrite E1 in A1. cbn [acted] in A1. rewrite A1 in Ea.
  destruct (zip_visited _ _ _ _ _ _ A2 A4 A5) as (vs & V1 & V2 & V3 & V4). exists s0, vs. rewrite V2. split; [exact Ea|]. split; [split; [rewrite V1; exact A3|exact V3]|].
  destruct A3 as (ND & Vis). destruct j as [s|].
  - assert (Ho : marshal quote number error_text out = Some s) by congruence. unfold marshal in Ho. edestruct object_some as (ms & -> & As & P); [|exact Ho|]. { rewrite map_map. cbn [fst]. exact ND. }
    exists ms. split; [reflexivity|]. split; [exact As|].
    assert (Pn : Permutation (map fst out) (map fst ms)). { apply (Permutation_map fst) in P. rewrite !map_map in P. exact P. }
    split.
    + intros nm. rewrite <- base_shown, <- Vis. split; apply Permutation_in; [symmetry; exact Pn|exact Pn].
    + intros nm t Hi. apply (in_map (fun kt => (fst kt, Some (snd kt)))) in Hi. cbn [fst snd] in Hi. apply (Permutation_in _ (Permutation_sym P)) in Hi. apply in_map_iff in Hi. destruct Hi as ([n fs] & Hi & Hl). cbn [fst snd] in Hi. injection Hi as -> Hf.
      destruct (V4 _ _ Hl) as (i & seg & Hv & Ht). exists i, seg. split; [exact Hv|]. eapply json_text_tells; eauto.
  - assert (Ho : marshal quote number error_text out = None) by congruence. unfold marshal in Ho. apply object_none in Ho. destruct Ho as (nm & Hi).
    apply in_map_iff in Hi. destruct Hi as ([n fs] & Hi & Hl). cbn [fst snd] in Hi. injection Hi as -> Ho. apply object_none in Ho. destruct Ho as (k & Hk). apply in_map_iff in Hk. destruct Hk as ([k' g] & Hg & Hf). cbn [fst snd] in Hg. injection Hg as -> Hg.
    destruct (V4 _ _ Hl) as (i & seg & Hv & Ht). exists nm, i, seg. split; [exact Hv|]. destruct (class_eqb (cls i) CHealth) eqn:Ch.
    + destruct (listed_health _ _ _ _ Ch Ht) as (er & -> & _). destruct Hf as [Hf|[]]. injection Hf as <- <-. destruct er; discriminate Hg.
    + destruct (listed_other _ _ _ _ Ch Ht) as (x & s & o & Hs & Ex & F). destruct (forall2_left _ _ _ _ F Hf) as ([k' c] & Hc & Ek & Rp). cbn [fst snd] in *. subst k'.
      destruct g as [z|y|[er|]]; cbn [json_value] in Hg; try discriminate. destruct (fis_finite y) eqn:Fy; [discriminate|]. exists x, s, o, k, c, y. auto 10.
Qed.
(** WriteJSONOnce writes this text and a line feed, or, if there is an error, nothing *)
Theorem C72_write_json : forall mexp quote number error_text r gaps st out,
  outcome (live_write_json mexp quote number error_text r gaps st) = Some (Ok out) <->
  exists j, outcome (live_json mexp quote number error_text r gaps st) = Some (Ok j) /\ out = match j with Some s => s ++ newline | None => "" end.
Proof.
  intros. unfold live_write_json, lbind at 1. destruct (live_json mexp quote number error_text r gaps st) as [lf ac en [[j|m]|]]; cbn.
  - split; [intros H; injection H as <-; eauto|]. intros (j' & H & ->). now injection H as <-.
  - split; [discriminate|]. intros (j' & H & _). discriminate.
  - split; [discriminate|]. intros (j' & H & _). discriminate.
Qed.

(** ** Example: a registry with a float gauge, a counter and a health check *)
Definition gauged : list (op * orc) := map (fun c => (c, o8))
  [ONew NGaugeF; OUpdateF 1 (ratio 1 2); ORegister 0 "g" 1; ONew NCounter; ORegister 0 "c" 2; ONew (NHealth 0); OUnhealthy 3 (Some (EUser 5)); ORegister 0 "a" 3]%Z.
Definition meanwhile (x : f64) : list gap := (idle 1 ++ [([(OInc 2 3, o8); (OUpdateF 1 x, o8); (OUnregister 0 "c", o8)], o8)]%Z ++ idle 9)%list.
Definition live_out (x : f64) : option (res (option string)) := outcome (live_json one_exp quoted (fun _ => "0.5") (fun _ => "on fire") 0 (meanwhile x) (reach one_exp gauged)).
Example C72_json_example :
  no_NewSampleSnapshot gauged /\ (forall x, Forall (fun g => no_NewSampleSnapshot (fst g)) (meanwhile x)) /\ nth_error (snd (reach one_exp gauged)) 0 = Some (VReg 0) /\
  live_out (ratio 1 2) = Some (Ok (Some ("{" ++ quoted "a" ++ ":{" ++ quoted "error" ++ ":" ++ quoted "on fire" ++ "}," ++ quoted "c" ++ ":{" ++ quoted "count" ++ ":3}," ++ quoted "g" ++ ":{" ++ quoted "value" ++ ":0.5}}"))) /\
  live_out f_nan = Some (Ok None).
Proof.
  repeat match goal with |- _ /\ _ => split end.
  - repeat constructor.
  - intros x. repeat constructor.
  - vm_compute. reflexivity.
  - vm_compute. reflexivity.
  - vm_compute. reflexivity.
Qed.
