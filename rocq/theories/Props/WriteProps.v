(** Property C45: WriteOnce. *)
From Coq Require Import ZArith List String Ascii Bool Lia Permutation Sorted.
From Verif.Model Require Import GoInt GoFloat GoBase World Fmt Report.
From Verif.Spec Require Import ApiSpec RegistrySpec HealthSpec GetAllSpec TextSpec ReportSpec WriteSpec.
From Verif.Proofs Require Import WorldBase WorldCalls WorldStep GetAllProofs HealthProofs RegistryProofs TextProofs ReportProofs LineProofs WriteProofs.
From Verif.Props Require Import SnapshotProps HealthProps GetAllProps ReportProps.
Import ListNotations.
Local Open Scope nat_scope.
Local Open Scope string_scope.

Lemma es_visits (st : state) v es : NoDup (map fst es) -> (forall nm i, In (nm, i) es <-> shown st v nm = Some i) -> visits st v (map fst es).
Proof.
  intros ND Sh. split; [exact ND|]. intros nm. split.
  - intros Hn. apply in_map_iff in Hn. destruct Hn as ([n i] & <- & Hn). apply Sh in Hn. cbn. congruence.
  - intros Hn. destruct (shown st v nm) as [i|] eqn:Si; [|congruence]. apply Sh in Si. apply (in_map fst) in Si. exact Si.
Qed.
Lemma held_vok (st : state) r v : inv st -> nth_error (snd st) r = Some v -> vok (heap (fst st)) v.
Proof. intros [_ F] E. rewrite Forall_forall in F. apply F. eapply nth_error_In; eauto. Qed.
Lemma sorted_run (st : state) v b o sort : inv st -> vok (heap (fst st)) v -> base v = Some b -> sorts sort ->
  exists es, reg_each v o (fst st) = (fst st, Ok es) /\ NoDup (map fst (sort es)) /\ (forall nm i, In (nm, i) (sort es) <-> shown st v nm = Some i) /\
    Forall (fun kv => is_metric (snd kv) = true /\ vok (heap (fst st)) (snd kv)) (sort es) /\ StronglySorted (fun a b => String.ltb a b = true) (map fst (sort es)) /\ Permutation (sort es) es.
Proof.
  intros I V B So. destruct (reg_each_run st v b o I V B) as (es & R & ND & Sh & F). destruct (So es) as (P & S). exists es. split; [exact R|].
  assert (ND' : NoDup (map fst (sort es))) by (eapply Permutation_NoDup; [apply Permutation_map; symmetry; exact P|exact ND]). repeat match goal with |- _ /\ _ => split end; auto.
  - intros nm i. rewrite <- Sh. split; apply Permutation_in; [exact P|symmetry; exact P].
  - eapply Permutation_Forall; [symmetry; exact P|exact F].
  - now apply sorted_names.
Qed.

(** the output consists of one block of lines for each registered metric, in ascending order
    of the names *)
Theorem C45_write : forall mexp p r v b o at_ error_text sort w' out, let st := reach mexp p in
  nth_error (snd st) r = Some v -> base v = Some b -> sorts sort ->
  (forall nm i, shown st v nm = Some i -> nth_error (snd st) (at_ nm) = Some i) ->
  write_once error_text sort v o (fst st) = (w', Ok out) ->
  exists names blocks, visits st v names /\ ascending names /\ out = String.concat "" (map (fun l => l ++ newline) (List.concat blocks)) /\
    Forall2 (fun nm ls => exists i, shown st v nm = Some i /\ block mexp error_text st v o text_rows 1 "" (at_ nm) nm i ls) names blocks.
Proof.
  intros mexp p r v b o at_ error_text sort w' out st. assert (I : inv st) by exact (reach_inv mexp p). clearbody st. intros E B So At H.
  destruct (sorted_run st v b o sort I (held_vok st r v I E) B So) as (es & R & ND & Sh & F & S & _).
  unfold write_once in H. rewrite (bind_ok _ _ _ _ _ _ R) in H.
  destruct (report_each true ps5 (write_lines error_text) (sort es) o (fst st)) as [w1 [ls|msg]] eqn:Er; [rewrite (bind_ok _ _ _ _ _ _ Er) in H|rewrite (bind_panic _ _ _ _ _ _ Er) in H; discriminate].
  unfold ret in H. apply pair_ok in H. subst out.
  assert (M : Forall (fun kv => is_metric (snd kv) = true) (sort es)) by (eapply Forall_impl; [|exact F]; cbn; tauto).
  destruct (each_readings ps5 (write_lines error_text) o (sort es) (fst st) w1 ls M Er) as (rds & outs & Ep & _ & -> & Fo).
  pose proof (each_reads mexp st v o at_ (sort es) w1 rds I ND Sh F At Ep) as Rd.
  destruct (blocks_of mexp error_text st v o at_ (write_lines error_text) text_rows 1 "" (map fst (sort es)) rds outs) as (blocks & Eb & Bl).
  - intros nm e l Hl. unfold write_lines in Hl. injection Hl as <-. now rewrite !app_assoc'.
  - intros Q x nm rd l. apply write_rows.
  - exact Rd.
  - exact Fo.
  - exists (map fst (sort es)), blocks. split; [now apply es_visits|]. split; [now apply StronglySorted_Sorted|]. split; [unfold text; now rewrite Eb|exact Bl].
Qed.
(** neither the output nor any effect depends on the iteration order of the map, or on the
    sorting algorithm *)
Theorem C45_order : forall mexp p r v b o error_text sort sort' order, let st := reach mexp p in
  nth_error (snd st) r = Some v -> base v = Some b -> sorts sort -> sorts sort' ->
  write_once error_text sort v o (fst st) = write_once error_text sort' v (reorder order o) (fst st).
Proof.
  intros mexp p r v b o error_text sort sort' order st. assert (I : inv st) by exact (reach_inv mexp p). clearbody st. intros E B So So'.
  destruct (sorted_run st v b o sort I (held_vok st r v I E) B So) as (es & R & ND & Sh & F & S & P).
  destruct (sorted_run st v b (reorder order o) sort' I (held_vok st r v I E) B So') as (es' & R' & ND' & Sh' & F' & S' & P').
  unfold write_once. rewrite (bind_ok _ _ _ _ _ _ R), (bind_ok _ _ _ _ _ _ R').
  assert (Eq : sort es = sort' es').
  { apply strongly_unique; auto. apply NoDup_Permutation.
    - eapply NoDup_map_inv; eauto.
    - eapply NoDup_map_inv; eauto.
    - intros [nm i]. now rewrite Sh, Sh'. }
  rewrite Eq. unfold bind. rewrite (oi_report_each true ps5 (write_lines error_text) (sort' es') o order (fst st)). reflexivity.
Qed.
(** WriteOnce returns if the registered histograms and timers can be read and no health check
    panics *)
Theorem C45_returns : forall mexp p r v b o error_text sort, let st := reach mexp p in
  nth_error (snd st) r = Some v -> base v = Some b -> sorts sort -> prepared mexp st v o standard true ->
  exists w' out, write_once error_text sort v o (fst st) = (w', Ok out).
Proof.
  intros mexp p r v b o error_text sort st. assert (I : inv st) by exact (reach_inv mexp p). clearbody st. intros E B So P.
  destruct (sorted_run st v b o sort I (held_vok st r v I E) B So) as (es & R & ND & Sh & F & S & _).
  unfold write_once. rewrite (bind_ok _ _ _ _ _ _ R).
  destruct (each_set_ok true ps5 o (write_lines error_text) (sort es) (fst st)) as (w' & ls & Er).
  - eapply prepared_set; eauto. intros nm i. apply Sh.
  - intros nm i rd _ _. unfold write_lines. eauto.
  - rewrite (bind_ok _ _ _ _ _ _ Er). unfold ret. eauto.
Qed.

(** ** example *)
Fixpoint put (kv : string * val) (l : list (string * val)) : list (string * val) :=
  match l with [] => [kv] | x :: r => if String.ltb (fst x) (fst kv) then x :: put kv r else kv :: x :: r end.
Definition put_all (l : list (string * val)) : list (string * val) := fold_right put [] l.
Lemma put_all_sorts : sorts put_all.
Proof.
  intros l. assert (P : forall kv l, Permutation (put kv l) (kv :: l)).
  { intros kv m. induction m as [|x m IH]; cbn [put]; auto. destruct (String.ltb (fst x) (fst kv)); auto. rewrite IH. constructor. }
  split.
  - induction l as [|a l IH]; cbn; auto. rewrite P. now constructor.
  - assert (S : forall kv m, Sorted (fun a b => String.ltb (fst b) (fst a) = false) m -> Sorted (fun a b => String.ltb (fst b) (fst a) = false) (put kv m)).
    { intros kv m S. induction S as [|x m S IH H]; cbn [put]; [auto|]. destruct (String.ltb (fst x) (fst kv)) eqn:L.
      - constructor; auto. assert (Lk : String.ltb (fst kv) (fst x) = false).
        { destruct (String.ltb (fst kv) (fst x)) eqn:K; auto. pose proof (ltb_trans _ _ _ L K) as C. now rewrite ltb_irrefl in C. }
        destruct H as [|y m H]; cbn [put]; [auto|]. destruct (String.ltb (fst y) (fst kv)); auto.
      - constructor; auto. }
    induction l as [|a l IH]; cbn; auto.
Qed.
(** a failing health check "h", a timer "b" and a gauge "a", registered in this order *)
Definition hurt : orc := MkOrc (8 * 10 ^ 9) 0 f_zero (fun _ => 0%Z) (fun _ => f_zero) (fun _ _ => [HUnhealthy (Some (EUser 5))]) [].
Definition shop : list (op * orc) := map (fun c => (c, hurt))
  [ONew (NHealth 7); ORegister 0 "h" 1; ONew NTimer; OUpdate 2 30; OUpdate 2 12; ORegister 0 "b" 2; ONew NGauge; OUpdate 3 (-5); ORegister 0 "a" 3]%Z.
Definition written : string := String.concat newline
  ["gauge a"; "  value:              -5";
   "timer b"; "  count:               2"; "  min:                12"; "  max:                30"; "  mean:               21.00"; "  stddev:              9.00"; "  median:             21.00";
   "  75%:                30.00"; "  95%:                30.00"; "  99%:                30.00"; "  99.9%:              30.00";
   "  1-min rate:          0.00"; "  5-min rate:          0.00"; "  15-min rate:         0.00"; "  mean rate:           +Inf";
   "healthcheck h"; "  error:       on fire"; ""].
Lemma shop_shown nm : shown (reach one_exp shop) (VReg 0) nm = if String.eqb "h" nm then Some (VHealth 2) else if String.eqb "b" nm then Some (VTimer 10) else if String.eqb "a" nm then Some (VGauge 11) else None.
Proof.
  unfold shown. cbn [base]. change (full (VReg 0) "") with "". assert (P : String.prefix "" nm = true) by (destruct nm; reflexivity). rewrite P. unfold registered.
  replace (nth_error (heap (fst (reach one_exp shop))) 0) with (Some (OReg [("h", VHealth 2); ("b", VTimer 10); ("a", VGauge 11)])) by (vm_compute; reflexivity). unfold find. cbn [fst snd].
  destruct (String.eqb "h" nm); [reflexivity|]. destruct (String.eqb "b" nm); [reflexivity|]. destruct (String.eqb "a" nm); reflexivity.
Qed.
Definition at_shop (nm : string) : nat := if String.eqb nm "h" then 1 else if String.eqb nm "b" then 2 else 3.
Example C45_example : let st := reach one_exp shop in
  nth_error (snd st) 0 = Some (VReg 0) /\ sorts put_all /\ prepared one_exp st (VReg 0) hurt standard true /\
  (forall nm i, shown st (VReg 0) nm = Some i -> nth_error (snd st) (at_shop nm) = Some i) /\
  snd (write_once (fun _ => "on fire") put_all (VReg 0) hurt (fst st)) = Ok written /\
  snd (write_once (fun _ => "on fire") put_all (VReg 0) (reorder [2; 0; 1]%nat hurt) (fst st)) = Ok written.
Proof.
  cbv zeta. split; [vm_compute; reflexivity|]. split; [exact put_all_sorts|]. split; [|split; [|split; vm_compute; reflexivity]].
  - split.
    + intros nm i Si C. rewrite shop_shown in Si. destruct (String.eqb "h" nm); [injection Si as <-; destruct C; discriminate|]. destruct (String.eqb "b" nm); [|destruct (String.eqb "a" nm); [injection Si as <-; destruct C; discriminate|discriminate]]. injection Si as <-.
      assert (S1 : returned (snd (step one_exp (reach one_exp shop) (OSnapshot 2, hurt))) = true) by (vm_compute; reflexivity). apply returned_ok in S1. destruct S1 as (r1 & S1).
      assert (S2 : returned (snd (step one_exp (reach one_exp shop) (OPercentiles 2 standard, hurt))) = true) by (vm_compute; reflexivity). apply returned_ok in S2. destruct S2 as (r2 & S2).
      exists 2, r1, r2. split; [vm_compute; reflexivity|auto].
    + intros _ nm lh e f _ _ e'. reflexivity.
  - intros nm i Si. rewrite shop_shown in Si. destruct (String.eqb_spec "h" nm) as [<-|_]; [injection Si as <-; vm_compute; reflexivity|].
    destruct (String.eqb_spec "b" nm) as [<-|_]; [injection Si as <-; vm_compute; reflexivity|]. destruct (String.eqb_spec "a" nm) as [<-|_]; [injection Si as <-; vm_compute; reflexivity|discriminate].
Qed.
