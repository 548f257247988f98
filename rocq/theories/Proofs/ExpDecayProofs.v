From Coq Require Import ZArith Reals Lra List Lia Permutation.
From Verif.Model Require Import GoInt GoFloat GoBase ExpDecay.
From Verif.Spec Require Import OrderStats Reservoir DecaySpec.
From Flocq Require Import Core.
From Verif.Proofs Require Import IntFacts FloatFacts SortFacts ExtFacts ListFacts HeapOrder ExpDecayHeap UniformProofs.
Import ListNotations.
Open Scope Z_scope.

Definition xnew (e1 u : f64) (v : Z) : entry := MkEntry (fdiv e1 u) v.

(** ** one update *)
Definition swf (N : nat) (s : expdecay) : Prop :=
  x_size s = N /\ length (h_arr (x_heap s)) = N /\ (h_len (x_heap s) <= N)%nat.

(** what an update keeps of the old contents: everything if there is room,
    everything but the root otherwise *)
Definition kept (N : nat) (s : expdecay) (gone keep : list entry) : Prop :=
  Permutation (hvalues (x_heap s)) (gone ++ keep) /\
  ((h_len (x_heap s) < N)%nat -> gone = []) /\
  (h_len (x_heap s) = N -> gone = [nth 0 (hvalues (x_heap s)) entry0]).

Lemma exp_update_ok N s t v u e1 e2 : (1 <= N)%nat -> swf N s ->
  exists s' gone keep,
    exp_update_raw s t v u e1 e2 = (s', Ok tt) /\ swf N s' /\
    x_alpha s' = x_alpha s /\ x_count s' = wrap64 (x_count s + 1) /\
    h_len (x_heap s') = Nat.min N (S (h_len (x_heap s))) /\
    kept N s gone keep /\
    (if x_t1 s <? t
     then x_t0 s' = t /\ x_t1 s' = t + rescaleThreshold /\
          Permutation (hvalues (x_heap s')) (map (scale e2) (xnew e1 u v :: keep)) /\
          (nonan (map (scale e2) (xnew e1 u v :: keep)) -> heap_ordered (x_heap s'))
     else x_t0 s' = x_t0 s /\ x_t1 s' = x_t1 s /\
          Permutation (hvalues (x_heap s')) (xnew e1 u v :: keep) /\
          (nonan (hvalues (x_heap s)) -> nonan (xnew e1 u v :: keep) ->
           heap_ordered (x_heap s) -> heap_ordered (x_heap s'))).
Proof.
  intros HN (Hs & Ha & Hl). unfold exp_update_raw.
  assert (W : hwf (x_heap s)) by (unfold hwf; lia).
  assert (H1 : exists h1 gone,
     (if (hsize (x_heap s) =? x_size s)%nat
      then res_bind (hpop (x_heap s)) (fun p => Ok (fst p)) else Ok (x_heap s)) = Ok h1 /\
     length (h_arr h1) = N /\ S (h_len h1) = Nat.min N (S (h_len (x_heap s))) /\
     kept N s gone (hvalues h1) /\
     (nonan (hvalues (x_heap s)) -> heap_ordered (x_heap s) -> heap_ordered h1)).
  { unfold hsize. rewrite Hs. destruct (Nat.eqb_spec (h_len (x_heap s)) N) as [E|NE].
    - destruct (hpop_ok (x_heap s) W ltac:(lia)) as (h1 & E1 & L1 & C1 & P1 & O1). rewrite E1. cbn [res_bind fst].
      exists h1, [nth 0 (hvalues (x_heap s)) entry0]. split; [reflexivity|]. split; [lia|]. split; [lia|].
      split; [|exact O1]. split; [exact P1|]. split; [intro; lia|reflexivity].
    - exists (x_heap s), []. split; [reflexivity|]. split; [exact Ha|]. split; [lia|]. split; [|auto].
      split; [reflexivity|]. split; [reflexivity|intro; lia]. }
  destruct H1 as (h1 & gone & -> & A1 & L1 & K1 & O1).
  fold (xnew e1 u v).
  destruct (hpush_ok h1 (xnew e1 u v)) as (h2 & E2 & L2 & C2 & _ & P2 & O2); [unfold hwf; lia|lia|].
  change (hpush h1 (MkEntry (fdiv e1 u) v)) with (hpush h1 (xnew e1 u v)). rewrite E2.
  destruct (x_t1 s <? t).
  - destruct (rescale_ok e2 (h_len h2) 0 (hclear h2)) as (h3 & E3 & L3 & C3 & P3 & O3); [reflexivity|simpl; lia|].
    rewrite E3. eexists. exists gone, (hvalues h1). split; [reflexivity|]. simpl in *.
    unfold hvalues at 2 in P3. simpl in P3. rewrite app_nil_r in P3.
    fold (hvalues h2) in P3.
    assert (P4 : Permutation (map (scale e2) (hvalues h2)) (map (scale e2) (xnew e1 u v :: hvalues h1)))
      by now apply Permutation_map.
    repeat split; simpl; trivial; try lia; try apply K1.
    + now apply (Permutation_trans P3).
    + intro NN. apply O3.
      * unfold hvalues at 1. simpl. rewrite app_nil_r. fold (hvalues h2). now apply (nonan_perm _ _ (Permutation_sym P4)).
      * unfold heap_ordered. simpl. intros c Hc. lia.
  - eexists. exists gone, (hvalues h1). split; [reflexivity|].
    repeat split; simpl; trivial; try lia; try apply K1.
    intros NN NN' OO. apply O2; auto.
Qed.

(** ** histories *)
Definition onan (l : list (f64 * Z)) : Prop := Forall (fun pv => fis_nan (fst pv) = false) l.

Definition fle_all (D : list (f64 * Z)) (l : list (f64 * Z)) : Prop :=
  forall d x, In d D -> In x l -> fle (fst d) (fst x) = true.

Record xinv (N : nat) (alpha : f64) (s : expdecay) (L : ledger) (good : Prop) : Prop := {
  xi_wf : swf N s;
  xi_alpha : x_alpha s = alpha;
  xi_t0 : x_t0 s = l_landmark L;
  xi_t1 : x_t1 s = l_landmark L + one_hour;
  xi_count : x_count s = slen (l_obs L);
  xi_len : h_len (x_heap s) = Nat.min N (length (l_obs L));
  xi_newest : forall l pv, l_obs L = l ++ [pv] -> In pv (map pr (hvalues (x_heap s)));
  xi_obs : exists D, Permutation (map pr (hvalues (x_heap s)) ++ D) (l_obs L) /\
    (good -> heap_ordered (x_heap s) /\
      (D = [] \/ exists e0 rest, Permutation (map pr (hvalues (x_heap s))) (e0 :: rest) /\ fle_all D rest))
}.

Lemma onan_nonan l : onan (map pr l) <-> nonan l.
Proof.
  unfold onan, nonan. rewrite Forall_map. reflexivity.
Qed.

Lemma pr_scale f l : map pr (map (scale f) l) = map (pscale f) (map pr l).
Proof. rewrite !map_map. reflexivity. Qed.

Lemma xinv_weaken N alpha s L (g g' : Prop) : (g' -> g) -> xinv N alpha s L g -> xinv N alpha s L g'.
Proof.
  intros Hg [A B C D E F G (Ds & P & Q)]. constructor; trivial. exists Ds. split; [exact P|]. auto.
Qed.

Lemma fle_trans_nn x y z : fle x y = true -> fle y z = true -> fle x z = true.
Proof.
  intros A B. destruct (fle_ext_true _ _ A) as (? & ? & ?), (fle_ext_true _ _ B) as (? & ? & ?).
  rewrite fle_ext by assumption. apply Rle_bool_true. lra.
Qed.

Lemma fle_all_scale f D l : fle f_zero f = true -> onan (map (pscale f) D) -> onan (map (pscale f) l) ->
  fle_all D l -> fle_all (map (pscale f) D) (map (pscale f) l).
Proof.
  intros Hf ND Nl H d x Hd Hx.
  pose proof (proj1 (Forall_forall _ _) ND _ Hd) as Nd.
  pose proof (proj1 (Forall_forall _ _) Nl _ Hx) as Nx.
  apply in_map_iff in Hd. destruct Hd as (d' & <- & Hd). apply in_map_iff in Hx. destruct Hx as (x' & <- & Hx).
  apply fmul_mono; auto.
Qed.

(** the discarded observations after an update, before a possible rescaling *)
Lemma discard_step N s D gone keep nw : swf N s ->
  (1 <= N)%nat -> kept N s gone keep -> nonan (hvalues (x_heap s)) -> heap_ordered (x_heap s) -> onan D ->
  (D <> [] -> h_len (x_heap s) = N) ->
  (D = [] \/ exists e0 rest, Permutation (map pr (hvalues (x_heap s))) (e0 :: rest) /\ fle_all D rest) ->
  D ++ map pr gone = [] \/ exists e0 rest, Permutation (map pr (nw :: keep)) (e0 :: rest) /\ fle_all (D ++ map pr gone) rest.
Proof.
  intros (Hs & Ha & Hl) HN (Pk & Kroom & Kfull) NN O ND Dfull H.
  assert (W : hwf (x_heap s)) by (unfold hwf; lia).
  destruct (Nat.eq_dec (h_len (x_heap s)) N) as [EN|NE].
  2:{ left. rewrite Kroom by lia. destruct D as [|d D]; [reflexivity|]. exfalso. apply NE, Dfull. discriminate. }
  right. exists (pr nw), (map pr keep). split; [reflexivity|].
  rewrite (Kfull EN) in Pk |- *. set (m := nth 0 (hvalues (x_heap s)) entry0) in *.
  assert (Hm : forall x, In x (map pr keep) -> fle (e_k m) (fst x) = true).
  { intros x Hx. apply in_map_iff in Hx. destruct Hx as (y & <- & Hy). simpl.
    assert (Hin : In y (hvalues (x_heap s))) by (apply (Permutation_in _ (Permutation_sym Pk)); right; exact Hy).
    rewrite fle_ext.
    - apply Rle_bool_true. now apply heap_root_min.
    - now apply nonan_nth.
    - apply (proj1 (Forall_forall _ _) NN _ Hin). }
  intros d x Hd Hx. apply in_app_or in Hd. destruct Hd as [Hd|[<-|[]]]; [|now apply Hm].
  destruct H as [->|(e0 & rest & Pr & HD)]; [destruct Hd|].
  (* [e0] is the exception: either it is the popped minimum or not *)
  assert (Pm : Permutation (pr m :: map pr keep) (e0 :: rest)).
  { eapply Permutation_trans; [|exact Pr]. symmetry. change (pr m :: map pr keep) with (map pr ([m] ++ keep)).
    now apply Permutation_map. }
  assert (Hin : In (pr m) (e0 :: rest)) by (apply (Permutation_in _ Pm); now left).
  destruct Hin as [E|Hin].
  - subst e0. apply Permutation_cons_inv in Pm. apply HD; [exact Hd|]. now apply (Permutation_in _ Pm).
  - apply (fle_trans_nn _ (e_k m)); [|now apply Hm]. now apply (HD d (pr m)).
Qed.

Lemma xinv_step N alpha mexp s L good o : (1 <= N)%nat ->
  (match o with XUpdate _ _ _ => slen (l_obs L) + 1 < 2 ^ 63 | _ => True end) ->
  xinv N alpha s L good ->
  snd (exp_step mexp s o) = Ok tt /\
  xinv N alpha (fst (exp_step mexp s o)) (ledger_step mexp alpha L o)
    (good /\ (forall x, fis_nan (mexp x) = false -> fle f_zero (mexp x) = true) /\
     onan (l_obs L) /\ onan (l_obs (ledger_step mexp alpha L o))).
Proof.
  intros HN Hb I. destruct o as [t v u|t|].
  - cbn [exp_step]. unfold exp_update.
    destruct I as [Iw Ia I0 I1 Ic Il In' (D & PD & GD)].
    destruct (exp_update_ok N s t v u (mexp (exp_arg1 s t)) (mexp (exp_arg2 s t)) HN Iw)
      as (s' & gone & keep & E & W' & A' & C' & L' & Kp & R). rewrite E. cbn [fst snd]. split; [reflexivity|].
    assert (Eage : seconds (time_sub t (x_t0 s)) = age L t) by (unfold age; now rewrite I0).
    set (nw := xnew (mexp (exp_arg1 s t)) u v) in *.
    assert (Enw : pr nw = (fdiv (mexp (fmul (age L t) alpha)) u, v)).
    { unfold nw, xnew, pr, exp_arg1. simpl. now rewrite Eage, Ia. }
    assert (Ef : mexp (exp_arg2 s t) = mexp (fmul (fneg alpha) (age L t))) by (unfold exp_arg2; now rewrite Eage, Ia).
    rewrite Ef in R. set (f := mexp (fmul (fneg alpha) (age L t))) in *.
    cbn [ledger_step]. rewrite <- Enw. fold f. rewrite <- I1.
    set (obs := l_obs L ++ [pr nw]).
    pose proof (proj1 Kp) as Pk.
    assert (Pobs : Permutation (map pr (nw :: keep) ++ (D ++ map pr gone)) obs).
    { unfold obs. eapply Permutation_trans; [|apply Permutation_cons_append]. simpl. apply perm_skip.
      eapply Permutation_trans; [|exact PD].
      eapply Permutation_trans; [|apply Permutation_app_tail, Permutation_map, Permutation_sym, Pk].
      rewrite map_app, <- app_assoc. 
      eapply Permutation_trans; [apply Permutation_app_comm|]. rewrite <- app_assoc.
      eapply Permutation_trans; [apply Permutation_app_comm|]. rewrite <- app_assoc. reflexivity. }
    assert (Hlen : length obs = S (length (l_obs L))) by (unfold obs; rewrite app_length; simpl; lia).
    assert (Ecnt : wrap64 (x_count s + 1) = slen obs).
    { rewrite Ic. unfold slen in *. rewrite Hlen. rewrite wrap64_id; [lia|]. unfold is_int64, min_int64, max_int64. lia. }
    assert (GD' : good -> onan (l_obs L) -> 
              D ++ map pr gone = [] \/ exists e0 rest, Permutation (map pr (nw :: keep)) (e0 :: rest) /\ fle_all (D ++ map pr gone) rest).
    { intros Hg NL. destruct (GD Hg) as [O HD].
      pose proof (Permutation_Forall (Permutation_sym PD) NL) as NN. apply Forall_app in NN. destruct NN as [NN ND].
      apply (discard_step N s D gone keep nw); auto.
      - now apply onan_nonan.
      - intro HDn. pose proof (Permutation_length PD) as Q. rewrite app_length, map_length in Q.
        destruct Iw as (_ & Ha & Hl). rewrite hvalues_length in Q by (unfold hwf; lia).
        destruct D; [congruence|]. simpl in Q. lia. }
    destruct (Z.ltb_spec (x_t1 s) t) as [Ht|Ht].
    + destruct R as (T0 & T1 & PR & OR).
      assert (PR' : Permutation (map pr (hvalues (x_heap s'))) (map (pscale f) (map pr (nw :: keep)))).
      { rewrite <- pr_scale. now apply Permutation_map. }
      change (map (fun pv : f64 * Z => (fmul (fst pv) f, snd pv)) obs) with (map (pscale f) obs).
      constructor; cbn [l_landmark l_obs]; trivial; try congruence.
      * rewrite C', Ecnt. unfold slen. now rewrite map_length.
      * rewrite map_length, Hlen, L', Il. lia.
      * intros l pv El. unfold obs in El. rewrite map_app in El. cbn [map] in El.
        apply app_inj_tail in El. destruct El as [_ <-].
        apply (Permutation_in _ (Permutation_sym PR')). now left.
      * exists (map (pscale f) (D ++ map pr gone)).
        assert (PP : Permutation (map pr (hvalues (x_heap s')) ++ map (pscale f) (D ++ map pr gone)) (map (pscale f) obs)).
        { eapply Permutation_trans; [apply Permutation_app_tail, PR'|]. rewrite <- map_app. now apply Permutation_map. }
        split; [exact PP|]. intros (Hg & Hmexp & NL & NL').
        pose proof (Permutation_Forall (Permutation_sym PP) NL') as NN. apply Forall_app in NN. destruct NN as [NN ND].
        pose proof (Permutation_Forall PR' NN) as NN2.
        split.
        { apply OR. apply onan_nonan. rewrite pr_scale. exact NN2. }
        destruct (GD' Hg NL) as [-> | (e0 & rest & Pe & Hall)]; [now left|]. right.
        exists (pscale f e0), (map (pscale f) rest).
        assert (Pe' : Permutation (map (pscale f) (map pr (nw :: keep))) (pscale f e0 :: map (pscale f) rest)).
        { change (pscale f e0 :: map (pscale f) rest) with (map (pscale f) (e0 :: rest)). now apply Permutation_map. }
        split; [exact (Permutation_trans PR' Pe')|].
        assert (Hf : fle f_zero f = true).
        { apply Hmexp. pose proof (proj1 (Forall_forall _ _) NN2 (pscale f (pr nw)) ltac:(left; reflexivity)) as Q.
          fold f. unfold pscale in Q. cbn [fst] in Q. clear - Q. destruct f; try reflexivity.
          exfalso. revert Q. destruct (fst (pr nw)); simpl; discriminate. }
        apply fle_all_scale; auto.
        pose proof (Permutation_Forall Pe' NN2) as Q. now inversion Q.
    + destruct R as (T0 & T1 & PR & OR).
      assert (PR' : Permutation (map pr (hvalues (x_heap s'))) (map pr (nw :: keep))) by now apply Permutation_map.
      constructor; cbn [l_landmark l_obs]; trivial; try congruence.
      * rewrite Hlen, L', Il. lia.
      * intros l pv El. unfold obs in El. apply app_inj_tail in El. destruct El as [_ <-].
        apply (Permutation_in _ (Permutation_sym PR')). now left.
      * exists (D ++ map pr gone).
        assert (PP : Permutation (map pr (hvalues (x_heap s')) ++ D ++ map pr gone) obs).
        { eapply Permutation_trans; [apply Permutation_app_tail, PR'|]. exact Pobs. }
        split; [exact PP|]. intros (Hg & _ & NL & NL').
        pose proof (Permutation_Forall (Permutation_sym PP) NL') as NN. apply Forall_app in NN. destruct NN as [NN ND].
        destruct (GD Hg) as [O _].
        split.
        { apply OR; [|apply onan_nonan; exact (Permutation_Forall PR' NN)|exact O].
          pose proof (Permutation_Forall (Permutation_sym PD) NL) as NS. apply Forall_app in NS. now apply onan_nonan. }
        destruct (GD' Hg NL) as [-> | (e0 & rest & Pe & Hall)]; [now left|]. right.
        exists e0, rest. split; [exact (Permutation_trans PR' Pe)|exact Hall].
  - split; [reflexivity|]. cbn [exp_step fst ledger_step]. destruct I as [Iw Ia I0 I1 Ic Il In' _].
    destruct Iw as (Hs & Ha & Hl).
    constructor; simpl; trivial.
    + split; [exact Hs|]. split; [exact Ha|simpl; lia].
    + lia.
    + intros l pv E. now apply app_cons_not_nil in E.
    + exists []. split; [reflexivity|]. intros _. split; [|now left]. intros c Hc. simpl in Hc. lia.
  - split; [reflexivity|]. cbn [exp_step fst ledger_step]. revert I. apply xinv_weaken. tauto.
Qed.

(** ** runs *)
Lemma ledger_run_snoc mexp alpha now h o :
  ledger_run mexp alpha now (h ++ [o]) = ledger_step mexp alpha (ledger_run mexp alpha now h) o.
Proof. unfold ledger_run. now rewrite fold_left_app. Qed.
Lemma exp_run_snoc mexp s h o : exp_run mexp s (h ++ [o]) = fst (exp_step mexp (exp_run mexp s h) o).
Proof. unfold exp_run. now rewrite fold_left_app. Qed.

(** the ledger lists exactly the recorded values *)
Lemma ledger_values mexp alpha now h :
  map snd (l_obs (ledger_run mexp alpha now h)) = recorded (map xop_event h).
Proof.
  induction h as [|o h IH] using rev_ind; [reflexivity|].
  rewrite ledger_run_snoc, map_app. cbn [map]. rewrite recorded_snoc, <- IH.
  set (L := ledger_run mexp alpha now h). destruct o as [t v u|t|]; cbn [ledger_step xop_event rec_step]; try reflexivity.
  destruct (_ <? t); cbn [l_obs].
  - rewrite map_map. cbn [snd]. change (fun x : f64 * Z => snd x) with (@snd f64 Z). now rewrite map_app.
  - now rewrite map_app.
Qed.

Lemma ledger_length mexp alpha now h : slen (l_obs (ledger_run mexp alpha now h)) = slen (recorded (map xop_event h)).
Proof. rewrite <- (ledger_values mexp alpha now h). unfold slen. now rewrite map_length. Qed.

Lemma never_nan_prefix mexp alpha now h o : never_nan mexp alpha now (h ++ [o]) -> never_nan mexp alpha now h.
Proof. intros H p q E. apply (H p (q ++ [o])). now rewrite E, app_assoc. Qed.
Lemma never_nan_now mexp alpha now h : never_nan mexp alpha now h -> onan (l_obs (ledger_run mexp alpha now h)).
Proof. intro H. apply (H h []). now rewrite app_nil_r. Qed.

Lemma NewExpDecay_inv N alpha now good : xinv N alpha (NewExpDecaySample N alpha now) (MkLedger now []) good.
Proof.
  constructor; simpl; trivial.
  - split; [reflexivity|]. simpl. rewrite repeat_length. split; lia.
  - lia.
  - intros l pv E. now apply app_cons_not_nil in E.
  - exists []. split; [reflexivity|]. intros _. split; [|now left]. intros c Hc. simpl in Hc. lia.
Qed.

Lemma ledger_few mexp alpha now h o : few (map xop_event (h ++ [o])) ->
  match o with XUpdate _ _ _ => slen (l_obs (ledger_run mexp alpha now h)) + 1 < 2 ^ 63 | _ => True end.
Proof.
  intro F. destruct o as [t v u|t|]; trivial. rewrite ledger_length.
  rewrite map_app in F. specialize (F _ [] (eq_sym (app_nil_r _))).
  cbn [map xop_event] in F. rewrite recorded_snoc in F. cbn [rec_step] in F. rewrite slen_app in F. exact F.
Qed.

Lemma exp_run_inv mexp N alpha now h : (1 <= N)%nat -> few (map xop_event h) ->
  xinv N alpha (exp_run mexp (NewExpDecaySample N alpha now) h) (ledger_run mexp alpha now h)
    (mexp_nonneg mexp /\ never_nan mexp alpha now h).
Proof.
  intros HN. induction h as [|o h IH] using rev_ind; intro Hf.
  - apply NewExpDecay_inv.
  - pose proof (ledger_few mexp alpha now h o Hf) as Hl.
    rewrite exp_run_snoc, ledger_run_snoc. rewrite map_app in Hf.
    pose proof (few_prefix _ _ Hf) as Hf'.
    destruct (xinv_step N alpha mexp _ _ _ o HN Hl (IH Hf')) as [_ I].
    revert I. apply xinv_weaken. intros [Hm Hn]. pose proof (never_nan_prefix _ _ _ _ _ Hn) as Hp.
    split; [now split|]. split; [exact Hm|]. split; [now apply never_nan_now|].
    rewrite <- ledger_run_snoc. now apply never_nan_now.
Qed.

(** ** C17 *)
Lemma exp_no_panic mexp N alpha now h o : (1 <= N)%nat -> few (map xop_event (h ++ [o])) ->
  snd (exp_step mexp (exp_run mexp (NewExpDecaySample N alpha now) h) o) = Ok tt.
Proof.
  intros HN Hf. pose proof (ledger_few mexp alpha now h o Hf) as Hl.
  rewrite map_app in Hf. apply few_prefix in Hf.
  exact (proj1 (xinv_step N alpha mexp _ _ _ o HN Hl (exp_run_inv mexp N alpha now h HN Hf))).
Qed.

Lemma exp_values_length N s : swf N s -> slen (exp_Values s) = exp_Size s.
Proof.
  intros (_ & Ha & Hl). unfold exp_Values, exp_Size, slen, hsize. rewrite map_length, hvalues_length; [reflexivity|].
  unfold hwf. lia.
Qed.

Lemma exp_count_size mexp N alpha now h : (1 <= N)%nat -> few (map xop_event h) ->
  let s := exp_run mexp (NewExpDecaySample N alpha now) h in let r := recorded (map xop_event h) in
  exp_Count s = slen r /\ exp_Size s = Z.min (slen r) (Z.of_nat N) /\ slen (exp_Values s) = exp_Size s.
Proof.
  intros HN Hf s r. destruct (exp_run_inv mexp N alpha now h HN Hf) as [W _ _ _ C L _ _]. fold s in W, C, L.
  split; [|split].
  - unfold exp_Count. rewrite C. apply ledger_length.
  - unfold exp_Size, hsize. rewrite L. pose proof (ledger_length mexp alpha now h) as Q. fold r in Q.
    unfold slen in *. lia.
  - now apply (exp_values_length N).
Qed.

Lemma exp_zero_panics mexp alpha now t v u :
  snd (exp_update mexp (NewExpDecaySample 0 alpha now) t v u) = Panic msg_index.
Proof. reflexivity. Qed.

(** ** C18 *)
Lemma exp_Values_pr s : exp_Values s = map snd (map pr (hvalues (x_heap s))).
Proof. unfold exp_Values. rewrite map_map. reflexivity. Qed.

Lemma exp_only_recorded mexp N alpha now h : (1 <= N)%nat -> few (map xop_event h) ->
  submultiset (exp_Values (exp_run mexp (NewExpDecaySample N alpha now) h)) (recorded (map xop_event h)).
Proof.
  intros HN Hf. destruct (exp_run_inv mexp N alpha now h HN Hf) as [_ _ _ _ _ _ _ (D & P & _)].
  exists (map snd D). rewrite exp_Values_pr, <- map_app, <- (ledger_values mexp alpha now h). now apply Permutation_map.
Qed.

Lemma exp_newest mexp N alpha now h t v u : (1 <= N)%nat -> few (map xop_event (h ++ [XUpdate t v u])) ->
  In v (exp_Values (exp_run mexp (NewExpDecaySample N alpha now) (h ++ [XUpdate t v u]))).
Proof.
  intros HN Hf. destruct (exp_run_inv mexp N alpha now _ HN Hf) as [_ _ _ _ _ _ Nw _].
  rewrite exp_Values_pr. rewrite ledger_run_snoc in Nw. cbn [ledger_step] in Nw.
  destruct (_ <? t); cbn [l_obs] in Nw.
  - rewrite map_app in Nw. cbn [map] in Nw. specialize (Nw _ _ eq_refl). apply (in_map snd) in Nw. exact Nw.
  - specialize (Nw _ _ eq_refl). apply (in_map snd) in Nw. exact Nw.
Qed.

Lemma exp_discards_one mexp N alpha now h t v u : (1 <= N)%nat -> few (map xop_event h) ->
  let s := exp_run mexp (NewExpDecaySample N alpha now) h in
  let s' := fst (exp_update mexp s t v u) in
  (exp_Size s < Z.of_nat N -> Permutation (exp_Values s') (v :: exp_Values s)) /\
  (exp_Size s = Z.of_nat N -> exists x keep,
     Permutation (exp_Values s) (x :: keep) /\ Permutation (exp_Values s') (v :: keep)).
Proof.
  intros HN Hf s s'. destruct (exp_run_inv mexp N alpha now h HN Hf) as [W _ _ _ _ _ _ _]. fold s in W.
  destruct (exp_update_ok N s t v u (mexp (exp_arg1 s t)) (mexp (exp_arg2 s t)) HN W)
    as (s2 & gone & keep & E & _ & _ & _ & _ & (Pk & K1 & K2) & R).
  assert (Es : s' = s2) by (unfold s', exp_update; now rewrite E).
  assert (PV : Permutation (exp_Values s') (v :: map e_v keep)).
  { rewrite Es. unfold exp_Values. destruct (x_t1 s <? t); destruct R as (_ & _ & PR & _); apply (Permutation_map e_v) in PR.
    - rewrite map_map in PR. exact PR.
    - exact PR. }
  apply (Permutation_map e_v) in Pk. fold (exp_Values s) in Pk. unfold exp_Size, hsize. split; intro Hn.
  - rewrite K1 in Pk by lia. simpl in Pk. eapply Permutation_trans; [exact PV|]. apply perm_skip. now symmetry.
  - rewrite K2 in Pk by lia. simpl in Pk. eexists; eexists; split; [exact Pk|exact PV].
Qed.

(** ** C19 *)
Lemma exp_heap_order mexp N alpha now h : (1 <= N)%nat -> few (map xop_event h) ->
  mexp_nonneg mexp -> never_nan mexp alpha now h ->
  let l := hvalues (x_heap (exp_run mexp (NewExpDecaySample N alpha now) h)) in
  forall i a b, (0 < i)%nat -> nth_error l i = Some a -> nth_error l ((i - 1) / 2) = Some b ->
  fle (e_k b) (e_k a) = true.
Proof.
  intros HN Hf Hm Hn l i a b Hi Ea Eb.
  destruct (exp_run_inv mexp N alpha now h HN Hf) as [W _ _ _ _ _ _ (D & P & G)].
  destruct (G (conj Hm Hn)) as [O _]. fold l in P.
  assert (NN : nonan l).
  { pose proof (Permutation_Forall (Permutation_sym P) (never_nan_now _ _ _ _ Hn)) as Q.
    apply Forall_app in Q. now apply onan_nonan. }
  rewrite fle_ext.
  - apply Rle_bool_true.
    assert (Hl : (i < length l)%nat) by (apply nth_error_Some; congruence).
    unfold heap_ordered in O. rewrite <- hvalues_length in O by (destruct W as (_ & ? & ?); unfold hwf; lia). fold l in O.
    specialize (O i (conj Hi Hl)). unfold K, parent in O.
    rewrite (nth_error_nth _ _ entry0 Ea), (nth_error_nth _ _ entry0 Eb) in O. exact O.
  - apply (proj1 (Forall_forall _ _) NN). now apply nth_error_In in Eb.
  - apply (proj1 (Forall_forall _ _) NN). now apply nth_error_In in Ea.
Qed.

Lemma exp_evicts_min mexp N alpha now h t v u : (1 <= N)%nat -> few (map xop_event h) ->
  mexp_nonneg mexp -> never_nan mexp alpha now h ->
  let s := exp_run mexp (NewExpDecaySample N alpha now) h in
  let s' := fst (exp_update mexp s t v u) in
  exp_Size s = Z.of_nat N ->
  exists gone keep,
    Permutation (hvalues (x_heap s)) (gone :: keep) /\
    (forall e, In e (hvalues (x_heap s)) -> fle (e_k gone) (e_k e) = true) /\
    Permutation (exp_Values s') (v :: map e_v keep).
Proof.
  intros HN Hf Hm Hn s s' HS.
  destruct (exp_run_inv mexp N alpha now h HN Hf) as [W _ _ _ _ _ _ (D & P & G)]. fold s in W, P, G.
  destruct (G (conj Hm Hn)) as [O _].
  assert (NN : nonan (hvalues (x_heap s))).
  { pose proof (Permutation_Forall (Permutation_sym P) (never_nan_now _ _ _ _ Hn)) as Q.
    apply Forall_app in Q. now apply onan_nonan. }
  destruct (exp_update_ok N s t v u (mexp (exp_arg1 s t)) (mexp (exp_arg2 s t)) HN W)
    as (s2 & gone & keep & E & _ & _ & _ & _ & (Pk & K1 & K2) & R).
  assert (Es : s' = s2) by (unfold s', exp_update; now rewrite E).
  unfold exp_Size, hsize in HS. rewrite K2 in Pk by lia.
  eexists; exists keep. split; [exact Pk|]. split.
  - intros e He. rewrite fle_ext.
    + apply Rle_bool_true. apply heap_root_min; auto. destruct W as (_ & ? & ?); unfold hwf; lia.
    + now apply nonan_nth.
    + now apply (proj1 (Forall_forall _ _) NN).
  - rewrite Es. unfold exp_Values. destruct (x_t1 s <? t); destruct R as (_ & _ & PR & _); apply (Permutation_map e_v) in PR.
    + rewrite map_map in PR. exact PR.
    + exact PR.
Qed.

(** ** C20 *)
Lemma exp_top mexp N alpha now h : (1 <= N)%nat -> few (map xop_event h) ->
  mexp_nonneg mexp -> never_nan mexp alpha now h ->
  let held := map pr (hvalues (x_heap (exp_run mexp (NewExpDecaySample N alpha now) h))) in
  exists discarded, Permutation (held ++ discarded) (l_obs (ledger_run mexp alpha now h)) /\
    (discarded = [] \/ exists exempt rest, Permutation held (exempt :: rest) /\
       forall d x, In d discarded -> In x rest -> fle (fst d) (fst x) = true).
Proof.
  intros HN Hf Hm Hn held.
  destruct (exp_run_inv mexp N alpha now h HN Hf) as [W _ _ _ _ _ _ (D & P & G)].
  exists D. split; [exact P|]. exact (proj2 (G (conj Hm Hn))).
Qed.

(** ** C21 *)
Lemma exp_rescale mexp N alpha now h t v u : (1 <= N)%nat -> few (map xop_event h) ->
  let s := exp_run mexp (NewExpDecaySample N alpha now) h in
  x_t0 s + one_hour < t ->
  let s' := fst (exp_update mexp s t v u) in
  let s'' := fst (exp_update mexp (without_rescale s t) t v u) in
  let factor := mexp (fmul (fneg alpha) (seconds (time_sub t (x_t0 s)))) in
  x_t0 s' = t /\ x_t1 s' = t + one_hour /\
  Permutation (map pr (hvalues (x_heap s'))) (map (pscale factor) (map pr (hvalues (x_heap s'')))) /\
  exp_Count s' = exp_Count s'' /\ exp_Size s' = exp_Size s''.
Proof.
  intros HN Hf s Ht s' s'' factor.
  destruct (exp_run_inv mexp N alpha now h HN Hf) as [W A T0 T1 _ _ _ _]. fold s in W, A, T0, T1.
  assert (Hlt : (x_t1 s <? t) = true) by (apply Z.ltb_lt; lia).
  unfold s', s'', exp_update, exp_update_raw, without_rescale. cbn [x_alpha x_count x_size x_t0 x_t1 x_heap].
  rewrite Hlt, Z.ltb_irrefl.
  unfold exp_arg1, exp_arg2. cbn [x_alpha x_t0]. rewrite A. fold factor.
  set (e1 := mexp _). clearbody e1 factor.
  destruct W as (Hs & Ha & Hl). assert (Wh : hwf (x_heap s)) by (unfold hwf; lia).
  assert (H1 : exists h1,
     (if (hsize (x_heap s) =? x_size s)%nat
      then res_bind (hpop (x_heap s)) (fun p => Ok (fst p)) else Ok (x_heap s)) = Ok h1 /\
     length (h_arr h1) = N /\ (h_len h1 < N)%nat).
  { unfold hsize. rewrite Hs. destruct (Nat.eqb_spec (h_len (x_heap s)) N) as [E|NE].
    - destruct (hpop_ok (x_heap s) Wh ltac:(lia)) as (h1 & E1 & L1 & C1 & _). rewrite E1. cbn [res_bind fst].
      exists h1. split; [reflexivity|]. split; lia.
    - exists (x_heap s). split; [reflexivity|]. split; lia. }
  destruct H1 as (h1 & -> & A1 & L1).
  destruct (hpush_ok h1 (MkEntry (fdiv e1 u) v)) as (h2 & E2 & L2 & C2 & _); [unfold hwf; lia|lia|].
  rewrite E2.
  destruct (rescale_ok factor (h_len h2) 0 (hclear h2)) as (h3 & E3 & L3 & C3 & P3 & _); [reflexivity|simpl; lia|].
  rewrite E3. cbn [fst x_t0 x_t1 x_heap]. split; [reflexivity|]. split; [reflexivity|]. split; [|split].
  - unfold hvalues at 2 in P3. simpl in P3. rewrite app_nil_r in P3. fold (hvalues h2) in P3.
    rewrite <- pr_scale. now apply Permutation_map.
  - reflexivity.
  - unfold exp_Size, hsize. cbn [x_heap]. simpl in L3. now rewrite L3.
Qed.

Lemma pscale_finite_order f a b : fis_finite f = true -> fle f_zero f = true -> fle (fst a) (fst b) = true ->
  (fis_finite (fst a) = true \/ flt f_zero f = true) -> (fis_finite (fst b) = true \/ flt f_zero f = true) ->
  fle (fst (pscale f a)) (fst (pscale f b)) = true.
Proof.
  intros Ff Hf Hab Ca Cb. destruct (fle_ext_true _ _ Hab) as (Na & Nb & _).
  assert (Q : forall z, fis_nan z = false -> (fis_finite z = true \/ flt f_zero f = true) -> fis_nan (fmul z f) = false).
  { intros z Nz C. destruct f as [sf|sf|? ? ?|sf m e H]; try discriminate.
    - destruct C as [Fz|C]; [|destruct sf; discriminate]. destruct z; try discriminate; reflexivity.
    - destruct (finite_or_inf z Nz) as [Fz|[s ->]].
      + apply fmul_ext_fin; [exact Fz|reflexivity|]. destruct sf; [discriminate|].
        apply (F2R_gt_0 radix2 (Float radix2 (Z.pos m) e)); reflexivity.
      + destruct s, sf; reflexivity. }
  simpl. apply fmul_mono; auto.
Qed.

(** a boolean check of [never_nan] *)
Definition never_nan_b mexp alpha now (h : list xop) : bool :=
  forallb (fun k => forallb (fun pv => negb (fis_nan (fst pv))) (l_obs (ledger_run mexp alpha now (firstn k h))))
    (seq 0 (S (length h))).
Lemma never_nan_check mexp alpha now h : never_nan_b mexp alpha now h = true -> never_nan mexp alpha now h.
Proof.
  intros H p q E. unfold never_nan_b in H. rewrite forallb_forall in H.
  assert (Hp : firstn (length p) h = p) by (rewrite E, firstn_app, firstn_all, Nat.sub_diag; simpl; apply app_nil_r).
  specialize (H (length p)). rewrite Hp in H.
  assert (Hin : In (length p) (seq 0 (S (length h)))).
  { apply in_seq. rewrite E, app_length. lia. }
  specialize (H Hin). rewrite forallb_forall in H. apply Forall_forall. intros x Hx. specialize (H x Hx).
  now destruct (fis_nan (fst x)).
Qed.

(** ** C22: a long idle period *)
Definition alpha015 : f64 := fdiv (f_of_int 15) (f_of_int 1000).
Definition idle : Z := 50000 * 10 ^ 9.            (* 13 h 53 min 20 s *)
Definition idle_arg : f64 := fmul (seconds idle) alpha015.
Definition idle_arg_neg : f64 := fmul (fneg alpha015) (seconds idle).
Definition poison_history : list xop :=
  [XUpdate 0 1 (f_of_scaled 1 (-1));
   XUpdate idle 2 (f_of_scaled 1 (-1));
   XUpdate idle 3 (f_of_scaled 1 (-3));
   XUpdate idle 4 (f_of_scaled 1 (-4));
   XUpdate idle 5 (f_of_scaled 1 (-2))].

Lemma raw_e2_irrelevant s t v u e1 e2 e2' : t <= x_t1 s ->
  exp_update_raw s t v u e1 e2 = exp_update_raw s t v u e1 e2'.
Proof.
  intro H. unfold exp_update_raw. match goal with |- context [match ?x with Ok _ => _ | Panic _ => _ end] => destruct x end; [|reflexivity].
  destruct (hpush _ _); [|reflexivity]. destruct (Z.ltb_spec (x_t1 s) t); [lia|reflexivity].
Qed.

Lemma exp_step_known mexp s t v u a e1 e2 : exp_arg1 s t = a -> mexp a = e1 -> t <= x_t1 s ->
  exp_step mexp s (XUpdate t v u) = exp_update_raw s t v u e1 e2.
Proof.
  intros Ea Em Ht. cbn [exp_step]. unfold exp_update. rewrite Ea, Em. now apply raw_e2_irrelevant.
Qed.

Definition f1 : f64 := f_of_int 1.
Definition pz0 := NewExpDecaySample 4 alpha015 0.
Definition pz1 := fst (exp_update_raw pz0 0 1 (f_of_scaled 1 (-1)) f1 f1).
Definition pz2 := fst (exp_update_raw pz1 idle 2 (f_of_scaled 1 (-1)) (f_inf false) f_zero).
Definition pz3 := fst (exp_update_raw pz2 idle 3 (f_of_scaled 1 (-3)) f1 f1).
Definition pz4 := fst (exp_update_raw pz3 idle 4 (f_of_scaled 1 (-4)) f1 f1).
Definition pz5 := fst (exp_update_raw pz4 idle 5 (f_of_scaled 1 (-2)) f1 f1).
Definition pz6 := fst (exp_update_raw pz5 idle 6 (f_of_scaled 1 (-5)) f1 f1).

Section Poison.
Variable mexp : f64 -> f64.
Hypothesis M0 : mexp f_zero = f1.
Hypothesis Mover : mexp idle_arg = f_inf false.
Hypothesis Munder : mexp idle_arg_neg = f_zero.

Lemma poison_run : exp_run mexp pz0 poison_history = pz5.
Proof.
  unfold exp_run, poison_history. cbn [fold_left].
  rewrite (exp_step_known mexp pz0 0 1 _ f_zero f1 f1);
    [|apply f64_eq_bits; vm_compute; reflexivity|exact M0|vm_compute; discriminate].
  fold pz1.
  assert (E2 : fst (exp_step mexp pz1 (XUpdate idle 2 (f_of_scaled 1 (-1)))) = pz2).
  { cbn [exp_step]. unfold exp_update.
    replace (exp_arg1 pz1 idle) with idle_arg by (apply f64_eq_bits; vm_compute; reflexivity).
    replace (exp_arg2 pz1 idle) with idle_arg_neg by (apply f64_eq_bits; vm_compute; reflexivity).
    rewrite Mover, Munder. reflexivity. }
  rewrite E2.
  rewrite (exp_step_known mexp pz2 idle 3 _ f_zero f1 f1);
    [|apply f64_eq_bits; vm_compute; reflexivity|exact M0|vm_compute; discriminate].
  fold pz3.
  rewrite (exp_step_known mexp pz3 idle 4 _ f_zero f1 f1);
    [|apply f64_eq_bits; vm_compute; reflexivity|exact M0|vm_compute; discriminate].
  fold pz4.
  rewrite (exp_step_known mexp pz4 idle 5 _ f_zero f1 f1);
    [|apply f64_eq_bits; vm_compute; reflexivity|exact M0|vm_compute; discriminate].
  reflexivity.
Qed.

Lemma poison_next : fst (exp_update mexp pz5 idle 6 (f_of_scaled 1 (-5))) = pz6.
Proof.
  change (exp_update mexp pz5 idle 6 (f_of_scaled 1 (-5))) with (exp_step mexp pz5 (XUpdate idle 6 (f_of_scaled 1 (-5)))).
  rewrite (exp_step_known mexp pz5 idle 6 _ f_zero f1 f1);
    [|apply f64_eq_bits; vm_compute; reflexivity|exact M0|vm_compute; discriminate].
  reflexivity.
Qed.
End Poison.

