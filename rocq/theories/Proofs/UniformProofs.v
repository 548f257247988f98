From Coq Require Import ZArith List Lia Permutation.
From Verif.Model Require Import GoInt GoFloat GoBase Stats Uniform.
From Verif.Spec Require Import OrderStats Reservoir Uniformity.
From Verif.Proofs Require Import IntFacts SortFacts StatsInt ListFacts.
Import ListNotations.
Open Scope Z_scope.

(** what holds after recording the list [r] *)
Definition uinv (n : Z) (s : uniform) (r : list Z) : Prop :=
  u_size s = n /\ u_count s = slen r /\ slen (u_values s) = Z.min (slen r) n /\
  submultiset (u_values s) r.

Lemma slen_app {A} (l l' : list A) : slen (l ++ l') = slen l + slen l'.
Proof. unfold slen. rewrite app_length. lia. Qed.

Lemma uni_update_inv n s r v d : 0 <= n -> uinv n s r -> slen r + 1 < 2 ^ 63 ->
  uinv n (fst (uni_update s v d)) (r ++ [v]) /\ snd (uni_update s v d) = Ok tt.
Proof.
  intros Hn (Hs & Hc & Hl & Hsub) Hb. unfold uni_update.
  pose proof (slen_nonneg r) as Hr0.
  rewrite wrap64_id by (unfold is_int64, min_int64, max_int64; lia).
  assert (E1 : slen (r ++ [v]) = slen r + 1) by (rewrite slen_app; reflexivity).
  destruct (Z.ltb_spec (slen (u_values s)) (u_size s)) as [Hlt|Hge]; cbn [fst snd].
  - split; [|reflexivity]. unfold uinv; cbn [u_size u_count u_values]. rewrite E1.
    split; [exact Hs|]. split; [lia|]. split.
    + rewrite slen_app. change (slen [v]) with 1. lia.
    + now apply submultiset_snoc2.
  - unfold Int63n. destruct (Z.leb_spec (u_count s + 1) 0); [lia|].
    pose proof (Z.mod_pos_bound d (u_count s + 1) ltac:(lia)) as Hmod.
    destruct (Z.ltb_spec (d mod (u_count s + 1)) (slen (u_values s))) as [Hi|Hi].
    + rewrite sset_ok by lia. cbn [fst snd]. split; [|reflexivity].
      unfold uinv; cbn [u_size u_count u_values]. rewrite E1.
      split; [exact Hs|]. split; [lia|]. split.
      * unfold slen in *. rewrite length_lset. lia.
      * destruct (nth_error_in_range (u_values s) (Z.to_nat (d mod (u_count s + 1)))) as [x Hx];
          [unfold slen in Hi; lia|].
        destruct (lset_perm (u_values s) _ v x Hx) as (rest & P1 & P2).
        eapply submultiset_perm_l; [symmetry; exact P2|]. apply submultiset_cons2.
        eapply submultiset_tail. eapply submultiset_perm_l; [exact P1|exact Hsub].
    + cbn [fst snd]. split; [|reflexivity].
      unfold uinv; cbn [u_size u_count u_values]. rewrite E1.
      split; [exact Hs|]. split; [lia|]. split; [lia|]. now apply submultiset_snoc.
Qed.

Lemma uni_step_inv n s r od : 0 <= n -> uinv n s r -> slen r + 1 < 2 ^ 63 ->
  uinv n (fst (uni_step s od)) (match uop_event od with RecordV v => r ++ [v] | ResetAll => [] | NoEffect => r end).
Proof.
  intros Hn Hi Hb. destruct od as [[v| |ps|] d]; cbn [uop_event uni_step fst snd].
  - now apply uni_update_inv.
  - destruct Hi as (Hs & _). repeat split; cbn [u_size u_count u_values uni_clear]; trivial.
    + change (slen (@nil Z)) with 0. lia.
    + apply submultiset_nil.
  - destruct Hi as (Hs & Hc & Hl & Hsub). unfold uni_percentiles.
    pose proof (SamplePercentiles_after (u_values s) ps) as Ha.
    destruct (SamplePercentiles (u_values s) ps) as [after q]. cbn [fst] in *. subst after.
    repeat split; cbn [u_size u_count u_values]; trivial.
    + now rewrite slen_sortz.
    + eapply submultiset_perm_l; [apply sortz_perm|exact Hsub].
  - exact Hi.
Qed.

Definition rec_step (acc : list Z) (e : revent) : list Z :=
  match e with RecordV v => acc ++ [v] | ResetAll => [] | NoEffect => acc end.

Lemma recorded_snoc h e : recorded (h ++ [e]) = rec_step (recorded h) e.
Proof. unfold recorded. now rewrite fold_left_app. Qed.

Lemma recorded_length h : slen (recorded h) <= slen h.
Proof.
  induction h as [|e h IH] using rev_ind; [unfold slen; simpl; lia|].
  rewrite recorded_snoc, slen_app. change (slen [e]) with 1. destruct e; cbn [rec_step].
  - rewrite slen_app. change (slen [v]) with 1. lia.
  - change (slen (@nil Z)) with 0. pose proof (slen_nonneg h). lia.
  - lia.
Qed.

Lemma few_prefix h e : few (h ++ [e]) -> few h.
Proof. intros F h1 h2 E. apply (F h1 (h2 ++ [e])). now rewrite E, app_assoc. Qed.

Lemma few_short h : slen h < 2 ^ 63 -> few h.
Proof.
  intros H h1 h2 ->. rewrite slen_app in H. pose proof (recorded_length h1). pose proof (slen_nonneg h2). lia.
Qed.

Lemma uni_run_snoc s h od : uni_run s (h ++ [od]) = fst (uni_step (uni_run s h) od).
Proof. unfold uni_run. now rewrite fold_left_app. Qed.

Lemma ustart_inv n : 0 <= n -> uinv n (ustart n) [].
Proof.
  intro H. unfold uinv, ustart; cbn. repeat split; trivial.
  - unfold slen; simpl. lia.
  - apply submultiset_nil.
Qed.

Lemma uni_run_inv n h : 0 <= n -> few (map uop_event h) ->
  uinv n (uni_run (ustart n) h) (recorded (map uop_event h)).
Proof.
  intro Hn. induction h as [|od h IH] using rev_ind; intro F.
  - now apply ustart_inv.
  - rewrite map_app in *. cbn [map] in *. rewrite uni_run_snoc, recorded_snoc.
    assert (Hr : slen (recorded (map uop_event h ++ [uop_event od])) < 2 ^ 63).
    { apply (F (map uop_event h ++ [uop_event od]) []). now rewrite app_nil_r. }
    apply few_prefix in F. specialize (IH F).
    destruct od as [[v| |ps|] d].
    + apply uni_update_inv; trivial. rewrite recorded_snoc in Hr. cbn in Hr. rewrite slen_app in Hr. exact Hr.
    + destruct IH as (Hs & _). cbn. repeat split; cbn; trivial.
      * unfold slen; simpl; lia.
      * apply submultiset_nil.
    + pose proof (uni_step_inv n (uni_run (ustart n) h) (recorded (map uop_event h)) (UPercentiles ps, d) Hn IH) as K.
      destruct IH as (Hs & Hc & Hl & Hsub). cbn [uop_event rec_step fst] in *.
      unfold uni_step, uni_percentiles in *; cbn [fst] in *.
      pose proof (SamplePercentiles_after (u_values (uni_run (ustart n) h)) ps) as Ha.
      destruct (SamplePercentiles (u_values (uni_run (ustart n) h)) ps) as [after q]. cbn [fst] in *. subst after.
      repeat split; cbn [u_size u_count u_values]; trivial.
      * now rewrite slen_sortz.
      * eapply submultiset_perm_l; [apply sortz_perm|exact Hsub].
    + exact IH.
Qed.

Lemma uni_count_size n h : 0 <= n -> few (map uop_event h) ->
  let s := uni_run (ustart n) h in let r := recorded (map uop_event h) in
  uni_Count s = slen r /\ uni_Size s = Z.min (slen r) n /\ slen (uni_Values s) = uni_Size s.
Proof.
  intros Hn F. destruct (uni_run_inv n h Hn F) as (Hs & Hc & Hl & Hsub).
  cbv zeta. unfold uni_Count, uni_Size, uni_Values. auto.
Qed.

Lemma uni_update_no_panic n h v d : 0 <= n -> few (map uop_event (h ++ [(UUpdate v, d)])) ->
  snd (uni_update (uni_run (ustart n) h) v d) = Ok tt.
Proof.
  intros Hn F. rewrite map_app in F. cbn [map uop_event fst] in F.
  assert (Hr : slen (recorded (map uop_event h ++ [RecordV v])) < 2 ^ 63).
  { apply (F (map uop_event h ++ [RecordV v]) []). now rewrite app_nil_r. }
  apply few_prefix in F. rewrite recorded_snoc in Hr. cbn in Hr. rewrite slen_app in Hr.
  now apply (uni_update_inv n _ (recorded (map uop_event h)) v d Hn (uni_run_inv n h Hn F)).
Qed.

Lemma uni_values_sub n h : 0 <= n -> few (map uop_event h) ->
  submultiset (uni_Values (uni_run (ustart n) h)) (recorded (map uop_event h)).
Proof. intros Hn F. apply (uni_run_inv n h Hn F). Qed.

Lemma uni_values_all n h : 0 <= n -> few (map uop_event h) ->
  slen (recorded (map uop_event h)) <= n ->
  Permutation (uni_Values (uni_run (ustart n) h)) (recorded (map uop_event h)).
Proof.
  intros Hn F Hle. destruct (uni_run_inv n h Hn F) as (Hs & Hc & Hl & Hsub).
  apply submultiset_full; [exact Hsub|]. unfold slen in *. unfold uni_Values. lia.
Qed.

Lemma NewUniform_ok n : 0 <= n -> NewUniformSample n = Ok (ustart n).
Proof. intro H. unfold NewUniformSample. destruct (Z.ltb_spec n 0); [lia|reflexivity]. Qed.
