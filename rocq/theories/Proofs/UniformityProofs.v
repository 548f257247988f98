(** Algorithm R is uniform: counting argument. *)
From Coq Require Import ZArith List Lia Permutation Factorial Arith.
From Verif.Model Require Import GoInt GoFloat GoBase Stats Uniform.
From Verif.Spec Require Import OrderStats Reservoir Uniformity.
From Verif.Proofs Require Import IntFacts SortFacts StatsInt ListFacts UniformProofs.
Import ListNotations.
Open Scope nat_scope.

(** give the draws, in order, to the updates of a list of calls *)
Lemma permb_true a b : permb a b = true <-> Permutation a b.
Proof.
  unfold permb. destruct (list_eq_dec Z.eq_dec (sortz a) (sortz b)) as [E|N]; split; intro H; trivial; try discriminate.
  - rewrite (sortz_perm a), (sortz_perm b), E. reflexivity.
  - exfalso. apply N, sortz_unique, H.
Qed.

Lemma permb_ext a a' b : Permutation a a' -> permb a b = permb a' b.
Proof. intro P. unfold permb. now rewrite (sortz_unique _ _ P). Qed.

(** *** sums and counts *)
Definition nsum {A} (f : A -> nat) (l : list A) : nat := fold_right (fun a n => f a + n) 0 l.

Definition b2n (b : bool) : nat := if b then 1 else 0.

Lemma countb_nsum {A} (f : A -> bool) l : countb f l = nsum (fun a => b2n (f a)) l.
Proof. unfold countb. induction l as [|a l IH]; simpl; [reflexivity|]. destruct (f a); simpl; lia. Qed.

Lemma nsum_app {A} (f : A -> nat) l l' : nsum f (l ++ l') = nsum f l + nsum f l'.
Proof. induction l; simpl; lia. Qed.

Lemma nsum_flat_map {A B} (f : B -> nat) (g : A -> list B) l : nsum f (flat_map g l) = nsum (fun a => nsum f (g a)) l.
Proof. induction l; simpl; [reflexivity|]. rewrite nsum_app. lia. Qed.

Lemma nsum_map {A B} (f : B -> nat) (g : A -> B) l : nsum f (map g l) = nsum (fun a => f (g a)) l.
Proof. induction l; simpl; lia. Qed.

Lemma nsum_ext {A} (f g : A -> nat) l : (forall a, In a l -> f a = g a) -> nsum f l = nsum g l.
Proof. induction l as [|a l IH]; simpl; intro H; [reflexivity|]. rewrite H by now left. f_equal. apply IH. intros; apply H; now right. Qed.

Lemma nsum_const {A} (c : nat) (l : list A) : nsum (fun _ => c) l = c * length l.
Proof. induction l; simpl; lia. Qed.

Lemma nsum_mul {A} (f : A -> nat) c l : nsum (fun a => c * f a) l = c * nsum f l.
Proof. induction l; simpl; lia. Qed.

Lemma nsum_add {A} (f g : A -> nat) l : nsum (fun a => f a + g a) l = nsum f l + nsum g l.
Proof. induction l; simpl; lia. Qed.

Lemma nsum_swap {A B} (f : A -> B -> nat) l m : nsum (fun a => nsum (f a) m) l = nsum (fun b => nsum (fun a => f a b) l) m.
Proof.
  induction l as [|a l IH]; simpl.
  - rewrite nsum_const. lia.
  - rewrite IH. rewrite <- nsum_add. reflexivity.
Qed.

Lemma nsum_perm {A} (f : A -> nat) l l' : Permutation l l' -> nsum f l = nsum f l'.
Proof. induction 1; simpl; lia. Qed.

Lemma nsum_filter {A} (f : A -> nat) (p : A -> bool) l :
  (forall a, In a l -> p a = false -> f a = 0) -> nsum f (filter p l) = nsum f l.
Proof.
  induction l as [|a l IH]; simpl; intro H; [reflexivity|].
  destruct (p a) eqn:E; simpl.
  - f_equal. apply IH. intros; apply H; auto.
  - rewrite (H a) by auto. simpl. apply IH. intros; apply H; auto.
Qed.

Lemma nsum_seq_split f n m : nsum f (seq 0 (n + m)) = nsum f (seq 0 n) + nsum f (seq n m).
Proof. rewrite seq_app. rewrite nsum_app. reflexivity. Qed.

Lemma nsum_seq_nth {A} (d : A) (f : A -> nat) (l : list A) :
  nsum (fun i => f (nth i l d)) (seq 0 (length l)) = nsum f l.
Proof.
  induction l as [|a l IH]; simpl; [reflexivity|]. f_equal.
  rewrite <- seq_shift, nsum_map. exact IH.
Qed.

(** *** the counting step *)
Lemma memz_true x l : memz x l = true <-> In x l.
Proof.
  unfold memz. rewrite existsb_exists. split.
  - intros (y & Hy & E). apply Z.eqb_eq in E. now subst.
  - intro H. exists x. split; [exact H|apply Z.eqb_refl].
Qed.
Lemma memz_false x l : memz x l = false <-> ~ In x l.
Proof.
  destruct (memz x l) eqn:E; split; intro H; trivial; try discriminate.
  - apply memz_true in E. contradiction.
  - intro H'. apply memz_true in H'. congruence.
Qed.

Lemma lset_perm_iff s d x T : d < length s ->
  (Permutation (lset s d x) (x :: T) <-> Permutation s (nth d s 0%Z :: T)).
Proof.
  intro Hd. pose proof (nth_error_nth' s 0%Z Hd) as E.
  destruct (lset_perm s d x _ E) as (rest & P1 & P2).
  split; intro H.
  - apply (Permutation_trans (Permutation_sym P2)), Permutation_cons_inv in H.
    apply (Permutation_trans P1). now constructor.
  - apply (Permutation_trans (Permutation_sym P1)), Permutation_cons_inv in H.
    apply (Permutation_trans P2). now constructor.
Qed.

Definition draws_hit (s : list Z) (x : Z) (S : list Z) (c : nat) : nat :=
  nsum (fun d => b2n (permb (if Nat.ltb d (length s) then lset s d x else s) S)) (seq 0 c).

Lemma in_perm {A} (a : A) l m : Permutation l m -> In a l -> In a m.
Proof. apply Permutation_in. Qed.

Lemma draws_hit_old s x S N k : length s = N -> ~ In x S -> draws_hit s x S (N + k) = k * b2n (permb s S).
Proof.
  intros Hl Hx. unfold draws_hit. rewrite nsum_seq_split.
  rewrite (nsum_ext _ (fun _ => 0) (seq 0 N)).
  2:{ intros d Hd. apply in_seq in Hd. destruct (Nat.ltb_spec d (length s)); [|lia].
      destruct (permb (lset s d x) S) eqn:E; [|reflexivity]. exfalso.
      apply permb_true in E. apply Hx. eapply in_perm; [exact E|].
      apply (nth_error_In _ d). apply nth_error_lset_eq. lia. }
  rewrite nsum_const.
  rewrite (nsum_ext _ (fun _ => b2n (permb s S)) (seq N k)).
  2:{ intros d Hd. apply in_seq in Hd. destruct (Nat.ltb_spec d (length s)); [lia|reflexivity]. }
  rewrite nsum_const, !seq_length. lia.
Qed.

Lemma draws_hit_new vs s x T N k : length s = N -> NoDup vs -> NoDup s -> incl s vs -> ~ In x vs ->
  draws_hit s x (x :: T) (N + k) = nsum (fun y => b2n (permb s (y :: T))) (filter (fun y => negb (memz y T)) vs).
Proof.
  intros Hl Hvs Hs Hin Hx. unfold draws_hit. rewrite nsum_seq_split.
  rewrite (nsum_ext _ (fun _ => 0) (seq N k)).
  2:{ intros d Hd. apply in_seq in Hd. destruct (Nat.ltb_spec d (length s)); [lia|].
      destruct (permb s (x :: T)) eqn:E; [|reflexivity]. exfalso.
      apply permb_true in E. apply Hx, Hin. eapply in_perm; [symmetry; exact E|]. now left. }
  rewrite nsum_const, Nat.mul_0_l, Nat.add_0_r.
  rewrite (nsum_ext _ (fun d => b2n (permb s (nth d s 0%Z :: T))) (seq 0 N)).
  2:{ intros d Hd. apply in_seq in Hd. destruct (Nat.ltb_spec d (length s)) as [Hd'|]; [|lia].
      f_equal. pose proof (lset_perm_iff s d x T Hd') as I. rewrite <- !permb_true in I.
      destruct (permb (lset s d x) (x :: T)), (permb s (nth d s 0%Z :: T)); trivial; [symmetry|]; apply I; reflexivity. }
  subst N. rewrite (nsum_seq_nth 0%Z (fun y => b2n (permb s (y :: T))) s).
  assert (Z0 : forall y, (In y T \/ ~ In y s) -> b2n (permb s (y :: T)) = 0).
  { intros y Hy. destruct (permb s (y :: T)) eqn:E; [|reflexivity]. exfalso. apply permb_true in E.
    destruct Hy as [Hy|Hy].
    - apply (Permutation_NoDup E) in Hs. inversion Hs; contradiction.
    - apply Hy. eapply in_perm; [symmetry; exact E|]. now left. }
  rewrite <- (nsum_filter _ (fun y => negb (memz y T)) s).
  2:{ intros y _ Hy. apply Z0. left. apply memz_true. destruct (memz y T); [reflexivity|discriminate]. }
  rewrite <- (nsum_filter _ (fun y => memz y s) (filter (fun y => negb (memz y T)) vs)).
  2:{ intros y _ Hy. apply Z0. right. now apply memz_false. }
  apply nsum_perm. apply NoDup_Permutation.
  - now apply NoDup_filter.
  - now apply NoDup_filter, NoDup_filter.
  - intro y. rewrite !filter_In. rewrite memz_true. split; [intros [H1 H2]|intros [[H1 H2] H3]]; auto.
Qed.

(** *** histories *)
Lemma updates_snoc ops o : updates_of (ops ++ [o]) = updates_of ops ++ match o with UUpdate v => [v] | _ => [] end.
Proof. unfold updates_of. rewrite flat_map_app. simpl. now rewrite app_nil_r. Qed.

Lemma assign_snoc_upd ops ds v d : length ds = length (updates_of ops) ->
  assign (ops ++ [UUpdate v]) (ds ++ [d]) = assign ops ds ++ [(UUpdate v, d)].
Proof.
  revert ds. induction ops as [|o ops IH]; intros ds H.
  - destruct ds; [reflexivity|discriminate].
  - destruct o; cbn [assign app]; try (rewrite IH by exact H; reflexivity).
    destruct ds as [|e ds]; [discriminate|]. cbn [app]. rewrite IH by (simpl in H; injection H; auto). reflexivity.
Qed.

Lemma assign_snoc_other ops ds o : (forall v, o <> UUpdate v) -> length ds = length (updates_of ops) ->
  assign (ops ++ [o]) ds = assign ops ds ++ [(o, 0%Z)].
Proof.
  intros Ho. revert ds. induction ops as [|o' ops IH]; intros ds H.
  - destruct o; try reflexivity. now specialize (Ho v).
  - destruct o'; cbn [assign app]; try (rewrite IH by exact H; reflexivity).
    destruct ds as [|e ds]; [discriminate|]. cbn [app]. rewrite IH by (simpl in H; injection H; auto). reflexivity.
Qed.

Lemma draw_seqs_length n ds : In ds (draw_seqs n) -> length ds = n.
Proof.
  revert ds. induction n as [|n IH]; intros ds H.
  - destruct H as [<-|[]]. reflexivity.
  - cbn [draw_seqs] in H. apply in_flat_map in H. destruct H as (ds' & H1 & H2).
    apply in_map_iff in H2. destruct H2 as (d & <- & _). rewrite app_length, (IH _ H1). simpl. lia.
Qed.

Lemma draw_seqs_count n : length (draw_seqs n) = fact n.
Proof.
  induction n as [|n IH]; [reflexivity|]. cbn [draw_seqs].
  assert (K : forall l : list (list Z), length (flat_map (fun ds => map (fun d => ds ++ [Z.of_nat d]) (seq 0 (S n))) l) = S n * length l).
  { induction l as [|a l IHl]; cbn [flat_map]; [simpl; lia|]. rewrite app_length, map_length, seq_length, IHl. cbn [length]. lia. }
  rewrite K, IH. reflexivity.
Qed.

Definition hits (N : nat) (ops : list uop) (p : list Z -> bool) : nat :=
  nsum (fun ds => b2n (p (reservoir_of N ops ds))) (draw_seqs (length (updates_of ops))).

(** basic facts about the reservoir along these histories *)
Lemma recorded_assign ops ds : existsb is_clear ops = false -> forall acc,
  fold_left rec_step (map uop_event (assign ops ds)) acc = acc ++ updates_of ops.
Proof.
  revert ds. induction ops as [|o ops IH]; intros ds H acc; cbn [existsb] in H.
  - simpl. now rewrite app_nil_r.
  - apply Bool.orb_false_iff in H. destruct H as [Ho H].
    destruct o; try discriminate; cbn [assign].
    + destruct ds as [|d ds]; cbn [map fold_left uop_event fst rec_step];
        rewrite IH by exact H; rewrite <- app_assoc; reflexivity.
    + cbn [map fold_left uop_event fst rec_step]. now rewrite IH by exact H.
    + cbn [map fold_left uop_event fst rec_step]. now rewrite IH by exact H.
Qed.

Lemma assign_length ops ds : length (assign ops ds) = length ops.
Proof. revert ds. induction ops as [|o ops IH]; intro ds; [reflexivity|]. destruct o; cbn [assign length]; try (now rewrite IH). destruct ds; cbn [length]; now rewrite IH. Qed.

Lemma res_inv N ops ds : existsb is_clear ops = false -> (slen ops < 2 ^ 63)%Z ->
  uinv (Z.of_nat N) (uni_run (ustart (Z.of_nat N)) (assign ops ds)) (updates_of ops).
Proof.
  intros H Hs. pose proof (uni_run_inv (Z.of_nat N) (assign ops ds) ltac:(lia)) as I.
  assert (E : recorded (map uop_event (assign ops ds)) = updates_of ops).
  { exact (recorded_assign ops ds H []). }
  rewrite E in I. apply I. apply few_short. unfold slen in *. now rewrite map_length, assign_length.
Qed.

Lemma sub_incl {A} (l m : list A) : submultiset l m -> incl l m.
Proof. intros H a Ha. eapply submultiset_in; eassumption. Qed.
Lemma NoDup_app_remove_r {A} (l l' : list A) : NoDup (l ++ l') -> NoDup l.
Proof.
  induction l as [|a l IH]; simpl; intro H; [constructor|]. inversion H as [|? ? Ha Hl]; subst.
  constructor; [|auto]. intro H'. apply Ha. apply in_or_app. now left.
Qed.
Lemma sub_nodup {A} (l m : list A) : submultiset l m -> NoDup m -> NoDup l.
Proof. intros [r P] H. symmetry in P. apply (Permutation_NoDup P) in H. now apply NoDup_app_remove_r in H. Qed.

(** the effect of one more update on the reservoir *)
Lemma reservoir_update N ops ds v d : existsb is_clear ops = false -> (slen ops + 1 < 2 ^ 63)%Z ->
  length ds = length (updates_of ops) -> (d < S (length (updates_of ops)))%nat ->
  N <= length (updates_of ops) ->
  reservoir_of N (ops ++ [UUpdate v]) (ds ++ [Z.of_nat d]) =
  let s := reservoir_of N ops ds in if Nat.ltb d (length s) then lset s d v else s.
Proof.
  intros Hc Hs Hl Hd HN. unfold reservoir_of. rewrite assign_snoc_upd by exact Hl. rewrite uni_run_snoc.
  destruct (res_inv N ops ds Hc ltac:(lia)) as (I1 & I2 & I3 & I4).
  set (s := uni_run _ _) in *. cbv zeta. unfold uni_Values.
  cbn [uni_step fst snd]. unfold uni_update.
  assert (HU : (length (updates_of ops) <= length ops)%nat).
  { clear. unfold updates_of. induction ops as [|o ops IH]; simpl; [lia|]. destruct o; simpl; lia. }
  rewrite wrap64_id by (unfold is_int64, min_int64, max_int64, slen in *; lia).
  rewrite I1, I2, I3. unfold slen in *.
  destruct (Z.ltb_spec (Z.min (Z.of_nat (length (updates_of ops))) (Z.of_nat N)) (Z.of_nat N)); [lia|].
  unfold Int63n. destruct (Z.leb_spec (Z.of_nat (length (updates_of ops)) + 1) 0); [lia|].
  rewrite Z.mod_small by lia.
  destruct (Nat.ltb_spec d (length (u_values s))) as [L|L].
  - destruct (Z.ltb_spec (Z.of_nat d) (Z.min (Z.of_nat (length (updates_of ops))) (Z.of_nat N))); [|lia].
    rewrite sset_ok by (unfold slen; lia). cbn [fst u_values]. now rewrite Nat2Z.id.
  - destruct (Z.ltb_spec (Z.of_nat d) (Z.min (Z.of_nat (length (updates_of ops))) (Z.of_nat N))); [lia|].
    reflexivity.
Qed.

Lemma reservoir_other N ops ds o : is_clear o = false -> (forall v, o <> UUpdate v) ->
  length ds = length (updates_of ops) ->
  Permutation (reservoir_of N (ops ++ [o]) ds) (reservoir_of N ops ds).
Proof.
  intros Hc Ho Hl. unfold reservoir_of. rewrite assign_snoc_other by assumption. rewrite uni_run_snoc.
  set (s := uni_run _ _). destruct o as [v| |ps|]; try discriminate.
  - now specialize (Ho v).
  - cbn [uni_step fst]. unfold uni_percentiles. pose proof (SamplePercentiles_after (u_values s) ps) as Ha.
    destruct (SamplePercentiles (u_values s) ps) as [after q]. cbn [fst] in *. subst after.
    unfold uni_Values. cbn [u_values]. symmetry. apply sortz_perm.
  - reflexivity.
Qed.

Lemma hits_other N ops o p : is_clear o = false -> (forall v, o <> UUpdate v) ->
  (forall a b, Permutation a b -> p a = p b) -> hits N (ops ++ [o]) p = hits N ops p.
Proof.
  intros Hc Ho Hp. unfold hits. rewrite updates_snoc.
  replace (updates_of ops ++ match o with UUpdate v => [v] | _ => [] end) with (updates_of ops)
    by (destruct o; [now specialize (Ho v)| | |]; now rewrite app_nil_r).
  apply nsum_ext. intros ds Hd. f_equal. apply Hp. apply reservoir_other; trivial. now apply draw_seqs_length.
Qed.

Lemma hits_update N ops v p : existsb is_clear ops = false -> (slen ops + 1 < 2 ^ 63)%Z ->
  N <= length (updates_of ops) ->
  hits N (ops ++ [UUpdate v]) p =
  nsum (fun ds => let s := reservoir_of N ops ds in
     nsum (fun d => b2n (p (if Nat.ltb d (length s) then lset s d v else s))) (seq 0 (S (length (updates_of ops)))))
   (draw_seqs (length (updates_of ops))).
Proof.
  intros Hc Hs HN. unfold hits. rewrite updates_snoc, app_length. cbn [length]. rewrite Nat.add_1_r.
  cbn [draw_seqs]. rewrite nsum_flat_map. apply nsum_ext. intros ds Hd. rewrite nsum_map.
  cbv zeta. apply nsum_ext. intros d Hdd. apply in_seq in Hdd.
  rewrite reservoir_update; trivial; [now apply draw_seqs_length|lia].
Qed.

Lemma reservoir_facts N ops ds : existsb is_clear ops = false -> (slen ops < 2 ^ 63)%Z ->
  N <= length (updates_of ops) -> NoDup (updates_of ops) ->
  length (reservoir_of N ops ds) = N /\ NoDup (reservoir_of N ops ds) /\ incl (reservoir_of N ops ds) (updates_of ops).
Proof.
  intros Hc Hs HN Hnd. destruct (res_inv N ops ds Hc Hs) as (_ & _ & I3 & I4).
  fold (reservoir_of N ops ds) in *. unfold reservoir_of, uni_Values. unfold slen in I3.
  split; [lia|]. split; [eapply sub_nodup; eassumption|now apply sub_incl].
Qed.

(** removing an element from a duplicate-free list *)
Lemma filter_notin_length vs T : NoDup vs -> NoDup T -> incl T vs ->
  length (filter (fun y => negb (memz y T)) vs) = length vs - length T.
Proof.
  intros Hv HT Hin.
  assert (P : Permutation vs (T ++ filter (fun y => negb (memz y T)) vs)).
  { apply NoDup_Permutation; trivial.
    - clear Hin. induction HT as [|a T Ha HT IH]; simpl.
      + now apply NoDup_filter.
      + constructor.
        * rewrite in_app_iff. intros [H|H]; [contradiction|]. apply filter_In in H. destruct H as [_ H].
          rewrite Z.eqb_refl in H. discriminate.
        * assert (K : forall l, NoDup (T ++ filter (fun y => negb (memz y T)) l) ->
             NoDup (T ++ filter (fun y => negb ((y =? a)%Z || memz y T)) l)).
          { intros l. induction l as [|b l IHl]; cbn [filter]; trivial.
            destruct (b =? a)%Z; cbn [orb negb].
            - destruct (memz b T); cbn [negb]; trivial. intro H. apply NoDup_remove_1 in H. auto.
            - destruct (memz b T) eqn:Em; cbn [negb]; trivial. intro H.
              assert (HP : Permutation (T ++ b :: filter (fun y => negb (memz y T)) l) (b :: T ++ filter (fun y => negb (memz y T)) l)) by (symmetry; apply Permutation_middle).
              apply (Permutation_NoDup HP) in H. inversion H as [|? ? Hb Hr]; subst.
              eapply Permutation_NoDup; [apply Permutation_middle|]. constructor; [|auto].
              rewrite in_app_iff in *. intros [C|C]; apply Hb; [now left|right].
              apply filter_In in C. destruct C as [C1 C2]. apply filter_In. split; trivial.
              destruct (b =? a)%Z; [discriminate|]. exact C2. }
          now apply K.
    - intro y. rewrite in_app_iff, filter_In. destruct (memz y T) eqn:E; simpl.
      + apply memz_true in E. split; auto.
      + apply memz_false in E. split; [auto|]. intros [H|[H _]]; auto. }
  apply Permutation_length in P. rewrite app_length in P. lia.
Qed.

Lemma remove_elt S (x : Z) : In x S -> NoDup S -> exists T, Permutation S (x :: T) /\ NoDup T /\ ~ In x T /\ length S = Datatypes.S (length T).
Proof.
  intros Hx Hn. apply in_split in Hx. destruct Hx as (a & b & ->). exists (a ++ b).
  assert (P : Permutation (a ++ x :: b) (x :: a ++ b)) by (symmetry; apply Permutation_middle).
  split; [exact P|]. apply (Permutation_NoDup P) in Hn. inversion Hn; subst. repeat split; trivial.
  apply Permutation_length in P. exact P.
Qed.

(** every N-subset is hit by exactly N! (n-N)! of the n! draw sequences *)
Lemma algorithm_R_subsets N ops : existsb is_clear ops = false -> (slen ops < 2 ^ 63)%Z ->
  NoDup (updates_of ops) -> N <= length (updates_of ops) ->
  forall T, NoDup T -> incl T (updates_of ops) -> length T = N ->
  hits N ops (fun s => permb s T) = fact N * fact (length (updates_of ops) - N).
Proof.
  induction ops as [|o ops IH] using rev_ind; intros Hc Hs Hnd HN T HT Hin HlT.
  - simpl in HN. assert (N = 0) by lia. subst N. destruct T; [|discriminate]. reflexivity.
  - rewrite existsb_app in Hc. apply Bool.orb_false_iff in Hc. destruct Hc as [Hc Ho]. cbn [existsb] in Ho.
    rewrite Bool.orb_false_r in Ho.
    unfold slen in Hs. rewrite app_length in Hs. cbn [length] in Hs.
    assert (Hs' : (slen ops + 1 < 2 ^ 63)%Z) by (unfold slen; lia).
    rewrite updates_snoc in *.
    destruct o as [x| |ps|]; try discriminate.
    2:{ rewrite app_nil_r in *. rewrite hits_other; [|reflexivity|discriminate|intros; now apply permb_ext].
        apply IH; trivial; lia. }
    2:{ rewrite app_nil_r in *. rewrite hits_other; [|reflexivity|discriminate|intros; now apply permb_ext].
        apply IH; trivial; lia. }
    set (vs := updates_of ops) in *.
    assert (Hnd' : NoDup vs) by now apply NoDup_app_remove_r in Hnd.
    assert (Hxv : ~ In x vs).
    { apply (Permutation_NoDup (Permutation_app_comm vs [x])) in Hnd. inversion Hnd; trivial. }
    rewrite app_length in *. cbn [length] in *.
    destruct (Nat.le_gt_cases N (length vs)) as [HNv|HNv].
    + (* the reservoir was already full *)
      rewrite hits_update by (trivial; fold vs; lia). fold vs.
      set (k := length vs + 1 - N). replace (Datatypes.S (length vs)) with (N + k) by lia.
      assert (RF : forall ds, length (reservoir_of N ops ds) = N /\ NoDup (reservoir_of N ops ds) /\ incl (reservoir_of N ops ds) vs)
        by (intro ds; apply reservoir_facts; trivial; lia).
      replace (fact k) with (k * fact (length vs - N)).
      2:{ unfold k. replace (length vs + 1 - N) with (Datatypes.S (length vs - N)) by lia. reflexivity. }
      destruct (memz x T) eqn:Ex.
      * apply memz_true in Ex. destruct (remove_elt T x Ex HT) as (T' & P & HT' & HxT' & HlT').
        assert (Hin' : incl T' vs).
        { intros y Hy. assert (Hy' : In y (vs ++ [x])) by (apply Hin; eapply in_perm; [symmetry; exact P|now right]).
          apply in_app_iff in Hy'. destruct Hy' as [|[<-|[]]]; [trivial|contradiction]. }
        rewrite (nsum_ext _ (fun ds => nsum (fun y => b2n (permb (reservoir_of N ops ds) (y :: T'))) (filter (fun y => negb (memz y T')) vs))).
        2:{ intros ds _. destruct (RF ds) as (R1 & R2 & R3). cbv zeta.
            rewrite <- (draws_hit_new vs _ x T' N k R1 Hnd' R2 R3 Hxv). unfold draws_hit.
            apply nsum_ext. intros d _. f_equal. unfold permb. now rewrite (sortz_unique _ _ P). }
        rewrite nsum_swap.
        rewrite (nsum_ext _ (fun _ => fact N * fact (length vs - N))).
        2:{ intros y Hy. apply filter_In in Hy. destruct Hy as [Hy1 Hy2].
            apply Bool.negb_true_iff, memz_false in Hy2.
            apply (IH Hc ltac:(lia) Hnd' HNv (y :: T')).
            - now constructor.
            - intros z [<-|Hz]; auto.
            - simpl. lia. }
        rewrite nsum_const, filter_notin_length by trivial.
        replace (length vs - length T') with k by (unfold k; lia). ring.
      * apply memz_false in Ex.
        assert (Hin' : incl T vs).
        { intros y Hy. specialize (Hin y Hy). apply in_app_iff in Hin. destruct Hin as [|[<-|[]]]; [trivial|contradiction]. }
        rewrite (nsum_ext _ (fun ds => k * b2n (permb (reservoir_of N ops ds) T))).
        2:{ intros ds _. destruct (RF ds) as (R1 & R2 & R3). cbv zeta.
            exact (draws_hit_old (reservoir_of N ops ds) x T N k R1 Ex). }
        rewrite nsum_mul. fold (hits N ops (fun s => permb s T)).
        specialize (IH Hc ltac:(lia) Hnd' HNv T HT Hin' HlT). unfold hits in IH. fold vs in IH. rewrite IH. ring.
    + (* the reservoir has just become full: it holds everything *)
      assert (EN : N = length vs + 1) by lia.
      unfold hits. rewrite updates_snoc. fold vs. rewrite app_length. cbn [length].
      rewrite (nsum_ext _ (fun _ => 1)).
      * rewrite nsum_const, draw_seqs_count. replace (length vs + 1 - N) with 0 by lia. cbn [fact]. rewrite EN. ring.
      * intros ds Hd. assert (E : permb (reservoir_of N (ops ++ [UUpdate x]) ds) T = true); [|now rewrite E].
        apply permb_true.
        destruct (res_inv N (ops ++ [UUpdate x]) ds) as (_ & _ & I3 & I4).
        { rewrite existsb_app. rewrite Hc. reflexivity. }
        { unfold slen. rewrite app_length. simpl. lia. }
        rewrite updates_snoc in I3, I4. fold vs in I3, I4.
        fold (uni_Values (uni_run (ustart (Z.of_nat N)) (assign (ops ++ [UUpdate x]) ds))) in I3, I4.
        fold (reservoir_of N (ops ++ [UUpdate x]) ds) in I3, I4.
        transitivity (vs ++ [x]).
        -- apply submultiset_full; [exact I4|]. unfold slen in I3. rewrite app_length in *. cbn [length] in *. lia.
        -- symmetry. apply NoDup_Permutation_bis; trivial. rewrite app_length. simpl. lia.
Qed.

(** marginals *)
Lemma sum_ne s x v c : length s <= c -> NoDup s -> In v s -> v <> x ->
  nsum (fun d => b2n (memz v (if Nat.ltb d (length s) then lset s d x else s))) (seq 0 c) = c - 1.
Proof.
  intros Hl Hn Hv Hx. destruct (In_nth_error _ _ Hv) as [i Hi].
  assert (Hil : i < length s) by (apply nth_error_Some; congruence).
  rewrite (nsum_ext _ (fun d => b2n (negb (Nat.eqb d i)))).
  - replace c with (i + (1 + (c - i - 1))) by lia. rewrite nsum_seq_split. cbn [seq nsum fold_right Nat.add].
    rewrite Nat.eqb_refl. cbn [negb b2n].
    rewrite (nsum_ext _ (fun _ => 1) (seq 0 i)).
    2:{ intros d Hd. apply in_seq in Hd. destruct (Nat.eqb_spec d i); [lia|reflexivity]. }
    fold (nsum (fun d => b2n (negb (Nat.eqb d i))) (seq (Datatypes.S i) (c - i - 1))).
    rewrite (nsum_ext _ (fun _ => 1) (seq (Datatypes.S i) (c - i - 1))).
    2:{ intros d Hd. apply in_seq in Hd. destruct (Nat.eqb_spec d i); [lia|reflexivity]. }
    rewrite !nsum_const, !seq_length. lia.
  - intros d Hd. f_equal. destruct (Nat.eqb_spec d i) as [->|Ne]; cbn [negb].
    + destruct (Nat.ltb_spec i (length s)); [|lia]. apply memz_false. intro Hin.
      destruct (lset_perm s i x v Hi) as (rest & P1 & P2).
      apply (in_perm _ _ _ P2) in Hin. destruct Hin as [E|Hin]; [congruence|].
      apply (Permutation_NoDup P1) in Hn. inversion Hn; contradiction.
    + destruct (Nat.ltb_spec d (length s)); apply memz_true; trivial.
      apply (nth_error_In _ i). rewrite nth_error_lset_ne by exact Ne. exact Hi.
Qed.

Lemma sum_absent s x v c : length s <= c -> ~ In v s -> v <> x ->
  nsum (fun d => b2n (memz v (if Nat.ltb d (length s) then lset s d x else s))) (seq 0 c) = 0.
Proof.
  intros Hl Hv Hx. rewrite (nsum_ext _ (fun _ => 0)); [rewrite nsum_const; lia|].
  intros d Hd. assert (E : memz v (if Nat.ltb d (length s) then lset s d x else s) = false); [|now rewrite E].
  apply memz_false. destruct (Nat.ltb_spec d (length s)) as [L|L]; trivial.
  intro Hin. destruct (nth_error_in_range s d L) as [y Hy]. destruct (lset_perm s d x y Hy) as (rest & P1 & P2).
  apply (in_perm _ _ _ P2) in Hin. destruct Hin as [E|Hin]; [congruence|]. apply Hv.
  eapply in_perm; [symmetry; exact P1|]. now right.
Qed.

Lemma sum_new s x c : length s <= c -> ~ In x s ->
  nsum (fun d => b2n (memz x (if Nat.ltb d (length s) then lset s d x else s))) (seq 0 c) = length s.
Proof.
  intros Hl Hx. replace c with (length s + (c - length s)) by lia. rewrite nsum_seq_split. simpl Nat.add.
  rewrite (nsum_ext _ (fun _ => 1) (seq 0 (length s))).
  2:{ intros d Hd. apply in_seq in Hd. destruct (Nat.ltb_spec d (length s)); [|lia].
      assert (E : memz x (lset s d x) = true); [|now rewrite E]. apply memz_true.
      apply (nth_error_In _ d). apply nth_error_lset_eq. lia. }
  rewrite (nsum_ext _ (fun _ => 0) (seq (length s) _)).
  2:{ intros d Hd. apply in_seq in Hd. destruct (Nat.ltb_spec d (length s)); [lia|].
      assert (E : memz x s = false); [|now rewrite E]. now apply memz_false. }
  rewrite !nsum_const, seq_length. lia.
Qed.

Lemma memz_ext v a b : Permutation a b -> memz v a = memz v b.
Proof.
  intro P. destruct (memz v b) eqn:E.
  - apply memz_true in E. apply memz_true. eapply in_perm; [symmetry; exact P|exact E].
  - apply memz_false in E. apply memz_false. intro H. apply E. eapply in_perm; [exact P|exact H].
Qed.

Lemma algorithm_R_marginal N ops : existsb is_clear ops = false -> (slen ops < 2 ^ 63)%Z ->
  NoDup (updates_of ops) -> N <= length (updates_of ops) ->
  forall v, In v (updates_of ops) ->
  hits N ops (memz v) * length (updates_of ops) = N * fact (length (updates_of ops)).
Proof.
  induction ops as [|o ops IH] using rev_ind; intros Hc Hs Hnd HN v Hv; [contradiction|].
  rewrite existsb_app in Hc. apply Bool.orb_false_iff in Hc. destruct Hc as [Hc Ho]. cbn [existsb] in Ho.
  rewrite Bool.orb_false_r in Ho.
  unfold slen in Hs. rewrite app_length in Hs. cbn [length] in Hs.
  assert (Hs' : (slen ops + 1 < 2 ^ 63)%Z) by (unfold slen; lia).
  rewrite updates_snoc in *.
  destruct o as [x| |ps|]; try discriminate.
  2:{ rewrite app_nil_r in *. rewrite hits_other; [|reflexivity|discriminate|intros; now apply memz_ext].
      apply IH; trivial; lia. }
  2:{ rewrite app_nil_r in *. rewrite hits_other; [|reflexivity|discriminate|intros; now apply memz_ext].
      apply IH; trivial; lia. }
  set (vs := updates_of ops) in *.
  assert (Hnd' : NoDup vs) by now apply NoDup_app_remove_r in Hnd.
  assert (Hxv : ~ In x vs).
  { apply (Permutation_NoDup (Permutation_app_comm vs [x])) in Hnd. inversion Hnd; trivial. }
  rewrite app_length in *. cbn [length] in *.
  destruct (Nat.le_gt_cases N (length vs)) as [HNv|HNv].
  - rewrite hits_update by (trivial; fold vs; lia). fold vs.
    assert (RF : forall ds, length (reservoir_of N ops ds) = N /\ NoDup (reservoir_of N ops ds) /\ incl (reservoir_of N ops ds) vs)
      by (intro ds; apply reservoir_facts; trivial; lia).
    destruct (Z.eq_dec v x) as [->|Nx].
    + rewrite (nsum_ext _ (fun _ => N)).
      2:{ intros ds _. destruct (RF ds) as (R1 & R2 & R3). cbv zeta. rewrite sum_new; [exact R1|lia|].
          intro H. apply Hxv, R3, H. }
      rewrite nsum_const, draw_seqs_count. rewrite Nat.add_1_r. cbn [fact]. ring.
    + assert (Hv' : In v vs) by (apply in_app_iff in Hv; destruct Hv as [Hv|[E|[]]]; [exact Hv|congruence]).
      rewrite (nsum_ext _ (fun ds => length vs * b2n (memz v (reservoir_of N ops ds)))).
      2:{ intros ds _. destruct (RF ds) as (R1 & R2 & R3). cbv zeta.
          destruct (memz v (reservoir_of N ops ds)) eqn:E.
          - apply memz_true in E. rewrite sum_ne by (trivial; lia). cbn [b2n]; lia.
          - apply memz_false in E. rewrite sum_absent by (trivial; lia). cbn [b2n]; lia. }
      rewrite nsum_mul.
      specialize (IH Hc ltac:(lia) Hnd' HNv v Hv'). unfold hits in IH. fold vs in IH.
      rewrite Nat.add_1_r. cbn [fact].
      replace (length vs * nsum (fun a => b2n (memz v (reservoir_of N ops a))) (draw_seqs (length vs)) * S (length vs))
        with (S (length vs) * (nsum (fun a => b2n (memz v (reservoir_of N ops a))) (draw_seqs (length vs)) * length vs)) by ring.
      rewrite IH. ring.
  - assert (N = length vs + 1) by lia.
    unfold hits. rewrite updates_snoc. fold vs. rewrite app_length. cbn [length].
    rewrite (nsum_ext _ (fun _ => 1)).
    + rewrite nsum_const, draw_seqs_count. subst N. lia.
    + intros ds Hd. assert (E : memz v (reservoir_of N (ops ++ [UUpdate x]) ds) = true); [|now rewrite E].
      apply memz_true.
      destruct (res_inv N (ops ++ [UUpdate x]) ds) as (_ & _ & I3 & I4).
      { rewrite existsb_app. rewrite Hc. reflexivity. }
      { unfold slen. rewrite app_length. simpl. lia. }
      rewrite updates_snoc in I3, I4. fold vs in I3, I4.
      fold (uni_Values (uni_run (ustart (Z.of_nat N)) (assign (ops ++ [UUpdate x]) ds))) in I3, I4.
      fold (reservoir_of N (ops ++ [UUpdate x]) ds) in I3, I4.
      eapply in_perm; [|exact Hv]. symmetry.
      apply submultiset_full; [exact I4|]. unfold slen in I3. rewrite app_length in *. cbn [length] in *. lia.
Qed.

Lemma hits_countb N ops p : hits N ops p = countb (fun ds => p (reservoir_of N ops ds)) (draw_seqs (length (updates_of ops))).
Proof. unfold hits. now rewrite countb_nsum. Qed.

(** The algorithm never looks at the values: on histories of updates only, the
    reservoir for values [f i] is the image of the reservoir for [i]. *)
Definition upds (vs : list Z) (ds : list Z) : list (uop * Z) := assign (map UUpdate vs) ds.

Lemma lset_map {A B} (f : A -> B) l i a : map f (lset l i a) = lset (map f l) i (f a).
Proof. revert i; induction l as [|b l IH]; intros [|i]; simpl; trivial. now rewrite IH. Qed.

Lemma uni_update_map f s v d :
  fst (uni_update (MkUniform (u_count s) (u_size s) (map f (u_values s))) (f v) d) =
  let s' := fst (uni_update s v d) in MkUniform (u_count s') (u_size s') (map f (u_values s')).
Proof.
  unfold uni_update. cbn [u_count u_size u_values]. unfold slen. rewrite map_length.
  destruct (Z.of_nat (length (u_values s)) <? u_size s)%Z.
  - cbn [fst u_count u_size u_values]. now rewrite map_app.
  - destruct (Int63n (wrap64 (u_count s + 1)) d) as [r|m]; [|reflexivity].
    destruct (Z.ltb_spec r (Z.of_nat (length (u_values s)))) as [L|L]; [|reflexivity].
    unfold sset, slen. rewrite map_length. destruct (r <? 0)%Z; [reflexivity|].
    destruct (r <? Z.of_nat (length (u_values s)))%Z; [|reflexivity].
    cbn [fst u_count u_size u_values]. now rewrite lset_map.
Qed.

Lemma uni_run_map f vs : forall ds s,
  uni_run (MkUniform (u_count s) (u_size s) (map f (u_values s))) (upds (map f vs) ds) =
  let s' := uni_run s (upds vs ds) in MkUniform (u_count s') (u_size s') (map f (u_values s')).
Proof.
  induction vs as [|v vs IH]; intros ds s; [reflexivity|].
  unfold upds. cbn [map assign].
  destruct ds as [|d ds]; unfold uni_run; cbn [fold_left uni_step fst snd];
    rewrite uni_update_map; cbv zeta; fold (upds (map f vs));
    match goal with |- context [assign (map UUpdate (map f vs)) ?e] => fold (upds (map f vs) e) end;
    match goal with |- context [assign (map UUpdate vs) ?e] => fold (upds vs e) end;
    apply IH.
Qed.

Lemma reservoir_value_oblivious N f vs ds :
  reservoir_of N (map UUpdate (map f vs)) ds = map f (reservoir_of N (map UUpdate vs) ds).
Proof.
  unfold reservoir_of, uni_Values. pose proof (uni_run_map f vs ds (ustart (Z.of_nat N))) as H.
  cbv zeta in H. unfold upds in H. cbn [ustart u_count u_size u_values map] in H. fold (ustart (Z.of_nat N)) in H.
  now rewrite H.
Qed.
