(** The array heap of sample.go: bounds, contents and order. *)
From Coq Require Import ZArith Reals Lra List Lia Permutation.
From Verif.Model Require Import GoInt GoFloat GoBase ExpDecay.
From Flocq Require Import Core.
From Verif.Proofs Require Import FloatFacts ExtFacts ListFacts HeapOrder.
Import ListNotations.
Open Scope nat_scope.

Lemma firstn_lset {A} (l : list A) n i a : firstn n (lset l i a) = lset (firstn n l) i a.
Proof.
  revert n i. induction l as [|b l IH]; intros n i.
  - destruct n, i; reflexivity.
  - destruct n as [|n]; [destruct i; reflexivity|]. destruct i as [|i]; cbn [lset firstn]; [reflexivity|]. now rewrite IH.
Qed.
Lemma skipn_lset {A} (l : list A) n i a : i < n -> skipn n (lset l i a) = skipn n l.
Proof.
  revert n i. induction l as [|b l IH]; intros n i Hi.
  - destruct i; reflexivity.
  - destruct n as [|n]; [lia|]. destruct i as [|i]; cbn [lset skipn]; [reflexivity|]. apply IH. lia.
Qed.
Lemma nth_error_firstn_lt {A} (l : list A) n i : i < n -> nth_error (firstn n l) i = nth_error l i.
Proof.
  revert n i. induction l as [|b l IH]; intros n i H; [now rewrite firstn_nil|].
  destruct n; [lia|]. destruct i; [reflexivity|]. simpl. apply IH. lia.
Qed.
Lemma nth_lset {A} (l : list A) i j a d :
  nth j (lset l i a) d = if Nat.eqb i j then (if Nat.ltb j (length l) then a else d) else nth j l d.
Proof.
  pose proof (nth_error_lset l i j a) as H.
  destruct (nth_error (lset l i a) j) as [x|] eqn:E.
  - rewrite (nth_error_nth _ _ d E). destruct (Nat.eqb i j).
    + destruct (Nat.ltb j (length l)); congruence.
    + symmetry in H. now rewrite (nth_error_nth _ _ d H).
  - apply nth_error_None in E. rewrite nth_overflow by exact E. destruct (Nat.eqb i j).
    + destruct (Nat.ltb j (length l)); congruence.
    + symmetry in H. apply nth_error_None in H. now rewrite nth_overflow.
Qed.

(** the slice length does not exceed the capacity *)
Definition hwf (h : heap) : Prop := h_len h <= length (h_arr h).

Lemma hvalues_length h : hwf h -> length (hvalues h) = h_len h.
Proof. intro H. unfold hvalues. rewrite firstn_length. unfold hwf in H. lia. Qed.

(** [h'] differs from [h] only below the slice length *)
Definition hframe (h h' : heap) : Prop :=
  h_len h' = h_len h /\ length (h_arr h') = length (h_arr h) /\
  skipn (h_len h) (h_arr h') = skipn (h_len h) (h_arr h).

Lemma hframe_refl h : hframe h h.
Proof. repeat split. Qed.
Lemma hframe_trans a b c : hframe a b -> hframe b c -> hframe a c.
Proof. intros (A & B & C) (D & E & F). rewrite A in F. repeat split; congruence. Qed.
Lemma hframe_wf a b : hframe a b -> hwf a -> hwf b.
Proof. intros (A & B & _). unfold hwf. lia. Qed.

Lemma hget_ok h i : hwf h -> i < h_len h -> hget h i = Ok (nth i (hvalues h) entry0).
Proof.
  intros W H. unfold hget. destruct (Nat.ltb_spec i (h_len h)) as [L|L]; [|lia].
  destruct (nth_error_in_range (h_arr h) i) as [e E]; [unfold hwf in W; lia|]. rewrite E.
  unfold hvalues. rewrite <- (nth_error_firstn_lt _ (h_len h) i L) in E.
  now rewrite (nth_error_nth _ _ entry0 E).
Qed.

Lemma hput_ok h i e : hwf h -> i < h_len h -> exists h',
  hput h i e = Ok h' /\ hframe h h' /\ hvalues h' = lset (hvalues h) i e.
Proof.
  intros W H. unfold hput. destruct (Nat.ltb_spec i (h_len h)) as [L|L]; [|lia].
  eexists; split; [reflexivity|]. split.
  - unfold hframe; simpl. repeat split; [apply length_lset|now apply skipn_lset].
  - unfold hvalues; simpl. apply firstn_lset.
Qed.

Definition lswap (l : list entry) (i j : nat) : list entry :=
  lset (lset l i (nth j l entry0)) j (nth i l entry0).

Lemma lswap_length l i j : length (lswap l i j) = length l.
Proof. unfold lswap. now rewrite !length_lset. Qed.

Lemma lswap_nth l i j x : i < length l -> j < length l ->
  nth x (lswap l i j) entry0 =
  if Nat.eqb x i then nth j l entry0 else if Nat.eqb x j then nth i l entry0 else nth x l entry0.
Proof.
  intros Hi Hj. unfold lswap. rewrite !nth_lset, !length_lset.
  destruct (Nat.eqb_spec j x) as [<-|Nj].
  - destruct (Nat.ltb_spec j (length l)); [|lia]. rewrite Nat.eqb_refl.
    destruct (Nat.eqb_spec j i) as [->|]; reflexivity.
  - destruct (Nat.eqb_spec i x) as [<-|Ni].
    + destruct (Nat.ltb_spec i (length l)); [|lia]. now rewrite Nat.eqb_refl.
    + destruct (Nat.eqb_spec x i), (Nat.eqb_spec x j); congruence.
Qed.

Lemma lswap_perm l i j : i < length l -> j < length l -> Permutation l (lswap l i j).
Proof.
  intros Hi Hj. unfold lswap.
  set (a := nth i l entry0). set (b := nth j l entry0).
  assert (Ea : nth_error l i = Some a) by now apply nth_error_nth'.
  assert (Eb : nth_error l j = Some b) by now apply nth_error_nth'.
  destruct (lset_perm l i b a Ea) as (r & P1 & P2).
  assert (Ej : nth_error (lset l i b) j = Some b).
  { rewrite nth_error_lset. destruct (Nat.eqb_spec i j) as [<-|]; [|exact Eb].
    destruct (Nat.ltb_spec i (length l)); [reflexivity|lia]. }
  destruct (lset_perm (lset l i b) j a b Ej) as (r2 & P3 & P4).
  assert (Permutation r r2).
  { apply (Permutation_cons_inv (a := b)). eapply Permutation_trans; [symmetry; exact P2|exact P3]. }
  eapply Permutation_trans; [exact P1|]. symmetry. eapply Permutation_trans; [exact P4|].
  apply perm_skip. now symmetry.
Qed.

Lemma hswap_ok h i j : hwf h -> i < h_len h -> j < h_len h -> exists h',
  hswap h i j = Ok h' /\ hframe h h' /\ hvalues h' = lswap (hvalues h) i j.
Proof.
  intros W Hi Hj. unfold hswap. rewrite (hget_ok h j W Hj), (hget_ok h i W Hi). simpl.
  destruct (hput_ok h i (nth j (hvalues h) entry0) W Hi) as (h1 & E1 & F1 & V1). rewrite E1. simpl.
  destruct (hput_ok h1 j (nth i (hvalues h) entry0)) as (h2 & E2 & F2 & V2).
  { now apply (hframe_wf h). } { destruct F1 as (-> & _). exact Hj. }
  exists h2. rewrite E2. split; [reflexivity|]. split; [now apply (hframe_trans _ h1)|].
  rewrite V2, V1. reflexivity.
Qed.

(** ** order *)
Definition nonan (l : list entry) : Prop := Forall (fun e => fis_nan (e_k e) = false) l.
Definition K (l : list entry) : nat -> R := fun i => ext (e_k (nth i l entry0)).

Lemma nonan_perm l l' : Permutation l l' -> nonan l -> nonan l'.
Proof. intros P. apply Permutation_Forall. exact P. Qed.
Lemma nonan_nth l i : nonan l -> fis_nan (e_k (nth i l entry0)) = false.
Proof.
  intros H. destruct (Nat.lt_ge_cases i (length l)) as [L|L].
  - apply (proj1 (Forall_forall _ l) H). now apply nth_In.
  - rewrite nth_overflow by exact L. reflexivity.
Qed.
Lemma K_swap l i j : i < length l -> j < length l ->
  forall x, K (lswap l i j) x = swapf (K l) i j x.
Proof.
  intros Hi Hj x. unfold K, swapf. rewrite lswap_nth by assumption.
  destruct (Nat.eqb x i); [reflexivity|]. destruct (Nat.eqb x j); reflexivity.
Qed.

Lemma flt_K l i j : nonan l ->
  if flt (e_k (nth j l entry0)) (e_k (nth i l entry0)) then (K l j < K l i)%R else (K l i <= K l j)%R.
Proof.
  intro H. rewrite flt_ext by now apply nonan_nth.
  unfold K. case Rlt_bool_spec; intro; lra.
Qed.

(** what a reordering operation guarantees *)
Definition reorder (h h' : heap) : Prop := hframe h h' /\ Permutation (hvalues h) (hvalues h').

Lemma reorder_refl h : reorder h h.
Proof. split; [apply hframe_refl|reflexivity]. Qed.
Lemma reorder_trans a b c : reorder a b -> reorder b c -> reorder a c.
Proof. intros [F P] [F' P']. split; [now apply (hframe_trans _ b)|now apply (Permutation_trans P)]. Qed.

Lemma up_ok fuel : forall h j, hwf h -> j < h_len h -> j < fuel -> exists h',
  up fuel h j = Ok h' /\ reorder h h' /\
  (nonan (hvalues h) -> up_inv (K (hvalues h)) j (h_len h) -> hord (K (hvalues h')) (h_len h)).
Proof.
  induction fuel as [|fuel IH]; intros h j W Hj Hf; [lia|]. cbn [up].
  set (i := (j - 1) / 2). assert (Ei : i = parent j) by reflexivity.
  destruct (Nat.eqb_spec i j) as [E|Nij].
  - exists h. split; [reflexivity|]. split; [apply reorder_refl|]. intros _ U.
    assert (Z : j = 0) by (unfold i in E; lia). clear E; clearbody i; subst j. now apply up_inv_stop0.
  - assert (Hij : 0 < j /\ i < j) by (unfold i in *; lia).
    rewrite (hget_ok h j W Hj), (hget_ok h i W) by lia. cbn [res_bind].
    pose proof (flt_K (hvalues h) i j) as C.
    destruct (flt (e_k (nth j (hvalues h) entry0)) (e_k (nth i (hvalues h) entry0))).
    + destruct (hswap_ok h i j W ltac:(lia) Hj) as (h1 & E1 & F1 & V1). rewrite E1. cbn [res_bind].
      pose proof (hvalues_length h W) as L.
      destruct F1 as (Fl & F1).
      destruct (IH h1 i) as (h2 & E2 & R2 & O2).
      { apply (hframe_wf h); [split|]; assumption. } { lia. } { lia. }
      exists h2. split; [exact E2|]. split.
      { apply (reorder_trans _ h1); [|exact R2]. split; [split; assumption|]. rewrite V1. apply lswap_perm; lia. }
      intros N U. rewrite <- Fl. apply O2.
      { rewrite V1. apply (nonan_perm (hvalues h)); [apply lswap_perm; lia|exact N]. }
      rewrite Fl, V1. apply (up_inv_ext (swapf (K (hvalues h)) i j)); [lia|intros; symmetry; apply K_swap; lia|].
      rewrite Ei. apply up_inv_step; [lia|exact U|]. rewrite <- Ei. now apply C.
    + exists h. split; [reflexivity|]. split; [apply reorder_refl|]. intros N U.
      apply (up_inv_stop _ j); [exact U|]. rewrite <- Ei. now apply C.
Qed.

Lemma down_ok fuel : forall h i n, hwf h -> n <= h_len h -> n < fuel + i -> (i < n \/ i = 0) -> exists h',
  down fuel h i n = Ok h' /\ reorder h h' /\
  (forall k, n <= k -> nth k (hvalues h') entry0 = nth k (hvalues h) entry0) /\
  (nonan (hvalues h) -> down_inv (K (hvalues h)) i n -> hord (K (hvalues h')) n).
Proof.
  induction fuel as [|fuel IH]; intros h i n W Hn Hf Hi; [lia|]. cbn [down].
  destruct (Nat.leb_spec n (2 * i + 1)) as [Hl|Hl].
  - exists h. split; [reflexivity|]. split; [apply reorder_refl|]. split; [reflexivity|].
    intros _. now apply down_inv_stop_leaf.
  - set (j1 := 2 * i + 1) in *. set (j2 := j1 + 1).
    assert (Hj : exists j,
      (if j2 <? n
       then res_bind (hget h j1) (fun e1 => res_bind (hget h j2) (fun e2 =>
              Ok (if flt (e_k e1) (e_k e2) then j1 else j2)))
       else Ok j1) = Ok j /\ (j = j1 \/ j = j2) /\ j < n /\
      (nonan (hvalues h) -> min_child (K (hvalues h)) i j n)).
    { assert (P1 : parent j1 = i) by (unfold parent, j1; lia).
      assert (P2 : parent j2 = i) by (unfold parent, j2, j1; lia).
      assert (PC : forall c, 0 < c -> parent c = i -> c = j1 \/ c = j2) by (unfold parent, j2, j1; lia).
      destruct (Nat.ltb_spec j2 n) as [L2|L2].
      - rewrite (hget_ok h j1 W), (hget_ok h j2 W) by lia. cbn [res_bind].
        pose proof (flt_K (hvalues h) j2 j1) as C.
        destruct (flt _ _).
        + exists j1. split; [reflexivity|]. split; [now left|]. split; [lia|]. intro N.
          repeat split; [lia|unfold j1; lia|exact P1|]. intros c Hc Pc.
          destruct (PC c ltac:(lia) Pc) as [-> | ->]; [lra|]. specialize (C N). lra.
        + exists j2. split; [reflexivity|]. split; [now right|]. split; [lia|]. intro N.
          repeat split; [lia|unfold j2; lia|exact P2|]. intros c Hc Pc.
          destruct (PC c ltac:(lia) Pc) as [-> | ->]; [|lra]. now apply C.
      - exists j1. split; [reflexivity|]. split; [now left|]. split; [lia|]. intro N.
        repeat split; [lia|unfold j1; lia|exact P1|]. intros c Hc Pc.
        destruct (PC c ltac:(lia) Pc) as [-> | ->]; [lra|]. lia. }
    destruct Hj as (j & -> & Hj12 & Hjn & Hmin). cbn [res_bind].
    assert (i < j) by (unfold j2, j1 in Hj12; lia).
    rewrite (hget_ok h j W), (hget_ok h i W) by lia. cbn [res_bind].
    pose proof (flt_K (hvalues h) i j) as C.
    destruct (flt (e_k (nth j (hvalues h) entry0)) (e_k (nth i (hvalues h) entry0))).
    + destruct (hswap_ok h i j W ltac:(lia) ltac:(lia)) as (h1 & E1 & F1 & V1). rewrite E1. cbn [res_bind].
      pose proof (hvalues_length h W) as L.
      destruct F1 as (Fl & F1).
      destruct (IH h1 j n) as (h2 & E2 & R2 & T2 & O2).
      { apply (hframe_wf h); [split|]; assumption. } { lia. } { lia. } { lia. }
      exists h2. split; [exact E2|]. split.
      { apply (reorder_trans _ h1); [|exact R2]. split; [split; assumption|]. rewrite V1. apply lswap_perm; lia. }
      split.
      { intros k Hk. rewrite T2 by exact Hk. rewrite V1, lswap_nth by lia.
        destruct (Nat.eqb_spec k i), (Nat.eqb_spec k j); try lia. reflexivity. }
      intros N U. apply O2.
      { rewrite V1. apply (nonan_perm (hvalues h)); [apply lswap_perm; lia|exact N]. }
      rewrite V1. apply (down_inv_ext (swapf (K (hvalues h)) i j)); [lia|intros; symmetry; apply K_swap; lia|].
      apply down_inv_step; [now apply Hmin|exact U|now apply C].
    + exists h. split; [reflexivity|]. split; [apply reorder_refl|]. split; [reflexivity|]. intros N U.
      apply (down_inv_stop _ i j); [now apply Hmin|exact U|now apply C].
Qed.

(** the model's heap property *)
Definition heap_ordered (h : heap) : Prop := hord (K (hvalues h)) (h_len h).

Lemma skipn_S_of {A} (l : list A) n : skipn (S n) l = tl (skipn n l).
Proof. revert n; induction l as [|a l IH]; intros [|n]; try reflexivity. simpl. apply IH. Qed.

Lemma hpush_ok h e : hwf h -> h_len h < length (h_arr h) -> exists h',
  hpush h e = Ok h' /\ h_len h' = S (h_len h) /\ length (h_arr h') = length (h_arr h) /\
  skipn (S (h_len h)) (h_arr h') = skipn (S (h_len h)) (h_arr h) /\
  Permutation (hvalues h') (e :: hvalues h) /\
  (nonan (e :: hvalues h) -> heap_ordered h -> heap_ordered h').
Proof.
  intros W Hc. unfold hpush. set (n := h_len h) in *. unfold hreslice.
  destruct (Nat.leb_spec (n + 1) (length (h_arr h))); [|lia]. cbn [res_bind].
  set (h1 := MkHeap (h_arr h) (n + 1)).
  assert (W1 : hwf h1) by (unfold hwf, h1; simpl; lia).
  destruct (hput_ok h1 n e W1 ltac:(simpl; lia)) as (h2 & E2 & F2 & V2). rewrite E2. cbn [res_bind].
  assert (Hl2 : h_len h2 = n + 1) by (destruct F2 as (-> & _); reflexivity).
  assert (W2 : hwf h2) by now apply (hframe_wf h1).
  assert (EV : hvalues h2 = hvalues h ++ [e]).
  { rewrite V2. unfold hvalues, h1. simpl. fold n.
    destruct (nth_error_in_range (h_arr h) n ltac:(lia)) as [x Ex].
    assert (Ef : firstn (n + 1) (h_arr h) = firstn n (h_arr h) ++ [x]).
    { apply nth_error_split in Ex. destruct Ex as (l1 & l2 & -> & Hn). rewrite <- Hn.
      rewrite firstn_app, firstn_all2 by lia. replace (length l1 + 1 - length l1) with 1 by lia. simpl.
      rewrite firstn_app, firstn_all, Nat.sub_diag. simpl. now rewrite app_nil_r. }
    rewrite Ef. set (l := firstn n (h_arr h)).
    assert (Ln : length l = n) by (unfold l; rewrite firstn_length; lia).
    clearbody l. rewrite <- Ln. clear. induction l as [|b l IH]; [reflexivity|]. simpl. now rewrite IH. }
  destruct (up_ok (S n) h2 n W2 ltac:(lia) ltac:(lia)) as (h3 & E3 & R3 & O3).
  exists h3. split; [exact E3|]. destruct R3 as [(Fl & Fc & Fs) P].
  destruct F2 as (_ & Fc2 & Fs2). simpl in Fc2, Fs2.
  split; [lia|]. split; [lia|]. split.
  { rewrite Hl2, Nat.add_1_r in Fs. rewrite Fs. rewrite Nat.add_1_r in Fs2. exact Fs2. }
  split.
  { symmetry in P. apply (Permutation_trans P). rewrite EV. symmetry. apply Permutation_cons_append. }
  intros N O. unfold heap_ordered. rewrite Fl. apply O3.
  { rewrite EV. apply (nonan_perm (e :: hvalues h)); [apply Permutation_cons_append|exact N]. }
  rewrite Hl2, EV. assert (Lh : length (hvalues h) = n) by now apply hvalues_length.
  assert (KE : forall i, i < n -> K (hvalues h ++ [e]) i = K (hvalues h) i).
  { intros i Hi. unfold K. rewrite app_nth1 by lia. reflexivity. }
  split.
  - intros c Hcn Ncn. rewrite !KE by (unfold parent; lia). apply O. fold n. lia.
  - intros H0 c Hcn Ep. exfalso. unfold parent in Ep. lia.
Qed.

Lemma firstn_snoc_nth (l : list entry) n : n < length l ->
  firstn (S n) l = firstn n l ++ [nth n l entry0].
Proof.
  revert n. induction l as [|b l IH]; intros n H; simpl in H; [lia|].
  destruct n; [reflexivity|]. rewrite firstn_cons, IH by lia. reflexivity.
Qed.

Lemma nth_firstn_lt {A} (l : list A) n i d : i < n -> nth i (firstn n l) d = nth i l d.
Proof.
  revert n i. induction l as [|b l IH]; intros n i H; [now rewrite firstn_nil|].
  destruct n; [lia|]. destruct i; [reflexivity|]. simpl. apply IH. lia.
Qed.

Lemma hpop_ok h : hwf h -> 0 < h_len h -> exists h',
  let e := nth 0 (hvalues h) entry0 in
  hpop h = Ok (h', e) /\ S (h_len h') = h_len h /\ length (h_arr h') = length (h_arr h) /\
  Permutation (hvalues h) (e :: hvalues h') /\
  (nonan (hvalues h) -> heap_ordered h -> heap_ordered h').
Proof.
  intros W H0. unfold hpop. destruct (h_len h) as [|n] eqn:En; [lia|].
  pose proof (hvalues_length h W) as Lv.
  destruct (hswap_ok h 0 n W ltac:(lia) ltac:(lia)) as (h1 & E1 & F1 & V1). rewrite E1. cbn [res_bind].
  assert (W1 : hwf h1) by now apply (hframe_wf h).
  assert (L1 : h_len h1 = S n) by (destruct F1 as (-> & _); exact En).
  destruct (down_ok (S n) h1 0 n W1) as (h2 & E2 & R2 & T2 & O2); [lia|lia|lia|].
  rewrite E2. cbn [res_bind].
  destruct R2 as [F2 P2]. assert (W2 : hwf h2) by now apply (hframe_wf h1).
  assert (L2 : h_len h2 = S n) by (destruct F2 as (-> & _); exact L1).
  rewrite L2. replace (S n - 1) with n by lia.
  rewrite (hget_ok h2 n W2) by lia. cbn [res_bind]. unfold hreslice.
  destruct (Nat.leb_spec n (length (h_arr h2))) as [Hc|Hc]; [|unfold hwf in W2; lia]. cbn [res_bind].
  assert (Etop : nth n (hvalues h2) entry0 = nth 0 (hvalues h) entry0).
  { rewrite T2 by lia. rewrite V1, lswap_nth by lia.
    destruct (Nat.eqb_spec n 0) as [->|]; [reflexivity|]. now rewrite Nat.eqb_refl. }
  rewrite Etop. eexists. cbv zeta. split; [reflexivity|]. simpl. split; [reflexivity|].
  destruct F1 as (_ & C1 & _). destruct F2 as (_ & C2 & _). split; [lia|].
  assert (Ev2 : hvalues h2 = hvalues (MkHeap (h_arr h2) n) ++ [nth 0 (hvalues h) entry0]).
  { rewrite <- Etop. unfold hvalues at 1. rewrite L2. rewrite firstn_snoc_nth by (unfold hwf in W2; lia).
    unfold hvalues. simpl h_len. simpl h_arr. f_equal. f_equal. rewrite nth_firstn_lt by lia. reflexivity. }
  split.
  { eapply Permutation_trans; [apply (lswap_perm _ 0 n); lia|]. rewrite <- V1.
    apply (Permutation_trans P2). rewrite Ev2. symmetry. apply Permutation_cons_append. }
  intros N O. unfold heap_ordered. simpl.
  assert (O' : hord (K (hvalues h2)) n).
  { apply O2.
    - rewrite V1. apply (nonan_perm (hvalues h)); [apply lswap_perm; lia|exact N].
    - rewrite V1. split; [|lia]. intros c Hc0 Np.
      rewrite !K_swap by lia. unfold heap_ordered in O. rewrite En in O.
      rewrite !swapf_o by (unfold parent in *; lia). apply O. lia. }
  revert O'. apply hord_ext. intros i Hi. unfold K. rewrite Ev2, app_nth1; [reflexivity|].
  unfold hvalues; simpl. rewrite firstn_length. lia.
Qed.

(** the root is a minimum *)
Lemma heap_root_min h : hwf h -> nonan (hvalues h) -> heap_ordered h ->
  forall x, In x (hvalues h) -> (ext (e_k (nth 0 (hvalues h) entry0)) <= ext (e_k x))%R.
Proof.
  intros W N O x Hx. apply (In_nth _ _ entry0) in Hx. destruct Hx as (i & Hi & <-).
  rewrite hvalues_length in Hi by exact W. exact (hord_root _ _ O i Hi).
Qed.

(** ** rescaling *)
Definition scale (factor : f64) (e : entry) : entry := MkEntry (fmul (e_k e) factor) (e_v e).

Lemma skipn_nth_cons {A} (l : list A) i a : nth_error l i = Some a -> skipn i l = a :: skipn (S i) l.
Proof.
  revert i. induction l as [|b l IH]; intros [|i]; simpl; try discriminate.
  - now intros [= ->].
  - intro E. now rewrite (IH _ E).
Qed.

Lemma rescale_ok factor m : forall i h, h_len h = i -> i + m <= length (h_arr h) -> exists h',
  rescale_loop m i factor h = (h', Ok tt) /\ h_len h' = i + m /\ length (h_arr h') = length (h_arr h) /\
  Permutation (hvalues h') (map (scale factor) (firstn m (skipn i (h_arr h))) ++ hvalues h) /\
  (nonan (map (scale factor) (firstn m (skipn i (h_arr h))) ++ hvalues h) -> heap_ordered h -> heap_ordered h').
Proof.
  induction m as [|m IH]; intros i h Hl Hc.
  - exists h. cbn [rescale_loop firstn map app]. repeat split; auto. lia.
  - cbn [rescale_loop].
    destruct (nth_error_in_range (h_arr h) i) as [e Ee]; [lia|]. rewrite Ee.
    rewrite (skipn_nth_cons _ _ _ Ee). cbn [firstn map app].
    fold (scale factor e).
    destruct (hpush_ok h (scale factor e)) as (h1 & E1 & L1 & C1 & S1 & P1 & O1); [unfold hwf; lia|lia|].
    change (hpush h (MkEntry (fmul (e_k e) factor) (e_v e))) with (hpush h (scale factor e)). rewrite E1.
    destruct (IH (S i) h1) as (h2 & E2 & L2 & C2 & P2 & O2); [lia|lia|].
    rewrite Hl in S1. rewrite S1 in P2, O2.
    exists h2. split; [exact E2|]. split; [lia|]. split; [lia|].
    assert (PP : Permutation (map (scale factor) (firstn m (skipn (S i) (h_arr h))) ++ hvalues h1)
        (scale factor e :: map (scale factor) (firstn m (skipn (S i) (h_arr h))) ++ hvalues h)).
    { eapply Permutation_trans; [apply Permutation_app_head, P1|]. symmetry. apply Permutation_middle. }
    split; [exact (Permutation_trans P2 PP)|].
    intros N O. apply O2.
    + apply (nonan_perm _ _ (Permutation_sym PP)). exact N.
    + apply O1; [|exact O]. inversion N as [|? ? Ne Nr]; subst. constructor; [exact Ne|].
      apply Forall_app in Nr. apply Nr.
Qed.
