(** Facts about concurrent sorting. *)
From Coq Require Import ZArith List Lia Permutation Sorted Arith Bool.
From Verif.Model Require Import GoInt GoFloat GoBase Conc Stats Ewma SortRace.
From Verif.Proofs Require Import ListFacts SortFacts LinProofs.
Import ListNotations.
Local Open Scope nat_scope.

Lemma nth_mid {A} (pre : list A) x post d : nth (length pre) (pre ++ x :: post) d = x.
Proof. rewrite app_nth2 by lia. now rewrite Nat.sub_diag. Qed.
Lemma nth_mid2 {A} (pre : list A) x y post d : nth (S (length pre)) (pre ++ x :: y :: post) d = y.
Proof. rewrite app_nth2 by lia. replace (S (length pre) - length pre) with 1 by lia. reflexivity. Qed.
Lemma lset_mid {A} (pre : list A) x y post : lset (pre ++ x :: post) (length pre) y = pre ++ y :: post.
Proof. induction pre as [|a pre IH]; cbn; [reflexivity|now rewrite IH]. Qed.
Lemma lset_mid2 {A} (pre : list A) x y z post : lset (pre ++ x :: y :: post) (S (length pre)) z = pre ++ x :: z :: post.
Proof. induction pre as [|a pre IH]; [reflexivity|]. cbn [app length]. cbn [lset] in *. now rewrite IH. Qed.
Lemma split_two (s : list Z) j : S j < length s -> exists pre x y post, s = pre ++ x :: y :: post /\ length pre = j.
Proof.
  intros H. exists (firstn j s), (nth j s 0%Z), (nth (S j) s 0%Z), (skipn (S (S j)) s). split; [|rewrite firstn_length; lia].
  rewrite <- (firstn_skipn j s) at 1. f_equal. revert j H. induction s as [|a s IH]; intros j H; [cbn in H; lia|]. destruct j; cbn [skipn nth]; [|cbn [length] in H; apply IH; lia]. destruct s; [cbn in H; lia|reflexivity].
Qed.

(** ** running a goroutine alone *)
Inductive adv {B} : pcode B -> list Z -> pcode B -> list Z -> nat -> Prop :=
| adv_0 c s : adv c s c s 0
| adv_S e u l k s c' s' n : e s = true -> l s = [] -> adv (k s) (u s) c' s' n -> adv (Atom e u l k) s c' s' (S n).
Lemma adv_trans {B} (c : pcode B) s c1 s1 n : adv c s c1 s1 n -> forall c2 s2 m, adv c1 s1 c2 s2 m -> adv c s c2 s2 (n + m).
Proof. induction 1; intros; cbn; [assumption|]. constructor; auto. Qed.
Lemma adv_rd {B} i (k : Z -> pcode B) s c' s' n : adv (k (nth i s 0%Z)) s c' s' n -> adv (rd i k) s c' s' (S n).
Proof. intros H. constructor; auto. Qed.
Lemma adv_wr {B} i v (k : pcode B) s c' s' n : adv k (lset s i v) c' s' n -> adv (wr i v k) s c' s' (S n).
Proof. intros H. constructor; auto. Qed.
Lemma adv_cseq {B} (c : pcode B) s r s' n : adv c s (Ret r) s' n -> cseq c s = Some (s', r).
Proof. intros H. remember (Ret r) as c'. induction H as [|? ? ? ? ? ? ? ? E _ _ IH]; subst; [reflexivity|]. cbn [cseq]. rewrite E. auto. Qed.

(** it permutes the slice and returns *)
Definition finishes {B} (n : nat) (c : pcode B) : Prop := forall s, length s = n -> exists s' r m, adv c s (Ret r) s' m /\ Permutation s s'.
Lemma finishes_ret {B} n (r : B) : finishes n (Ret r).
Proof. intros s _. exists s, r, 0. split; [constructor|reflexivity]. Qed.
Lemma finishes_rd {B} n i (k : Z -> pcode B) : (forall v, finishes n (k v)) -> finishes n (rd i k).
Proof. intros H s L. destruct (H (nth i s 0%Z) s L) as (s' & r & m & A & P). exists s', r, (S m). split; [now apply adv_rd|exact P]. Qed.
Lemma finishes_rdz {B} n i (k : Z -> pcode (res B)) : (forall v, finishes n (k v)) -> finishes n (rdz n i k).
Proof. intros H. unfold rdz. destruct (_ || _); [apply finishes_ret|now apply finishes_rd]. Qed.
Lemma finishes_score {B} n p (k : f64 -> pcode (res B)) : (forall v, finishes n (k v)) -> finishes n (score n p k).
Proof. intros H. unfold score. destruct (flt _ _); [|destruct (fge _ _)]; repeat (apply finishes_rdz; intros); apply H. Qed.
Lemma finishes_swap {B} n j (k : pcode B) : S j < n -> finishes n k -> finishes n (swap (S j) j k).
Proof.
  intros Hj H s L. destruct (split_two s j) as (pre & x & y & post & -> & Lp); [lia|]. subst j.
  destruct (H (pre ++ y :: x :: post)) as (s' & r & m & A & P). { rewrite <- L, !app_length. reflexivity. }
  exists s', r, (S (S (S (S m)))). split.
  - unfold swap. apply adv_rd. rewrite nth_mid. apply adv_rd. rewrite nth_mid2. apply adv_wr. rewrite lset_mid2. apply adv_wr. now rewrite lset_mid.
  - rewrite <- P. apply Permutation_app_head. constructor.
Qed.
Lemma finishes_sink {B} n j (k : pcode B) : j < n -> finishes n k -> finishes n (sink j k).
Proof.
  intros Hj H. induction j as [|j IH]; [exact H|]. cbn [sink]. apply finishes_rd. intros a. apply finishes_rd. intros b. destruct (a <? b)%Z; [|exact H]. apply finishes_swap; [lia|]. apply IH. lia.
Qed.
Lemma finishes_insertion {B} n (k : pcode B) m : finishes n k -> forall i, i + m <= n -> finishes n (insertion i m k).
Proof. intros H. induction m as [|m IH]; intros i L; cbn [insertion]; [exact H|]. apply finishes_sink; [lia|]. apply IH. lia. Qed.
Lemma finishes_body n p : finishes n (percentile_body n p).
Proof. destruct n; cbn [percentile_body]; [apply finishes_ret|]. apply finishes_insertion; [apply finishes_score; intros; apply finishes_ret|lia]. Qed.

(** ** alone: the slice is sorted *)
Lemma sorted_app (l m : list Z) : StronglySorted Z.le (l ++ m) <-> StronglySorted Z.le l /\ StronglySorted Z.le m /\ (forall a b, In a l -> In b m -> (a <= b)%Z).
Proof.
  induction l as [|x l IH]; cbn [app].
  - split; [intros H; repeat split; auto; [constructor|intros ? ? []]|tauto].
  - split.
    + intros H. apply StronglySorted_inv in H. destruct H as (H & F). apply IH in H. destruct H as (A & B & C). rewrite Forall_app in F. destruct F as (F1 & F2). split; [constructor; auto|]. split; [exact B|]. intros a b [<-|Ha] Hb; [rewrite Forall_forall in F2; auto|auto].
    + intros (A & B & C). apply StronglySorted_inv in A. destruct A as (A & F). constructor; [apply IH; repeat split; auto; intros; apply C; [now right|assumption]|]. apply Forall_app. split; [exact F|]. apply Forall_forall. intros b Hb. apply C; [now left|exact Hb].
Qed.
Lemma sink_alone {B} (k : pcode B) x : forall pre post, StronglySorted Z.le pre -> exists zs, cseq (sink (length pre) k) (pre ++ x :: post) = cseq k (zs ++ post) /\ Permutation (pre ++ [x]) zs /\ StronglySorted Z.le zs.
Proof.
  intros pre. remember (length pre) as j eqn:Lj. revert pre Lj. induction j as [|j IH]; intros pre Lj post Sp.
  - destruct pre; [|discriminate]. exists [x]. repeat split; auto. repeat constructor.
  - destruct (exists_last (l := pre)) as (pre' & b & ->); [destruct pre; discriminate|]. rewrite app_length in Lj. cbn [length] in Lj. assert (Lp : j = length pre') by lia. apply sorted_app in Sp. destruct Sp as (S1 & S2 & S3). rewrite <- app_assoc. cbn [app].
    cbn [sink]. unfold rd. cbn [cseq always]. rewrite Lp. rewrite nth_mid, nth_mid2. destruct (x <? b)%Z eqn:E.
    + apply Z.ltb_lt in E. unfold swap, rd, wr. cbn [cseq always]. rewrite nth_mid, nth_mid2, lset_mid2, lset_mid. rewrite <- Lp. destruct (IH pre' Lp (b :: post) S1) as (zs & H & P & Sz). exists (zs ++ [b]). rewrite H, <- app_assoc. split; [reflexivity|]. split.
      * rewrite <- P. rewrite <- !app_assoc. apply Permutation_app_head. apply perm_swap.
      * apply sorted_app. split; [exact Sz|]. split; [exact S2|]. intros a b' Ha [<-|[]]. apply (Permutation_in a (Permutation_sym P)) in Ha. apply in_app_or in Ha. destruct Ha as [Ha|[<-|[]]]; [apply S3; [exact Ha|now left]|lia].
    + apply Z.ltb_ge in E. exists ((pre' ++ [b]) ++ [x]). split; [now rewrite <- !app_assoc|]. split; [reflexivity|]. apply sorted_app. split; [apply sorted_app; auto|]. split; [repeat constructor|]. intros a c Ha [<-|[]]. apply in_app_or in Ha. destruct Ha as [Ha|[<-|[]]]; [|exact E]. etransitivity; [|exact E]. apply S3; [exact Ha|now left].
Qed.
Lemma insertion_alone {B} (k : pcode B) : forall m pre post, length post = m -> StronglySorted Z.le pre -> exists zs, cseq (insertion (length pre) m k) (pre ++ post) = cseq k zs /\ Permutation (pre ++ post) zs /\ StronglySorted Z.le zs.
Proof.
  induction m as [|m IH]; intros pre post L Sp; cbn [insertion].
  - destruct post; [|discriminate]. rewrite app_nil_r. eauto.
  - destruct post as [|x post]; [discriminate|]. destruct (sink_alone (insertion (S (length pre)) m k) x pre post Sp) as (zs & H & P & Sz). rewrite H.
    assert (Lz : length zs = S (length pre)) by (rewrite <- (Permutation_length P), app_length; cbn; lia). rewrite <- Lz. destruct (IH zs post) as (ys & H2 & P2 & Sy); [cbn in L; lia|exact Sz|]. rewrite H2. exists ys. split; [reflexivity|]. split; [|exact Sy].
    rewrite <- P2, <- P, <- app_assoc. reflexivity.
Qed.
Lemma rdz_alone {B} n i (k : Z -> pcode (res B)) s : length s = n -> cseq (rdz n i k) s = match sget s i with Ok v => cseq (k v) s | Panic m => Some (s, Panic m) end.
Proof.
  intros L. unfold rdz, sget, slen. rewrite L. destruct (_ || _) eqn:E; [reflexivity|]. apply orb_false_iff in E. destruct E as (E1 & E2). apply Z.ltb_ge in E1. apply Z.leb_gt in E2.
  assert (Hn : Z.to_nat i < length s) by lia. rewrite (nth_error_nth' s 0%Z Hn). reflexivity.
Qed.
Lemma score_alone {B} n p (k : f64 -> pcode (res B)) s : length s = n -> cseq (score n p k) s = match percentile_of_sorted s p with Ok v => cseq (k v) s | Panic m => Some (s, Panic m) end.
Proof.
  intros L. unfold score, percentile_of_sorted, slen. rewrite L. destruct (flt _ _); [|destruct (fge _ _)]; rewrite rdz_alone by exact L; destruct (sget s _) as [v|]; cbn [res_bind]; try reflexivity.
  rewrite rdz_alone by exact L. destruct (sget s _); reflexivity.
Qed.
Lemma body_alone xs p : cseq (percentile_body (length xs) p) xs = Some (SamplePercentile xs p).
Proof.
  destruct xs as [|x xs]; [reflexivity|]. cbn [length percentile_body].
  destruct (insertion_alone (score (S (length xs)) p (fun v => Ret (Ok v))) (length xs) [x] xs eq_refl) as (zs & H & P & Sz); [repeat constructor|]. cbn [length app] in *. rewrite H, score_alone by (rewrite <- (Permutation_length P); reflexivity).
  assert (Ez : zs = sortz (x :: xs)) by (symmetry; rewrite <- (sortz_correct_any (fun _ => zs) (x :: xs)); auto).
  unfold SamplePercentile, SamplePercentiles. rewrite <- Ez. cbn [percentile_loop]. destruct (percentile_of_sorted zs p) as [v|m]; reflexivity.
Qed.

(** ** a sorted slice is not changed *)
Fixpoint quiet {B} (s : list Z) (c : pcode B) : Prop :=
  match c with Ret _ => True | Atom _ u _ k => u s = s /\ quiet s (k s) end.
Lemma quiet_rdz {B} s n i (k : Z -> pcode (res B)) : (forall v, quiet s (k v)) -> quiet s (rdz n i k).
Proof. intros H. unfold rdz. destruct (_ || _); cbn [quiet rd]; auto. Qed.
Lemma quiet_score {B} s n p (k : f64 -> pcode (res B)) : (forall v, quiet s (k v)) -> quiet s (score n p k).
Proof. intros H. unfold score. destruct (flt _ _); [|destruct (fge _ _)]; repeat (apply quiet_rdz; intros); apply H. Qed.
Lemma sorted_nth (s : list Z) j : StronglySorted Z.le s -> S j < length s -> (nth j s 0 <= nth (S j) s 0)%Z.
Proof.
  intros H L. destruct (split_two s j L) as (pre & x & y & post & -> & <-). rewrite nth_mid, nth_mid2. apply sorted_app in H. destruct H as (_ & H & _). apply StronglySorted_inv in H. destruct H as (_ & F). inversion F; auto.
Qed.
Lemma quiet_insertion {B} s (k : pcode B) m : StronglySorted Z.le s -> quiet s k -> forall i, 1 <= i -> i + m <= length s -> quiet s (insertion i m k).
Proof.
  intros Ss Q. induction m as [|m IH]; intros i Hi L; cbn [insertion]; [exact Q|]. destruct i as [|i]; [lia|]. cbn [sink quiet rd]. split; [reflexivity|]. split; [reflexivity|].
  pose proof (sorted_nth s i Ss ltac:(lia)). destruct (Z.ltb_spec (nth (S i) s 0%Z) (nth i s 0%Z)); [lia|]. apply IH; lia.
Qed.
Lemma quiet_body s p : StronglySorted Z.le s -> quiet s (percentile_body (length s) p).
Proof. intros H. destruct s as [|x s]; cbn [length percentile_body]; [exact Logic.I|]. apply quiet_insertion; [exact H|apply quiet_score; intros; exact Logic.I|lia|cbn [length]; lia]. Qed.
Definition all_quiet (s : list Z) (c : config (list Z) unit f64 (res f64)) : Prop := sh c = s /\ forall t, match th c t with Idle => True | Busy _ b => quiet s b end.
Lemma quiet_step s c ch : StronglySorted Z.le s -> all_quiet s c -> all_quiet s (fst (cstep (percentile_body (length s)) c ch)).
Proof.
  intros Ss (Es & Q). destruct ch as [t p|t]; cbn [cstep].
  - destruct (th c t) eqn:E; [|split; auto]. split; [exact Es|]. cbn [fst th sh]. intros u. unfold tset. destruct (Nat.eqb u t); [now apply quiet_body|apply Q].
  - pose proof (Q t) as Qt. destruct (th c t) as [|op [r|e u l k]] eqn:E; [split; auto| |].
    + split; [exact Es|]. cbn [fst th sh]. intros x. unfold tset. destruct (Nat.eqb x t); [exact Logic.I|apply Q].
    + cbn [quiet] in Qt. destruct Qt as (Qu & Qk). destruct (e (sh c)); [|split; auto]. split; [cbn [fst sh]; now rewrite Es|]. cbn [fst th sh]. rewrite Es. intros x. unfold tset. destruct (Nat.eqb x t); [exact Qk|apply Q].
Qed.
Lemma quiet_run s sched : StronglySorted Z.le s -> forall c tr, all_quiet s c -> all_quiet s (fst (crun (percentile_body (length s)) c tr sched)).
Proof.
  intros Ss. induction sched as [|ch sched IH]; intros c tr Q; [exact Q|]. cbn [crun]. pose proof (quiet_step s c ch Ss Q) as Q'. destruct (cstep _ c ch) as [c' e]. apply IH. exact Q'.
Qed.

(** ** the race *)
(** up to the first exchange nothing is written *)
Lemma to_swap n m : forall i s, 1 <= i -> i + m = n -> length s = n ->
  (exists q, i <= S q < n /\ (nth (S q) s 0 < nth q s 0)%Z) ->
  exists j a, S j < n /\ (nth (S j) s 0 < nth j s 0)%Z /\
    forall k : pcode (res f64), finishes n k -> exists c, adv (insertion i m k) s (swap (S j) j c) s a /\ finishes n c.
Proof.
  induction m as [|m IH]; intros i s Hi L Ls (q & Hq & D); [lia|]. destruct i as [|i]; [lia|]. destruct (Z_lt_le_dec (nth (S i) s 0%Z) (nth i s 0%Z)) as [Y|N].
  - assert (E : (nth (S i) s 0 <? nth i s 0)%Z = true) by now apply Z.ltb_lt. exists i, 2. split; [lia|]. split; [exact Y|].
    intros k F. exists (sink i (insertion (S (S i)) m k)). split; [cbn [insertion sink]; apply adv_rd, adv_rd; rewrite E; constructor|]. apply finishes_sink; [lia|]. apply finishes_insertion; [exact F|lia].
  - assert (E : (nth (S i) s 0 <? nth i s 0)%Z = false) by now apply Z.ltb_ge.
    destruct (IH (S (S i)) s) as (j & a & Hj & Dj & X); [lia|lia|exact Ls|exists q; split; [|exact D]; assert (q <> i) by (intros ->; lia); lia|].
    exists j, (S (S a)). split; [exact Hj|]. split; [exact Dj|]. intros k F. destruct (X k F) as (c & A & Fc). exists c. split; [|exact Fc]. cbn [insertion sink]. apply adv_rd, adv_rd. rewrite E. exact A.
Qed.
Lemma run_adv body op t b b' s' n : forall (c : config (list Z) unit f64 (res f64)) tr, th c t = Busy op b -> adv b (sh c) b' s' n ->
  exists c', crun body c tr (repeat (Run t) n) = (c', tr) /\ sh c' = s' /\ th c' t = Busy op b' /\ forall u, u <> t -> th c' u = th c u.
Proof.
  revert b. induction n as [|n IH]; intros b c tr Hb A; inversion A as [|e u l k ? ? ? ? He Hl Hk]; subst.
  - exists c. repeat split; auto.
  - cbn [repeat crun cstep]. rewrite Hb. rewrite He, Hl. cbn [map]. rewrite app_nil_r. destruct (IH (k (sh c)) (MkConfig (u (sh c)) (tset (th c) t (Busy op (k (sh c))))) tr) as (c' & R & S1 & T1 & U1).
    + cbn [th]. apply tset_same.
    + exact Hk.
    + exists c'. rewrite R. repeat split; auto. intros v Hv. rewrite U1 by exact Hv. cbn [th]. now rewrite tset_other.
Qed.
Lemma descent (s : list Z) : ~ StronglySorted Z.le s -> exists q, S q < length s /\ (nth (S q) s 0 < nth q s 0)%Z.
Proof.
  induction s as [|x s IH]; intros N; [exfalso; apply N; constructor|]. destruct (in_dec (fun a b => bool_dec a b) true (match s with [] => [] | y :: _ => [(y <? x)%Z] end)) as [Y|Nn].
  - destruct s as [|y s]; [destruct Y|]. destruct Y as [Y|[]]. exists 0. cbn [length nth]. apply Z.ltb_lt in Y. split; [lia|exact Y].
  - destruct IH as (q & Hq & D).
    + intros Ss. apply N. apply Sorted_StronglySorted; [exact Z.le_trans|]. constructor; [now apply StronglySorted_Sorted|]. destruct s as [|y s]; constructor. destruct (Z.ltb_spec y x); [exfalso; apply Nn; now left|assumption].
    + exists (S q). cbn [length nth] in *. split; [lia|exact D].
Qed.
Lemma race s p q : ~ StronglySorted Z.le s ->
  exists sched c r0 r1, cexec (percentile_body (length s)) s sched = (c, [EInv 0 p; EInv 1 q; ERes 0 r0; ERes 1 r1])
    /\ (forall t, th c t = Idle)
    /\ exists x y rest, (y < x)%Z /\ Permutation s (x :: y :: rest) /\ Permutation (sh c) (x :: x :: rest).
Proof.
  intros N. destruct (descent s N) as (d & Hd & Dd). remember (length s) as n eqn:Ln. destruct n as [|n]; [lia|].
  destruct (to_swap (S n) n 1 s) as (j & a & Hj & Dj & X); [lia|lia|auto|exists d; split; [lia|exact Dd]|].
  destruct (X (score (S n) p (fun v => Ret (Ok v)))) as (k0 & A0 & F0); [apply finishes_score; intros; apply finishes_ret|]. destruct (X (score (S n) q (fun v => Ret (Ok v)))) as (k1 & A1 & F1); [apply finishes_score; intros; apply finishes_ret|].
  destruct (split_two s j) as (pre & x & y & post & Es & Lp); [lia|]. assert (Dxy : (y < x)%Z) by (rewrite Es, <- Lp, nth_mid, nth_mid2 in Dj; exact Dj).
  set (body := percentile_body (S n)).
  (* both are called and reach the exchange *)
  set (i0 := MkConfig (L := unit) (R := res f64) s (tset (tset (fun _ => Idle) 0 (Busy p (body p))) 1 (Busy q (body q)))).
  assert (R0 : cexec body s [Call 0 p; Call 1 q] = (i0, [EInv 0 p; EInv 1 q])) by reflexivity.
  assert (T00 : th i0 0 = Busy p (body p)) by reflexivity. assert (T01 : th i0 1 = Busy q (body q)) by reflexivity. assert (T0r : forall u, u <> 0 -> u <> 1 -> th i0 u = Idle) by (intros u H0 H1; cbn [th i0]; now rewrite !tset_other).
  assert (S0 : sh i0 = s) by reflexivity. clearbody i0.
  (* the first reads both and writes the larger to the right *)
  assert (B0 : adv (body p) (sh i0) (wr j y k0) (pre ++ x :: x :: post) (a + 3)).
  { rewrite S0. eapply adv_trans; [exact A0|]. rewrite Es. subst j. unfold swap. apply adv_rd. rewrite nth_mid. apply adv_rd. rewrite nth_mid2. apply adv_wr. rewrite lset_mid2. constructor. }
  assert (B1' : adv (body q) (sh i0) (swap (S j) j k1) s a) by (rewrite S0; exact A1).
  destruct (run_adv body q 1 _ _ _ _ i0 [EInv 0 p; EInv 1 q] T01 B1') as (i1 & R1 & S1 & T11 & U1).
  assert (T10 : th i1 0 = Busy p (body p)) by (rewrite U1 by discriminate; exact T00).
  assert (B0' : adv (body p) (sh i1) (wr j y k0) (pre ++ x :: x :: post) (a + 3)) by (rewrite S1, <- S0; exact B0).
  destruct (run_adv body p 0 _ _ _ _ i1 [EInv 0 p; EInv 1 q] T10 B0') as (i2 & R2 & S2 & T20 & U2).
  (* the second reads the larger twice *)
  assert (T21 : th i2 1 = Busy q (swap (S j) j k1)) by (rewrite U2 by discriminate; exact T11).
  assert (B2 : adv (swap (S j) j k1) (sh i2) (wr (S j) x (wr j x k1)) (pre ++ x :: x :: post) 2).
  { rewrite S2. subst j. unfold swap. apply adv_rd. rewrite nth_mid. apply adv_rd. rewrite nth_mid2. constructor. }
  destruct (run_adv body q 1 _ _ _ _ i2 [EInv 0 p; EInv 1 q] T21 B2) as (i3 & R3 & S3 & T31 & U3).
  (* the first writes the smaller to the left *)
  assert (T30 : th i3 0 = Busy p (wr j y k0)) by (rewrite U3 by discriminate; exact T20).
  assert (B3 : adv (wr j y k0) (sh i3) k0 (pre ++ y :: x :: post) 1).
  { rewrite S3. subst j. apply adv_wr. rewrite lset_mid. constructor. }
  destruct (run_adv body p 0 _ _ _ _ i3 [EInv 0 p; EInv 1 q] T30 B3) as (i4 & R4 & S4 & T40 & U4).
  (* the second overwrites it *)
  assert (T41 : th i4 1 = Busy q (wr (S j) x (wr j x k1))) by (rewrite U4 by discriminate; exact T31).
  assert (B4 : adv (wr (S j) x (wr j x k1)) (sh i4) k1 (pre ++ x :: x :: post) 2).
  { rewrite S4. subst j. apply adv_wr. rewrite lset_mid2. apply adv_wr. rewrite lset_mid. constructor. }
  destruct (run_adv body q 1 _ _ _ _ i4 [EInv 0 p; EInv 1 q] T41 B4) as (i5 & R5 & S5 & T51 & U5).
  (* both go on to the end *)
  assert (T50 : th i5 0 = Busy p k0) by (rewrite U5 by discriminate; exact T40).
  assert (L5 : length (sh i5) = S n) by (rewrite S5, Ln, Es, !app_length; reflexivity).
  destruct (F0 (sh i5) L5) as (s6 & r0 & m0 & B5 & P6).
  destruct (run_adv body p 0 _ _ _ _ i5 [EInv 0 p; EInv 1 q] T50 B5) as (i6 & R6 & S6 & T60 & U6).
  assert (R7 : crun body i6 [EInv 0 p; EInv 1 q] [Run 0] = (MkConfig (sh i6) (tset (th i6) 0 Idle), [EInv 0 p; EInv 1 q; ERes 0 r0])) by (cbn [crun cstep]; rewrite T60; reflexivity).
  set (i7 := MkConfig (sh i6) (tset (th i6) 0 Idle)) in *.
  assert (T71 : th i7 1 = Busy q k1) by (cbn [th i7]; rewrite tset_other by discriminate; rewrite U6 by discriminate; exact T51).
  assert (L7 : length (sh i7) = S n) by (cbn [sh i7]; rewrite S6, <- (Permutation_length P6); exact L5).
  destruct (F1 (sh i7) L7) as (s8 & r1 & m1 & B7 & P8).
  destruct (run_adv body q 1 _ _ _ _ i7 [EInv 0 p; EInv 1 q; ERes 0 r0] T71 B7) as (i8 & R8 & S8 & T81 & U8).
  assert (R9 : crun body i8 [EInv 0 p; EInv 1 q; ERes 0 r0] [Run 1] = (MkConfig (sh i8) (tset (th i8) 1 Idle), [EInv 0 p; EInv 1 q; ERes 0 r0; ERes 1 r1])) by (cbn [crun cstep]; rewrite T81; reflexivity).
  exists ([Call 0 p; Call 1 q] ++ repeat (Run 1) a ++ repeat (Run 0) (a + 3) ++ repeat (Run 1) 2 ++ repeat (Run 0) 1 ++ repeat (Run 1) 2 ++ repeat (Run 0) m0 ++ [Run 0] ++ repeat (Run 1) m1 ++ [Run 1]).
  exists (MkConfig (sh i8) (tset (th i8) 1 Idle)), r0, r1. split; [|split].
  - unfold cexec in *. rewrite crun_app, R0. cbv beta iota. rewrite crun_app, R1. cbv beta iota. rewrite crun_app, R2. cbv beta iota. rewrite crun_app, R3. cbv beta iota. rewrite crun_app, R4. cbv beta iota. rewrite crun_app, R5. cbv beta iota. rewrite crun_app, R6. cbv beta iota. rewrite crun_app, R7. cbv beta iota. rewrite crun_app, R8. cbv beta iota. exact R9.
  - intros t. cbn [th]. unfold tset at 1. destruct (Nat.eqb_spec t 1) as [|H1]; [reflexivity|]. rewrite U8 by exact H1. cbn [th i7]. unfold tset at 1. destruct (Nat.eqb_spec t 0) as [|H0]; [reflexivity|].
    rewrite U6, U5, U4, U3, U2, U1 by assumption. now apply T0r.
  - exists x, y, (pre ++ post). split; [exact Dxy|]. split.
    + rewrite Es. rewrite <- Permutation_middle. constructor. now rewrite <- Permutation_middle.
    + cbn [sh]. rewrite S8, <- P8. cbn [sh i7]. rewrite S6, <- P6, S5. rewrite <- Permutation_middle. constructor. now rewrite <- Permutation_middle.
Qed.
