(** Certificates for the methods of the registry. *)
From Coq Require Import List String Arith Bool Lia Permutation.
From Verif.Model Require Import Conc Meter RegistryConc.
From Verif.Spec Require Import Linearizability Traces RegistryConcSpec.
From Verif.Proofs Require Import LinProofs PcProofs MeterRun LockDisc.
Import ListNotations.
Local Open Scope list_scope.
Local Open Scope nat_scope.

(** ** maps *)
Lemma ordered_perm {A} ord (l : list A) : Permutation (ordered ord l) l.
Proof.
  unfold ordered. rewrite (Permutation_flat_map _ (visit_perm ord (seq 0 (List.length l)) (seq_NoDup _ _))).
  assert (E : forall pre, flat_map (fun i => match nth_error (pre ++ l) i with Some a => [a] | None => [] end) (seq (List.length pre) (List.length l)) = l).
  { induction l as [|a l IH]; intros pre; [reflexivity|]. cbn [List.length seq flat_map]. rewrite nth_error_app2, Nat.sub_diag by lia. cbn. f_equal.
    specialize (IH (pre ++ [a])). rewrite app_length in IH. cbn in IH. rewrite Nat.add_1_r in IH. rewrite <- app_assoc in IH. exact IH. }
  specialize (E []). cbn [List.length app] in E. now rewrite E.
Qed.
Lemma mlookup_bound n m : mlookup n m = bound m n.
Proof. unfold bound. induction m as [|[k v] m IH]; cbn; [reflexivity|]. destruct (String.eqb k n); cbn; auto. Qed.
Lemma mlookup_in n v m : wfm m -> In (n, v) m -> mlookup n m = Some v.
Proof.
  induction m as [|[k w] m IH]; intros W; [easy|]. inversion W; subst. intros [E|Hin]; cbn.
  - injection E as -> ->. now rewrite String.eqb_refl.
  - destruct (String.eqb_spec k n) as [->|N]; auto. exfalso. apply H1. now apply (in_map fst) in Hin.
Qed.
Lemma mlookup_none n m : mlookup n m = None -> ~ In n (map fst m).
Proof.
  induction m as [|[k w] m IH]; cbn; [auto|]. destruct (String.eqb_spec k n) as [->|N]; [easy|]. intros E [X|X]; [congruence|]. now apply IH.
Qed.
Lemma wfm_add n v m : wfm m -> mlookup n m = None -> wfm (madd n v m).
Proof. intros W E. unfold wfm, madd. rewrite map_app. cbn. apply (Permutation_NoDup (Permutation_cons_append _ _)). constructor; auto. now apply mlookup_none. Qed.
Lemma wfm_remove n m : wfm m -> wfm (mremove n m).
Proof.
  unfold wfm, mremove. induction m as [|[k v] m IH]; cbn; [auto|]. intros W. inversion W; subst. destruct (String.eqb k n); cbn; auto. constructor; auto.
  intros X. apply H1. apply in_map_iff in X. destruct X as (y & <- & Hy). apply in_map. now apply filter_In in Hy.
Qed.
Definition removed (ns : list string) (m : entries) : entries := fold_left (fun m n => mremove n m) ns m.
Lemma wfm_removed ns : forall m, wfm m -> wfm (removed ns m).
Proof. induction ns as [|n ns IH]; intros m W; [exact W|]. apply IH. now apply wfm_remove. Qed.
Lemma removed_all ns : forall m, incl (map fst m) ns -> removed ns m = [].
Proof.
  induction ns as [|n ns IH]; intros m H.
  - destruct m as [|a m]; [reflexivity|]. destruct (H (fst a)). now left.
  - cbn. apply IH. intros k Hk. apply in_map_iff in Hk. destruct Hk as ([k' v] & <- & Hk). apply filter_In in Hk. destruct Hk as [Hk N]. cbn in *.
    destruct (H k') as [->|Hn]; auto; [now apply (in_map fst) in Hk|]. now rewrite String.eqb_refl in N.
Qed.
Definition found (m : entries) (ns : list string) : entries :=
  flat_map (fun n => match mlookup n m with Some v => [(n, v)] | None => [] end) ns.
Lemma found_all m l : wfm m -> incl l m -> found m (map fst l) = l.
Proof.
  intros W. induction l as [|[n v] l IH]; intros H; [reflexivity|]. cbn. rewrite (mlookup_in n v m W) by (apply H; now left). cbn. f_equal.
  apply IH. intros x Hx. apply H. now right.
Qed.
Lemma found_ordered ord m : wfm m -> found m (map fst (ordered ord m)) = ordered ord m.
Proof. intros W. apply found_all; auto. intros x Hx. now apply (Permutation_in _ (ordered_perm ord m)) in Hx. Qed.

(** ** the basic steps *)
Definition settled (h : hold) : Prop := an h = wr h /\ (wr h = true -> rc h = 0).
Definition ok (g : ghost) : Prop := settled (gR g) /\ settled (gA g).
Definition plain (ls : list rlabel) : Prop := Forall (fun l => match l with LMap _ | LArb _ => True | _ => False end) ls.
Lemma plain_app a b : plain a -> plain b -> plain (a ++ b).
Proof. intros. apply Forall_app. auto. Qed.
Lemma plain_map b : plain [LMap b]. Proof. repeat constructor. Qed.
Lemma plain_arb b : plain [LArb b]. Proof. repeat constructor. Qed.
Lemma plain_nil : plain []. Proof. constructor. Qed.

Lemma with_ls_nil g : with_ls [] g = g.
Proof. destruct g. unfold with_ls. cbn. now rewrite app_nil_r. Qed.
Lemma with_ls_app a b g : with_ls b (with_ls a g) = with_ls (a ++ b) g.
Proof. unfold with_ls. cbn. now rewrite app_assoc. Qed.
Lemma with_hold_ls l h ls g : with_hold l h (with_ls ls g) = with_ls ls (with_hold l h g).
Proof. now destruct l. Qed.
Lemma with_hold_hold l h h' g : with_hold l h (with_hold l h' g) = with_hold l h g.
Proof. now destruct l. Qed.
Lemma with_hold_id l g : with_hold l (hof l g) g = g.
Proof. now destruct l, g. Qed.

Section Cert.
Variable strict lin : bool.
Variable Post : ghost -> rret -> Prop.
Notation cert := (cert strict lin Post).
Notation rcode := (code rstate rlabel rret).

Lemma ok_waiting a g : ok g -> waiting strict a g.
Proof.
  intros [[A1 A2] [B1 B2]] _. split.
  - intros l H H'. destruct l; cbn in *; congruence.
  - split; [intros l H; destruct l; cbn in *; [apply A2|apply B2]; congruence|congruence].
Qed.
Lemma do_cert a (k : obs -> rcode) g : legal strict a g -> waiting strict a g -> a <> AUnlock RegL ->
  (forall s, en a s = true -> feasible a g -> (holds_map g -> conc s = gq g) -> wfm (metrics s) -> cert (k (see a s)) (after a s g)) -> cert (do a k) g.
Proof.
  intros L W N H. cbn. exists a. repeat match goal with |- _ /\ _ => split end; auto. intros s E F K Wm. exists (after a s g). split; [|now apply H]. left. split; [reflexivity|]. congruence.
Qed.

Lemma note_cert l (k : obs -> rcode) g : ok g -> legal strict (ANote l) g -> cert (k ObsNone) (with_ls [l] g) -> cert (do (ANote l) k) g.
Proof. intros O L H. apply do_cert; auto; [now apply ok_waiting|congruence]. Qed.
Lemma make_cert v (k : obs -> rcode) g : ok g -> wr (gR g) = true -> cert (k ObsNone) (with_ls [LMade v] (with_q (gc g) (fst (gq g), snd (gq g) ++ [v]) g)) -> cert (do (AMake v) k) g.
Proof. intros O L H. apply do_cert; auto; [now apply ok_waiting|congruence]. Qed.
Lemma write_cert f (k : obs -> rcode) g : ok g -> wr (gR g) = true -> wfm (f (fst (gq g))) ->
  cert (k ObsNone) (with_ls [LMap true] (with_q (gc g) (f (fst (gq g)), snd (gq g)) g)) -> cert (do (AMapWrite f) k) g.
Proof. intros O L F H. apply do_cert; auto; [split; auto|now apply ok_waiting|congruence]. Qed.
Lemma mget_cert n (k : option mv -> rcode) g : ok g -> holds_map g -> cert (k (mlookup n (fst (gq g)))) (with_ls [LMap false] g) -> cert (mget n k) g.
Proof.
  intros O L H. apply do_cert; auto; [now apply ok_waiting|congruence|]. intros s _ _ K _. cbn [see after lab]. specialize (K L). replace (metrics s) with (fst (gq g)); auto. now rewrite <- K.
Qed.
Lemma mrange_cert ord (k : list string -> rcode) g : ok g -> holds_map g -> cert (k (map fst (ordered ord (fst (gq g))))) (with_ls [LMap false] g) -> cert (mrange ord k) g.
Proof.
  intros O L H. apply do_cert; auto; [now apply ok_waiting|congruence|]. intros s _ _ K _. cbn [see after lab]. specialize (K L). replace (metrics s) with (fst (gq g)); auto. now rewrite <- K.
Qed.

Definition gwrite (q : rq) (g : ghost) : ghost := with_q q q (with_hold RegL (MkH 0 true true) g).
Lemma lock_reg_cert (k : rcode) g : ok g -> (strict = true -> gfree g) -> (gR g = hfree -> forall q : rq, wfm (fst q) -> cert k (gwrite q g)) -> cert (lock_c RegL k) g.
Proof.
  intros O St H. apply do_cert; auto; [intros X; destruct (St X); auto|now apply ok_waiting|congruence|].
  intros s _ F _ _. cbn in F. unfold after. cbn [lab see]. rewrite with_ls_nil.
  destruct O as [[A1 A2] O2].
  apply do_cert.
  - cbn. split; auto. congruence.
  - intros X. destruct (St X) as [S1 S2]. split.
    + intros l. destruct l; cbn; auto. rewrite S2. easy.
    + split; auto. intros l. destruct l; cbn; [now rewrite S1|now rewrite S2].
  - congruence.
  - intros s' _ F' _ W. cbn in F'. unfold after. cbn [lab see]. rewrite with_ls_nil. cbn [hof]. assert (E : gR g = hfree) by (destruct (gR g); cbn in *; subst; unfold hfree; f_equal; congruence).
    replace (with_q _ _ _) with (gwrite (conc s') g); [apply H; auto|]. unfold gwrite, with_q, with_hold. cbn. now rewrite E.
Qed.
Lemma unlock_reg_cert (k : rcode) g : ok g -> wr (gR g) = true -> (lin = true -> gc g = gq g) -> cert k (with_hold RegL hfree g) -> cert (unlock_c RegL k) g.
Proof.
  intros O L E H. exists (AUnlock RegL). repeat match goal with |- _ /\ _ => split end; auto; [now apply ok_waiting|].
  intros s _ _ _ _. eexists. split; [left; split; [reflexivity|auto]|]. unfold after. cbn [lab]. rewrite with_ls_nil. cbn [hof]. destruct O as [[A1 A2] _]. now rewrite (A2 L).
Qed.
Lemma unlock_reg_lin (k : rcode) g op r : ok g -> wr (gR g) = true -> gst g = TPending op -> rapply (gc g) op = (gq g, r) -> cert k (with_st (TDone r) (with_hold RegL hfree g)) -> cert (unlock_c RegL k) g.
Proof.
  intros O L E A H. exists (AUnlock RegL). repeat match goal with |- _ /\ _ => split end; auto; [now apply ok_waiting|].
  intros s _ _ _ _. eexists. split; [right; exists op, r; split; [exact E|split; [reflexivity|left; auto]]|]. unfold after. cbn [lab]. rewrite with_ls_nil. cbn [hof]. destruct O as [[A1 A2] _]. now rewrite (A2 L).
Qed.
Definition gread (q : rq) (g : ghost) : ghost := with_ms (fst q) (with_q (gc g) q (with_hold RegL (MkH (S (rc (gR g))) false false) g)).
Lemma rlock_reg_cert (k : rcode) g : ok g -> (strict = true -> gfree g) ->
  (wr (gR g) = false -> forall q : rq, wfm (fst q) -> (holds_map g -> q = gq g) -> cert k (gread q g)) -> cert (rlock_c RegL k) g.
Proof.
  intros O St H. apply do_cert; auto; [intros X; destruct (St X); auto|now apply ok_waiting|congruence|].
  intros s _ F K W. cbn in F. unfold after. cbn [lab see]. rewrite with_ls_nil. cbn [hof]. destruct O as [[A1 A2] O2].
  replace (with_ms _ _) with (gread (conc s) g); [apply H; auto; congruence|]. unfold gread. cbn. now rewrite <- A1, F.
Qed.
Definition gunread (g : ghost) : ghost := with_hold RegL (MkH (pred (rc (gR g))) false false) g.
Lemma runlock_reg_cert (k : rcode) g : ok g -> 0 < rc (gR g) -> wr (gR g) = false -> cert k (gunread g) -> cert (runlock_c RegL k) g.
Proof.
  intros O L Wf H. apply do_cert; auto; [now apply ok_waiting|congruence|]. intros s _ _ _ _. unfold after. cbn [lab see]. rewrite with_ls_nil. cbn [hof]. destruct O as [[A1 A2] O2]. rewrite A1, Wf. exact H.
Qed.
Lemma runlock_reg_lin (k : rcode) g op r : ok g -> 0 < rc (gR g) -> wr (gR g) = false -> gst g = TPending op -> rapply (gq g) op = (gq g, r) -> cert k (with_st (TDone r) (gunread g)) -> cert (runlock_c RegL k) g.
Proof.
  intros O L Wf E A H. exists (ARUnlock RegL). repeat match goal with |- _ /\ _ => split end; auto; [now apply ok_waiting|].
  intros s _ _ _ _. eexists. split; [right; exists op, r; split; [exact E|split; [reflexivity|right; auto]]|]. unfold after. cbn [lab]. rewrite with_ls_nil. cbn [hof]. destruct O as [[A1 A2] O2]. rewrite A1, Wf. exact H.
Qed.

(** ** the arbiter *)
Lemma arb_write_cert f (k : rcode) g : ok g -> (strict = true -> gA g = hfree) -> cert k (with_ls [LArb true] g) ->
  cert (lock_c ArbL (do (AArbWrite f) (fun _ => unlock_c ArbL k))) g.
Proof.
  intros O St H. apply do_cert; auto; [intros X; split; [now apply St|easy]|now apply ok_waiting|congruence|].
  intros s _ F _ _. cbn in F. unfold after. cbn [lab see]. rewrite with_ls_nil. cbn [hof].
  destruct O as [O1 [B1 B2]].
  apply do_cert.
  - cbn. split; auto. congruence.
  - intros X. specialize (St X). destruct O1 as [A1 A2]. split.
    + intros l. destruct l; cbn; auto. rewrite A1. congruence.
    + split; [|cbn; congruence]. intros l. destruct l; cbn; [|now rewrite St]. rewrite A1. auto.
  - congruence.
  - intros s' _ F' _ _. cbn in F'. unfold after. cbn [lab see]. rewrite with_ls_nil. cbn [hof]. rewrite with_hold_hold.
    assert (E : gA g = hfree) by (destruct (gA g); cbn in *; subst; unfold hfree; f_equal; congruence).
    set (g1 := with_hold ArbL _ g).
    assert (Eg : g1 = with_hold ArbL (MkH 0 true true) g) by (unfold g1; cbn; now rewrite E). clearbody g1. subst g1.
    assert (O' : ok (with_hold ArbL (MkH 0 true true) g)) by (split; [exact O1|split; auto]).
    apply do_cert; [reflexivity|now apply ok_waiting|congruence|]. intros s2 _ _ _ _. unfold after. cbn [lab see].
    apply do_cert; [reflexivity|now apply ok_waiting|congruence|]. intros s3 _ _ _ _. unfold after. cbn [lab see]. rewrite with_ls_nil. cbn [hof].
    match goal with |- cert k ?x => replace x with (with_ls [LArb true] g); [exact H|] end. clear - E. destruct g. cbn in E. now subst.
Qed.
Lemma stop_cert v (k : rcode) g : ok g -> (strict = true -> gA g = hfree) -> (forall ls, plain ls -> cert k (with_ls ls g)) -> cert (stop_c v k) g.
Proof.
  intros O St H. unfold stop_c. destruct (is_stoppable v); [|rewrite <- (with_ls_nil g); apply H, plain_nil].
  apply do_cert; [exact I|now apply ok_waiting|congruence|]. intros s _ _ _ _. unfold after. cbn [lab see]. rewrite with_ls_nil.
  destruct (negb (memn (v_id v) (stopped s))); [|rewrite <- (with_ls_nil g); apply H, plain_nil]. apply arb_write_cert; auto. apply H, plain_arb.
Qed.
Lemma new_cert v (k : rcode) g : ok g -> (strict = true -> gA g = hfree) -> (forall ls, plain ls -> cert k (with_ls ls g)) -> cert (new_c v k) g.
Proof.
  intros O St H. unfold new_c. destruct (is_stoppable v); [|rewrite <- (with_ls_nil g); apply H, plain_nil]. apply arb_write_cert; auto. apply H, plain_arb.
Qed.
Lemma tick_cert (k : rcode) g : ok g -> (strict = true -> gA g = hfree) -> (forall ls, plain ls -> cert k (with_ls ls g)) -> cert (rlock_c ArbL (do AArbRead (fun _ => runlock_c ArbL k))) g.
Proof.
  intros O St H. apply do_cert; auto; [intros X; split; [now apply St|easy]|now apply ok_waiting|congruence|].
  intros s _ F _ _. cbn in F. unfold after. cbn [lab see]. rewrite with_ls_nil. cbn [hof]. destruct O as [O1 [B1 B2]].
  set (g1 := with_hold ArbL _ g). assert (Eg : g1 = with_hold ArbL (MkH (S (rc (gA g))) false false) g) by (unfold g1; cbn; now rewrite <- B1, F). clearbody g1. subst g1.
  assert (O' : ok (with_hold ArbL (MkH (S (rc (gA g))) false false) g)) by (split; [exact O1|split; [reflexivity|easy]]).
  apply do_cert; [left; cbn; lia|now apply ok_waiting|congruence|]. intros s2 _ _ _ _. unfold after. cbn [lab see].
  apply do_cert; [cbn; lia|now apply ok_waiting|congruence|]. intros s3 _ _ _ _. unfold after. cbn [lab see]. rewrite with_ls_nil. cbn [hof].
  match goal with |- cert k ?x => replace x with (with_ls [LArb false] g); [apply H, plain_arb|] end.
  clear - B1 F. destruct g as [gR [r a w] ? ? ? ? ? ?]. cbn in *. now subst.
Qed.

(** ** parts of methods *)
(** registration under the write lock *)
Definition bindq (n : string) (v : mv) (q : rq) : rq := (bind_new (fst q) n v, snd q).
Lemma register_cert n v (k : bool -> rcode) g : ok g -> wr (gR g) = true -> wfm (fst (gq g)) ->
  (forall ls, plain ls -> match bound (fst (gq g)) n with
     | Some _ => cert (k true) (with_ls ls g)
     | None => wfm (fst (bindq n v (gq g))) -> cert (k false) (with_ls ls (with_q (gc g) (bindq n v (gq g)) g))
     end) -> cert (register_c n v k) g.
Proof.
  intros O W Wf H. unfold register_c. apply mget_cert; auto; [now right|]. rewrite mlookup_bound.
  destruct (bound (fst (gq g)) n) as [x|] eqn:E.
  - apply (H [LMap false]), plain_map.
  - unfold bindq, bind_new in H. unfold is_metric. assert (Wa : wfm (madd n v (fst (gq g)))) by (apply wfm_add; auto; now rewrite mlookup_bound).
    assert (Z : cert (k false) (with_ls [LMap false] g) -> cert (do (AMapWrite (madd n v)) (fun _ => k false)) (with_ls [LMap false] g) -> cert (if match v_kind v with KNone => false | _ => true end then do (AMapWrite (madd n v)) (fun _ => k false) else k false) (with_ls [LMap false] g)) by (destruct (v_kind v); auto).
    destruct (v_kind v) eqn:Ev.
    { specialize (H [LMap false] (plain_map _) Wf). replace (with_q (gc g) (fst (gq g), snd (gq g)) g) with g in H by (destruct g as [? ? ? [? ?]]; reflexivity). exact H. }
    all: apply write_cert; auto; specialize (H ([LMap false] ++ [LMap true]) (plain_app _ _ (plain_map _) (plain_map _)) Wa); rewrite <- with_ls_app in H; exact H.
Qed.
Definition removeq (ns : list string) (q : rq) : rq := (removed ns (fst q), snd q).
Lemma with_q_q c q c' q' g : with_q c q (with_q c' q' g) = with_q c q g. Proof. reflexivity. Qed.
Lemma stop_delete_cert n (k : rcode) g : ok g -> wr (gR g) = true -> (strict = true -> gA g = hfree) -> wfm (fst (gq g)) ->
  (forall ls, plain ls -> cert k (with_ls ls (with_q (gc g) (removeq [n] (gq g)) g))) -> cert (stop_delete_c n k) g.
Proof.
  intros O W A Wf H. unfold stop_delete_c. apply mget_cert; auto; [now right|].
  assert (D : forall ls, plain ls -> cert (do (AMapWrite (mremove n)) (fun _ => k)) (with_ls ls g)).
  { intros ls P. apply write_cert; auto; [now apply wfm_remove|]. specialize (H (ls ++ [LMap true]) (plain_app _ _ P (plain_map _))). rewrite <- with_ls_app in H. exact H. }
  destruct (mlookup n (fst (gq g))) as [x|].
  - apply stop_cert; auto. intros ls P. rewrite with_ls_app. apply D. apply plain_app; auto. apply plain_map.
  - apply D, plain_map.
Qed.
Lemma stop_delete_all_cert ns (k : rcode) : forall g, ok g -> wr (gR g) = true -> (strict = true -> gA g = hfree) -> wfm (fst (gq g)) ->
  (forall ls, plain ls -> cert k (with_ls ls (with_q (gc g) (removeq ns (gq g)) g))) -> cert (stop_delete_all_c ns k) g.
Proof.
  induction ns as [|n ns IH]; intros g O W A Wf H; cbn [stop_delete_all_c].
  - specialize (H [] plain_nil). rewrite with_ls_nil in H. replace (with_q (gc g) (removeq [] (gq g)) g) with g in H by (destruct g as [? ? ? [? ?]]; reflexivity). exact H.
  - apply stop_delete_cert; auto. intros ls P. apply IH; auto; [now apply wfm_remove|]. intros ls' P'. specialize (H (ls ++ ls') (plain_app _ _ P P')). rewrite <- with_ls_app in H. exact H.
Qed.
Lemma collect_cert ns (k : entries -> rcode) : forall acc g, ok g -> holds_map g ->
  (forall ls, plain ls -> cert (k (acc ++ found (fst (gq g)) ns)) (with_ls ls g)) -> cert (collect_c ns acc k) g.
Proof.
  induction ns as [|n ns IH]; intros acc g O L H; cbn [collect_c].
  - specialize (H [] plain_nil). rewrite with_ls_nil in H. cbn in H. now rewrite app_nil_r in H.
  - apply mget_cert; auto. apply IH; auto. intros ls P. rewrite with_ls_app. specialize (H ([LMap false] ++ ls) (plain_app _ _ (plain_map _) P)).
    cbn [found flat_map gq with_ls] in *. fold (found (fst (gq g)) ns) in H. destruct (mlookup n (fst (gq g))); [now rewrite <- app_assoc|exact H].
Qed.
End Cert.
