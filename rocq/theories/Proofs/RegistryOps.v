(** Certificates for whole calls: atomic, for caller code that stays away; disciplined,
    for any caller code. *)
From Coq Require Import List String Arith Bool Lia Permutation.
From Verif.Model Require Import Conc Meter RegistryConc.
From Verif.Spec Require Import Linearizability Traces RegistryConcSpec.
From Verif.Proofs Require Import LinProofs PcProofs MeterRun LockDisc RegistryCert.
Import ListNotations.
Local Open Scope list_scope.
Local Open Scope nat_scope.

Ltac okt := split; split; cbn; first [reflexivity | easy | auto].

(** ** atomicity *)
Lemma made_in_app a b : made_in (a ++ b) = made_in a ++ made_in b.
Proof. apply flat_map_app. Qed.
Lemma made_plain ls : plain ls -> made_in ls = [].
Proof. induction 1 as [|x ls Hx _ IH]; [reflexivity|]. destruct x; easy. Qed.
Definition lin_post (g : ghost) (r : rret) : Prop :=
  match gop g with
  | RGetOrRegisterFn _ v _ => made_in (gls g) = [] \/ (made_in (gls g) = [v] /\ r = RtVal v)
  | _ => made_in (gls g) = []
  end.
Section Lin.
Notation cert := (cert true true lin_post).
Lemma ret_lin r g : gfree g -> gst g = TDone r -> lin_post g r -> cert (Ret r) g.
Proof. intros F E P. split; [exact F|]. split; [exact P|]. intros _. now left. Qed.

Lemma callbacks_simple cb (Hcb : forall n v k, cb n v k = k) l (k : code rstate rlabel rret) : forall g, gfree g ->
  (forall ls, made_in ls = [] -> cert k (with_ls ls g)) -> cert (callbacks_c cb l k) g.
Proof.
  induction l as [|[n v] l IH]; intros g F H; cbn [callbacks_c].
  - specialize (H [] eq_refl). now rewrite with_ls_nil in H.
  - apply note_cert; [destruct F as [F1 F2]; split; [rewrite F1|rewrite F2]; split; easy|now intros _|]. rewrite Hcb. apply IH; [exact F|]. intros ls Hl. rewrite with_ls_app. apply H. exact Hl.
Qed.
Lemma checks_simple chk (Hc : forall n v k, chk n v k = k) ns (k : code rstate rlabel rret) : forall g, ok g -> holds_map g ->
  (forall ls, made_in ls = [] -> cert k (with_ls ls g)) -> cert (checks_c chk ns k) g.
Proof.
  induction ns as [|n ns IH]; intros g O L H; cbn [checks_c].
  - specialize (H [] eq_refl). now rewrite with_ls_nil in H.
  - apply mget_cert; auto. assert (R : cert (checks_c chk ns k) (with_ls [LMap false] g)) by (apply IH; auto; intros ls Hl; rewrite with_ls_app; apply H; exact Hl).
    destruct (mlookup n (fst (gq g))) as [v|]; auto. destruct (is_health v); auto.
    apply note_cert; auto; [exact I|]. rewrite Hc. apply IH; auto. intros ls Hl. rewrite !with_ls_app. apply H. exact Hl.
Qed.

Lemma gor_lin o n v (mk : code rstate rlabel rret -> code rstate rlabel rret) (mkq : rq -> rq) (mkl : list rlabel -> Prop) :
  (forall g x, gop g = o -> made_in (gls g) = [] -> lin_post g (RtVal x)) ->
  (forall g a ls b, gop g = o -> gls g = a ++ ls ++ b -> plain a -> plain b -> mkl ls -> lin_post g (RtVal v)) ->
  (forall q, rapply q o = match bound (fst q) n with Some x => (q, RtVal x) | None => (bindq n v (mkq q), RtVal v) end) ->
  (forall q, fst (mkq q) = fst q) ->
  (forall g c, ok g -> gA g = hfree -> wr (gR g) = true -> (forall ls, mkl ls -> cert c (with_ls ls (with_q (gc g) (mkq (gq g)) g))) -> cert (mk c) g) ->
  cert (get_or_register_c n v mk Ret) (ghost0 o).
Proof.
  intros Hp1 Hp2 Ha Hq Hm. unfold get_or_register_c. apply rlock_reg_cert; [okt|intros _; split; reflexivity|]. intros _ q W _.
  apply mget_cert; [okt|left; cbn; lia|]. cbn [gq with_ls gread with_ms with_q]. rewrite mlookup_bound.
  destruct (bound (fst q) n) as [x|] eqn:E.
  - eapply runlock_reg_lin with (op := o) (r := RtVal x); try reflexivity; [okt|cbn; lia| |].
    + rewrite Ha. cbn [gq gc with_ls gread gwrite with_ms with_q with_hold]. now rewrite E.
    + apply ret_lin; [split; reflexivity|reflexivity|now apply Hp1].
  - apply runlock_reg_cert; [okt|cbn; lia|reflexivity|]. apply lock_reg_cert; [okt|intros _; split; reflexivity|]. intros _ q' W'.
    apply mget_cert; [okt|right; reflexivity|]. cbn [gq with_ls gwrite with_q]. rewrite mlookup_bound. destruct (bound (fst q') n) as [x|] eqn:E'.
    + eapply unlock_reg_lin with (op := o) (r := RtVal x); try reflexivity; [okt| |].
      * rewrite Ha. cbn [gq gc with_ls gread gwrite with_ms with_q with_hold]. now rewrite E'.
      * apply ret_lin; [split; reflexivity|reflexivity|now apply Hp1].
    + apply Hm; [okt|reflexivity|reflexivity|]. intros ls Hl. apply register_cert; [okt|reflexivity|cbn; now rewrite Hq|]. intros ls' P. cbn [gq with_ls with_q]. rewrite Hq. cbn [gq gwrite with_ls with_q]. rewrite E'. intros _.
      eapply unlock_reg_lin with (op := o) (r := RtVal v); try reflexivity; [okt| |].
      * rewrite Ha. cbn [gq gc with_ls gread gwrite with_ms with_q with_hold]. now rewrite E'.
      * apply ret_lin; [split; reflexivity|reflexivity|]. apply (Hp2 _ [LMap false; LMap false] ls ls'); [reflexivity|reflexivity|repeat constructor|exact P|exact Hl].
Qed.

Ltac mt := unfold lin_post; cbn; rewrite ?made_in_app; cbn; rewrite ?made_plain by assumption; try assumption; try reflexivity.
Lemma lin_cert o : simple o -> cert (rbody o) (ghost0 o).
Proof.
  unfold rbody. destruct o as [n|n v|n v|n v mk|n|ord|ord cb|ord chk|v|v|]; cbn [op_c simple]; intros Hs.
  - apply rlock_reg_cert; [okt|intros _; split; reflexivity|]. intros _ [m d] W _.
    apply mget_cert; [okt|left; cbn; lia|]. cbn [gq with_ls gread with_ms with_q]. rewrite mlookup_bound.
    eapply runlock_reg_lin; [okt|cbn; lia|reflexivity|reflexivity| |].
    + reflexivity.
    + apply ret_lin; [split; reflexivity|reflexivity|]. mt.
  - apply lock_reg_cert; [okt|intros _; split; reflexivity|]. intros _ [m d] W. apply register_cert; [okt|reflexivity|exact W|]. intros ls P. cbn [gq with_ls gwrite with_q].
    cbn [fst]; destruct (bound m n) as [x|] eqn:E; [|intros _].
    + eapply unlock_reg_lin; [okt|reflexivity|reflexivity| |].
      * cbn [rapply gc gq gwrite with_ls with_q fst]. rewrite E. reflexivity.
      * apply ret_lin; [split; reflexivity|reflexivity|]. mt.
    + eapply unlock_reg_lin; [okt|reflexivity|reflexivity| |].
      * cbn [rapply gc gq gwrite with_ls with_q fst]. rewrite E. reflexivity.
      * apply ret_lin; [split; reflexivity|reflexivity|]. mt.
  - apply (gor_lin _ n v _ (fun q => q) (fun ls => ls = [])).
    + intros g x Eo Em. unfold lin_post. now rewrite Eo.
    + intros g a ls b Eo El Pa Pb ->. unfold lin_post. rewrite Eo, El. cbn. now rewrite made_in_app, !made_plain.
    + intros [m d]. cbn. destruct (bound m n); reflexivity.
    + reflexivity.
    + intros g c O A W H. specialize (H [] eq_refl). rewrite with_ls_nil in H. replace (with_q (gc g) (gq g) g) with g in H by (now destruct g). exact H.
  - subst mk. apply (gor_lin _ n v _ (fun q => (fst q, snd q ++ [v])) (fun ls => exists b, plain b /\ ls = LMade v :: b)).
    + intros g x Eo Em. unfold lin_post. rewrite Eo. now left.
    + intros g a ls b Eo El Pa Pb (b' & Pb' & ->). unfold lin_post. rewrite Eo, El. right. split; [|reflexivity]. rewrite made_in_app. cbn. now rewrite made_in_app, !made_plain.
    + intros [m d]. cbn. destruct (bound m n); reflexivity.
    + reflexivity.
    + intros g c O A W H. cbn [cb_c]. apply make_cert; auto. apply new_cert; auto. intros ls P. rewrite with_ls_app. apply H. exists ls. auto.
  - apply lock_reg_cert; [okt|intros _; split; reflexivity|]. intros _ [m d] W. apply stop_delete_cert; [okt|reflexivity|reflexivity|exact W|]. intros ls P.
    eapply unlock_reg_lin; [okt|reflexivity|reflexivity| |].
    + reflexivity.
    + apply ret_lin; [split; reflexivity|reflexivity|]. mt.
  - apply lock_reg_cert; [okt|intros _; split; reflexivity|]. intros _ [m d] W. apply mrange_cert; [okt|right; reflexivity|]. apply stop_delete_all_cert; [okt|reflexivity|reflexivity|exact W|]. intros ls P.
    eapply unlock_reg_lin; [okt|reflexivity|reflexivity| |].
    + cbn. unfold removeq. cbn [fst snd]. rewrite removed_all; [reflexivity|]. intros x Hx.
      apply (Permutation_in _ (Permutation_map fst (Permutation_sym (ordered_perm ord m))) Hx).
    + apply ret_lin; [split; reflexivity|reflexivity|]. mt.
  - apply rlock_reg_cert; [okt|intros _; split; reflexivity|]. intros _ [m d] W _. apply mrange_cert; [okt|left; cbn; lia|]. apply collect_cert; [okt|left; cbn; lia|]. intros ls P.
    cbn [gq with_ls gread with_ms with_q app]. rewrite found_ordered by exact W.
    eapply runlock_reg_lin; [okt|cbn; lia|reflexivity|reflexivity| |].
    + reflexivity.
    + apply callbacks_simple; [intros n v k; now rewrite (Hs n v)|split; reflexivity|]. intros ls' Hl'. apply ret_lin; [split; reflexivity|reflexivity|]. mt.
  - apply rlock_reg_cert; [okt|intros _; split; reflexivity|]. intros _ [m d] W _. apply mrange_cert; [okt|left; cbn; lia|].
    apply checks_simple; [intros n v k; now rewrite (Hs n v)|okt|left; cbn; lia|]. intros ls P.
    eapply runlock_reg_lin; [okt|cbn; lia|reflexivity|reflexivity| |].
    + reflexivity.
    + apply ret_lin; [split; reflexivity|reflexivity|]. mt.
  - apply new_cert; [okt|reflexivity|]. intros ls P. split; [split; reflexivity|]. split; [mt|]. intros _. right. eexists. split; [reflexivity|]. intros [m d]. reflexivity.
  - apply stop_cert; [okt|reflexivity|]. intros ls P. split; [split; reflexivity|]. split; [mt|]. intros _. right. eexists. split; [reflexivity|]. intros [m d]. reflexivity.
  - apply tick_cert; [okt|reflexivity|]. intros ls P. split; [split; reflexivity|]. split; [mt|]. intros _. right. eexists. split; [reflexivity|]. intros [m d]. reflexivity.
Qed.
End Lin.

(** ** discipline *)
Scheme rop_mut := Induction for rop Sort Prop with cbp_mut := Induction for cbp Sort Prop.
Combined Scheme rop_cbp_ind from rop_mut, cbp_mut.
Definition call_free (ls : list rlabel) : Prop := Forall (fun l => match l with LCall _ _ => False | _ => True end) ls.
Lemma plain_free ls : plain ls -> call_free ls.
Proof. apply Forall_impl. now intros []. Qed.
Lemma call_free_app a b : call_free a -> call_free b -> call_free (a ++ b).
Proof. intros. apply Forall_app. auto. Qed.

(** what a nested call may change *)
Record ext (g g' : ghost) (ls : list rlabel) : Prop := {
  ex_R : gR g' = gR g; ex_A : gA g' = gA g; ex_op : gop g' = gop g; ex_ls : gls g' = gls g ++ ls;
  ex_ms : exists ms, gms g' = gms g ++ ms; ex_q : holds_map g -> gq g' = gq g }.
Lemma ext_refl g : ext g g [].
Proof. constructor; auto; [now rewrite app_nil_r|exists []; now rewrite app_nil_r]. Qed.
Lemma ext_trans g1 g2 g3 a b : ext g1 g2 a -> ext g2 g3 b -> ext g1 g3 (a ++ b).
Proof.
  intros [A1 A2 A3 A4 [m1 A5] A6] [B1 B2 B3 B4 [m2 B5] B6]. constructor; try congruence.
  - rewrite B4, A4. now rewrite app_assoc.
  - exists (m1 ++ m2). rewrite B5, A5. now rewrite app_assoc.
  - intros H. rewrite <- A6 by exact H. apply B6. unfold holds_map in *. now rewrite A1.
Qed.
Lemma ext_ls g ls : ext g (with_ls ls g) ls.
Proof. constructor; auto. exists []. cbn. now rewrite app_nil_r. Qed.
Lemma ext_ok g g' ls : ext g g' ls -> ok g -> ok g'.
Proof. intros [A1 A2 _ _ _ _] [O1 O2]. split; [now rewrite A1|now rewrite A2]. Qed.
Lemma ext_free g g' ls : ext g g' ls -> gfree g -> gfree g'.
Proof. intros [A1 A2 _ _ _ _] [O1 O2]. split; congruence. Qed.

Section Disc.
Variable strict : bool.
Variable Post : ghost -> rret -> Prop.
Notation cert := (cert strict false Post).
Notation rcode := (code rstate rlabel rret).
Definition pre (o : rop) (g : ghost) : Prop := strict = true -> gA g = hfree /\ (on_registry o -> gfree g) /\ polite o.
Definition pre_cb (p : cbp) (g : ghost) : Prop := strict = true -> gA g = hfree /\ (off_registry p \/ (gfree g /\ polite_cb p)).
Definition op_certified (o : rop) : Prop := forall g k, ok g -> pre o g ->
  (forall r g' ls, ext g g' ls -> (no_each o -> call_free ls) -> cert (k r) g') -> cert (op_c o k) g.
Definition cb_certified (p : cbp) : Prop := forall g k, ok g -> pre_cb p g ->
  (forall g' ls, ext g g' ls -> (no_each_cb p -> call_free ls) -> cert k g') -> cert (cb_c p k) g.

Lemma off_polite o : ~ on_registry o -> polite o.
Proof. destruct o; cbn; intros H; try (destruct (H I)); constructor. Qed.

Lemma read_section g q ls : ok g -> wr (gR g) = false -> (holds_map g -> q = gq g) -> ext g (gunread (with_ls ls (gread q g))) ls.
Proof.
  intros [[A1 A2] O2] W K. constructor; cbn; auto; [|now exists [fst q]].
  destruct (gR g); cbn in *; subst; f_equal; auto.
Qed.
Lemma gread_ok g q ls : ok g -> ok (with_ls ls (gread q g)).
Proof. intros [O1 O2]. split; [split; [reflexivity|easy]|exact O2]. Qed.
Lemma gwrite_ok g q q' ls : ok g -> ok (with_ls ls (with_q q' q (gwrite q g))).
Proof. intros [O1 O2]. split; [split; auto|exact O2]. Qed.
Lemma write_section g g' ls : ok g -> gR g = hfree -> gA g' = gA g -> gop g' = gop g -> gls g' = gls g ++ ls -> (exists ms, gms g' = gms g ++ ms) ->
  ext g (with_hold RegL hfree g') ls.
Proof. intros O E A1 A2 A3 A4. constructor; cbn; auto. intros [H|H]; rewrite E in H; cbn in H; [lia|easy]. Qed.

Lemma callbacks_cert (cb : string -> mv -> cbp) l (k : rcode) (Hcb : forall n v, cb_certified (cb n v)) :
  forall g, ok g -> (strict = true -> gfree g /\ forall n v, polite_cb (cb n v)) ->
  (forall g' ls, ext g g' ls -> ((forall n v, no_each_cb (cb n v)) -> filter (fun x => match x with LCall _ _ => true | _ => false end) ls = map (fun kv => LCall (fst kv) (snd kv)) l) -> cert k g') ->
  cert (callbacks_c (fun n v => cb_c (cb n v)) l k) g.
Proof.
  induction l as [|[n v] l IH]; intros g O St H; cbn [callbacks_c].
  - apply (H g []); [apply ext_refl|reflexivity].
  - apply note_cert; [exact O|intros X; apply St, X|]. apply Hcb; [exact O| |].
    + intros X. destruct (St X) as [F Po]. split; [apply F|]. right. split; [exact F|apply Po].
    + intros g1 ls1 E1 C1. apply IH.
      * eapply ext_ok; eauto.
      * intros X. destruct (St X) as [F Po]. split; auto. eapply ext_free; eauto.
      * intros g2 ls2 E2 C2. apply (H g2 ([LCall n v] ++ ls1 ++ ls2)).
        -- eapply ext_trans; [apply ext_ls|]. eapply ext_trans; eauto.
        -- intros Nc. cbn. f_equal. rewrite filter_app, (C2 Nc). specialize (C1 (Nc n v)). unfold call_free in C1. clear - C1. induction C1 as [|x ls Hx _ IH]; [reflexivity|]. cbn. destruct x; auto; easy.
Qed.
Lemma checks_cert (chk : string -> mv -> cbp) ns (k : rcode) (Hc : forall n v, cb_certified (chk n v)) :
  forall g, ok g -> holds_map g -> (strict = true -> gA g = hfree /\ forall n v, off_registry (chk n v)) ->
  (forall g' ls, ext g g' ls -> ((forall n v, no_each_cb (chk n v)) -> call_free ls) -> cert k g') ->
  cert (checks_c (fun n v => cb_c (chk n v)) ns k) g.
Proof.
  induction ns as [|n ns IH]; intros g O L St H; cbn [checks_c].
  - apply (H g []); [apply ext_refl|intros; constructor].
  - apply mget_cert; auto.
    assert (R : forall g1 ls1, ext g g1 ls1 -> ((forall n v, no_each_cb (chk n v)) -> call_free ls1) -> cert (checks_c (fun n v => cb_c (chk n v)) ns k) g1).
    { intros g1 ls1 E1 C1. apply IH; [eapply ext_ok; eauto| | |].
      - unfold holds_map. now rewrite (ex_R _ _ _ E1).
      - rewrite (ex_A _ _ _ E1). exact St.
      - intros g2 ls2 E2 C2. apply (H g2 (ls1 ++ ls2)); [eapply ext_trans; eauto|]. intros Nc. apply call_free_app; auto. }
    assert (R0 : cert (checks_c (fun n v => cb_c (chk n v)) ns k) (with_ls [LMap false] g)) by (apply (R _ _ (ext_ls g [LMap false])); intros; repeat constructor).
    destruct (mlookup n (fst (gq g))) as [v|]; auto. destruct (is_health v); auto.
    apply note_cert; [exact O|exact I|]. apply Hc; [exact O| |].
    + intros X. destruct (St X) as [F Po]. split; [apply F|]. left. apply Po.
    + intros g1 ls1 E1 C1. apply (R g1 (([LMap false] ++ [LCheck n v]) ++ ls1)).
      * eapply ext_trans; [|exact E1]. rewrite with_ls_app. apply ext_ls.
      * intros Nc. apply call_free_app; [repeat constructor|]. apply C1, Nc.
Qed.
Lemma gor_cert o n v (mk : rcode -> rcode) (C : list rlabel -> Prop) :
  (forall ls, plain ls -> C ls) -> (forall a b, C a -> C b -> C (a ++ b)) -> on_registry o ->
  (forall g c, ok g -> (strict = true -> gA g = hfree) -> wr (gR g) = true ->
     (forall g' ls, gR g' = gR g -> gA g' = gA g -> gop g' = gop g -> gls g' = gls g ++ ls -> (exists ms, gms g' = gms g ++ ms) -> fst (gq g') = fst (gq g) -> C ls -> cert c g') -> cert (mk c) g) ->
  forall g (k : rret -> rcode), ok g -> pre o g -> (forall r g' ls, ext g g' ls -> C ls -> cert (k r) g') -> cert (get_or_register_c n v mk k) g.
Proof.
  intros Cp Ca Hr Hm g k O St H. assert (Sf : strict = true -> gfree g) by (intros X; now apply St).
  unfold get_or_register_c. apply rlock_reg_cert; auto. intros W q Wf K. apply mget_cert; [now apply (gread_ok g q [])|left; cbn; lia|].
  apply runlock_reg_cert; [now apply gread_ok|cbn; lia|reflexivity|].
  pose proof (read_section g q [LMap false] O W K) as E1.
  destruct (mlookup n (fst (gq (gread q g)))) as [x|]; [apply (H _ _ _ E1), Cp, plain_map|].
  set (g1 := gunread (with_ls [LMap false] (gread q g))) in *. clearbody g1. clear K W Wf q.
  assert (O1 : ok g1) by (eapply ext_ok; eauto). assert (Sf1 : strict = true -> gfree g1) by (intros X; eapply ext_free; eauto).
  assert (Hk : forall r g' ls, ext g1 g' ls -> C ls -> cert (k r) g').
  { intros r g' ls E Cl. apply (H r g' ([LMap false] ++ ls)); [eapply ext_trans; eauto|]. apply Ca; auto. apply Cp, plain_map. }
  clear H E1 O Sf St g. apply lock_reg_cert; auto. intros F q Wf.
  assert (Ow : ok (gwrite q g1)) by (destruct O1; split; [split; auto|auto]).
  apply mget_cert; auto; [right; reflexivity|]. cbn [gq gwrite with_q]. destruct (mlookup n (fst q)) as [x|] eqn:El.
  - apply unlock_reg_cert; auto; try discriminate. apply (Hk _ _ [LMap false]); [|apply Cp, plain_map]. apply write_section; auto. exists []. cbn. now rewrite app_nil_r.
  - apply Hm; auto; [intros X; apply (Sf1 X)|]. intros g2 ls R2 A2 P2 L2 M2 Q2 C2. cbn in Q2.
    assert (W2 : wr (gR g2) = true) by (rewrite R2; reflexivity). assert (O2 : ok g2) by (split; [rewrite R2; apply Ow|rewrite A2; apply Ow]).
    apply register_cert; auto; [rewrite Q2; exact Wf|]. intros ls' P'. rewrite Q2, <- mlookup_bound, El. intros _. apply unlock_reg_cert; auto; try discriminate.
    apply (Hk _ _ (([LMap false] ++ ls) ++ ls')); [|apply Ca; [apply Ca; auto; apply Cp, plain_map|auto]].
    apply write_section; auto. cbn. rewrite L2. cbn. now rewrite <- !app_assoc.
Qed.

Lemma disc_cert : (forall o, op_certified o) /\ (forall p, cb_certified p).
Proof.
  apply rop_cbp_ind; unfold op_certified, cb_certified.
  - intros n g k O St H. cbn [op_c]. assert (Sf : strict = true -> gfree g) by (intros X; now apply St).
    apply rlock_reg_cert; auto. intros W q Wf K. apply mget_cert; [now apply (gread_ok g q [])|left; cbn; lia|].
    apply runlock_reg_cert; [now apply gread_ok|cbn; lia|reflexivity|]. eapply H; [now apply read_section|]. intros; repeat constructor.
  - intros n v g k O St H. cbn [op_c]. assert (Sf : strict = true -> gfree g) by (intros X; now apply St).
    apply lock_reg_cert; auto. intros F q Wf. assert (Ow : ok (gwrite q g)) by (destruct O; split; [split; auto|auto]).
    apply register_cert; try exact Wf; auto. intros ls P. destruct (bound _ n); [|intros _]; (apply unlock_reg_cert; auto; try discriminate; apply (H _ _ ls); [|intros _; now apply plain_free]; apply write_section; auto; exists []; cbn; now rewrite app_nil_r).
  - intros n v g k O St H. cbn [op_c]. refine (gor_cert (RGetOrRegister n v) n v (fun c => c) call_free plain_free call_free_app I _ g k O St _).
    + intros g0 c O0 A0 W0 H0. apply (H0 g0 []); auto; [now rewrite app_nil_r|exists []; now rewrite app_nil_r|constructor].
    + intros r g' ls E C. apply (H r g' ls E). auto.
  - intros n v mk IH g k O St H. cbn [op_c].
    refine (gor_cert (RGetOrRegisterFn n v mk) n v (fun c => do (AMake v) (fun _ => cb_c mk (new_c v c))) (fun ls => no_each_cb mk -> call_free ls) _ _ I _ g k O St _).
    + intros ls P _. now apply plain_free.
    + intros a b Ha Hb N. apply call_free_app; auto.
    + intros g0 c O0 A0 W0 H0. apply make_cert; auto. apply IH; [exact O0| |].
      * intros X. split; [now apply A0|]. left. destruct (St X) as (_ & _ & Po). now inversion Po.
      * intros g1 ls1 E1 C1. apply new_cert; [eapply ext_ok; eauto|rewrite (ex_A _ _ _ E1); exact A0|]. intros ls2 P2. destruct E1 as [R1 A1 P1 L1 [ms M1] Q1].
        apply (H0 _ (([LMade v] ++ ls1) ++ ls2)); cbn.
        -- exact R1.
        -- exact A1.
        -- exact P1.
        -- rewrite L1. cbn. now rewrite <- !app_assoc.
        -- exists ms. exact M1.
        -- rewrite Q1; [reflexivity|right; exact W0].
        -- intros N. constructor; [exact I|]. apply call_free_app; [auto|now apply plain_free].
    + intros r g' ls E C. apply (H r g' ls E). auto.
  - intros n g k O St H. cbn [op_c]. assert (Sf : strict = true -> gfree g) by (intros X; now apply St).
    apply lock_reg_cert; auto. intros F q Wf. assert (Ow : ok (gwrite q g)) by (destruct O; split; [split; auto|auto]).
    apply stop_delete_cert; auto; [intros X; apply (Sf X)|]. intros ls P. apply unlock_reg_cert; auto; try discriminate. apply (H _ _ ls); [|intros _; now apply plain_free]. apply write_section; auto; exists []; cbn; now rewrite app_nil_r.
  - intros ord g k O St H. cbn [op_c]. assert (Sf : strict = true -> gfree g) by (intros X; now apply St).
    apply lock_reg_cert; auto. intros F q Wf. assert (Ow : ok (gwrite q g)) by (destruct O; split; [split; auto|auto]).
    apply mrange_cert; auto; [right; reflexivity|]. apply stop_delete_all_cert; auto; [intros X; apply (Sf X)|]. intros ls P. apply unlock_reg_cert; auto; try discriminate.
    apply (H _ _ ([LMap false] ++ ls)); [|intros _; apply call_free_app; [repeat constructor|now apply plain_free]]. apply write_section; auto; [cbn; now rewrite <- app_assoc|exists []; cbn; now rewrite app_nil_r].
  - intros ord cb IH g k O St H. cbn [op_c]. assert (Sf : strict = true -> gfree g) by (intros X; now apply St).
    apply rlock_reg_cert; auto. intros W q Wf K. apply mrange_cert; [now apply (gread_ok g q [])|left; cbn; lia|]. apply collect_cert; [now apply gread_ok|left; cbn; lia|]. intros ls P. rewrite with_ls_app.
    apply runlock_reg_cert; [now apply gread_ok|cbn; lia|reflexivity|]. pose proof (read_section g q ([LMap false] ++ ls) O W K) as E1.
    apply callbacks_cert; [exact IH|eapply ext_ok; eauto| |].
    + intros X. split; [eapply ext_free; eauto|]. destruct (St X) as (_ & _ & Po). inversion Po; auto.
    + intros g2 ls2 E2 C2. eapply H; [eapply ext_trans; eauto|]. intros [].
  - intros ord chk IH g k O St H. cbn [op_c]. assert (Sf : strict = true -> gfree g) by (intros X; now apply St).
    apply rlock_reg_cert; auto. intros W q Wf K. apply mrange_cert; [now apply (gread_ok g q [])|left; cbn; lia|].
    apply checks_cert; [exact IH|now apply gread_ok|left; cbn; lia| |].
    + intros X. split; [apply (Sf X)|]. destruct (St X) as (_ & _ & Po). inversion Po; auto.
    + intros g2 ls2 E2 C2. assert (O2 : ok g2) by (eapply ext_ok; [exact E2|now apply gread_ok]). destruct E2 as [R2 A2 P2 L2 [ms M2] Q2].
      apply runlock_reg_cert; auto; [rewrite R2; cbn; lia|rewrite R2; reflexivity|].
      apply (H _ _ ([LMap false] ++ ls2)).
      * constructor; cbn.
        -- rewrite R2. cbn. destruct O as [[A1 _] _]. destruct (gR g); cbn in *; subst; f_equal; auto.
        -- exact A2.
        -- exact P2.
        -- rewrite L2. cbn. now rewrite <- app_assoc.
        -- exists ([fst q] ++ ms). rewrite M2. cbn. now rewrite <- app_assoc.
        -- intros Hm. rewrite Q2 by (left; cbn; lia). cbn. now apply K.
      * cbn [no_each]. intros N. apply call_free_app; [repeat constructor|auto].
  - intros v g k O St H. cbn [op_c]. apply new_cert; [exact O|intros X; exact (proj1 (St X))|]. intros ls P. apply (H _ _ ls); [apply ext_ls|intros _; now apply plain_free].
  - intros v g k O St H. cbn [op_c]. apply stop_cert; [exact O|intros X; exact (proj1 (St X))|]. intros ls P. apply (H _ _ ls); [apply ext_ls|intros _; now apply plain_free].
  - intros g k O St H. cbn [op_c]. apply tick_cert; [exact O|intros X; exact (proj1 (St X))|]. intros ls P. apply (H _ _ ls); [apply ext_ls|intros _; now apply plain_free].
  - intros g k O St H. apply (H g []); [apply ext_refl|constructor].
  - intros o IHo f IHf g k O St H. cbn [cb_c]. apply IHo; auto.
    + intros X. destruct (St X) as (A & [Of|[F Po]]).
      * inversion Of; subst. split; auto. split; [intros Y; contradiction|now apply off_polite].
      * inversion Po; subst. split; auto.
    + intros r g1 ls1 E1 C1. apply IHf; [eapply ext_ok; eauto| |].
      * intros X. rewrite (ex_A _ _ _ E1). destruct (St X) as (A & [Of|[F Po]]); (split; [exact A|]).
        -- left. inversion Of; auto.
        -- right. split; [eapply ext_free; eauto|]. inversion Po; auto.
      * intros g2 ls2 E2 C2. apply (H g2 (ls1 ++ ls2)); [eapply ext_trans; eauto|]. intros [N1 N2]. apply call_free_app; auto.
Qed.
End Disc.
