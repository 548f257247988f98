(** The EWMA as one object: each call takes effect at one instant, if no other Tick, Rate or
    Snapshot runs during a Tick.  A Tick takes effect when it reads the count. *)
From Coq Require Import ZArith List Lia Arith.
From Verif.Model Require Import GoInt GoFloat Conc Ewma.
From Verif.Spec Require Import Linearizability Traces EwmaSpec.
From Verif.Proofs Require Import IntFacts FloatFacts LinProofs PcProofs PcLin LogFacts EwmaSeq EwmaConc.
Import ListNotations.
Open Scope Z_scope.

Definition wstat (pc : wpc) : @tstat ewma_op ewma_ret :=
  match pc with
  | QUpd n => TPending (WUpdate n)
  | QEnd r => TDone r
  | QRate => TPending WRate
  | QSnap => TPending WSnapshot
  | Q0 | QFetch _ | QLock | QCheck | QInit | QIFetch => TPending WTick
  | _ => TDone WNone
  end.
(** the goroutine inside Tick *)
Definition focus (pcs : nat -> option wpc) (cur : option wpc) : Prop :=
  match cur with
  | None => forall t, tick_pc (pcs t) = false
  | Some pc => tick_pc (Some pc) = true /\ exists t0, pcs t0 = Some pc /\ forall t, t <> t0 -> tick_pc (pcs t) = false
  end.
Record avg_facts (alpha : f64) (s : ewma) (cur : option wpc) (q : list Z * Z) (d : list Z) : Prop := {
  af_unc : w_uncounted s = wrap64 (snd q + zsuml (in_take cur));
  af_pend : wrap64 (snd q) = snd q;
  af_done : fst q = d ++ in_take cur ++ in_store cur;
  af_alpha : w_alpha s = alpha;
  af_rate : w_rate s = float64bits (float_average alpha d);
  af_store : forall h n b, cur = Some (QStore h n b) -> b = float64bits (float_average alpha (d ++ [n]));
  af_past : past_init cur = true -> w_init s = true;
  af_qinit : cur = Some QInit -> w_init s = false;
  af_init : if initing cur then d = [] else w_init s = negb (match d with [] => true | _ => false end)
}.
Definition links (pcs : nat -> option wpc) (tr : list (event elabel ewma_op ewma_ret)) : Prop :=
  forall t, match pcs t with
            | None => open_call t tr = None
            | Some pc => exists op ls, open_call t tr = Some (op, ls) /\ (tick_pc (Some pc) = true -> op = WTick) /\ (pc = QRate -> op = WRate) /\ (pc = QSnap -> op = WSnapshot)
            end.
Definition avg_inv (alpha : f64) (s : ewma) (pcs : nat -> option wpc) (tr : list (event elabel ewma_op ewma_ret)) : Prop :=
  links pcs tr /\
  (ticks_apart tr -> exists l f q cur d, erase l = history tr /\ valid (average_apply alpha) ([], 0) (fun _ => TIdle) l q f /\
     (forall t, f t = tstat_of wstat (pcs t)) /\ focus pcs cur /\ avg_facts alpha s cur q d).
Lemma apart_prefix a b : ticks_apart (a ++ b) -> ticks_apart a.
Proof. intros H a' b' t u ls op ls' E. apply (H a' (b' ++ b)). now rewrite E, app_assoc. Qed.

(** one step inside Tick *)
Lemma tick_facts alpha s pc s' l q d : avg_facts alpha s (Some pc) q d -> wstep pc s s' l -> tick_pc (Some pc) = true ->
  let cur' := if tick_pc (Some (wnext pc s)) then Some (wnext pc s) else None in
  (match pc with QFetch _ | QIFetch => False | _ => True end -> exists d', avg_facts alpha s' cur' q d') /\
  (match pc with QFetch _ | QIFetch => True | _ => False end -> avg_facts alpha s' cur' (fst q ++ [snd q], 0) d).
Proof.
  intros [] St Tp cur'. split; intros P.
  - exists (match pc with QStore _ n _ | QIStore n => d ++ [n] | _ => d end). subst cur'.
    assert (SF : forall h n b, Some pc = Some (QStore h n b) -> b = float64bits (float_average alpha (d ++ [n]))) by (intros; eauto).
    assert (QI : pc = QInit -> w_init s = false) by (intros ->; auto).
    destruct St; try contradiction P; try discriminate Tp; cbn [wnext in_take in_store past_init initing zsuml fold_right app] in *.
    + destruct (w_init w) eqn:W; cbn [tick_pc prestore]; split; cbn [in_take in_store past_init initing zsuml fold_right app]; auto; try (intros; discriminate); intros; congruence.
    + cbn [tick_pc prestore]. split; cbn [in_take in_store past_init initing zsuml fold_right app set_uncounted w_uncounted w_rate w_init w_alpha]; auto; try (intros; discriminate).
      rewrite af_unc0, wrap64_add_l, wrap64_add_r. f_equal. lia.
    + cbn [tick_pc prestore]. split; cbn [in_take in_store past_init initing zsuml fold_right app]; auto; try (intros; discriminate).
      intros h' n' b' E. injection E as <- <- <-. specialize (af_past0 eq_refl). rewrite float_average_snoc; [now rewrite af_rate0, frombits_bits, af_alpha0|]. intros ->. cbn [negb] in af_init0. congruence.
    + specialize (af_past0 eq_refl). destruct h; cbn [tick_pc prestore]; split; cbn [in_take in_store past_init initing zsuml fold_right app set_rate w_uncounted w_rate w_init w_alpha]; rewrite ?app_nil_r; auto; try (intros; discriminate); try (eapply SF; reflexivity); rewrite af_past0; now destruct d.
    + cbn [tick_pc prestore]. split; cbn [in_take in_store past_init initing zsuml fold_right app set_mutex w_uncounted w_rate w_init w_alpha]; auto; try (intros; discriminate).
    + destruct (w_init w) eqn:W; cbn [tick_pc prestore]; split; cbn [in_take in_store past_init initing zsuml fold_right app]; auto; try (intros; discriminate); intros; congruence.
    + cbn [tick_pc prestore]. rewrite (QI eq_refl) in af_init0. split; cbn [in_take in_store past_init initing zsuml fold_right app set_init w_uncounted w_rate w_init w_alpha]; auto; try (intros; discriminate). now destruct d.
    + cbn [tick_pc prestore]. split; cbn [in_take in_store past_init initing zsuml fold_right app set_uncounted w_uncounted w_rate w_init w_alpha]; auto; try (intros; discriminate).
      rewrite af_unc0, wrap64_add_l, wrap64_add_r. f_equal. lia.
    + specialize (af_past0 eq_refl). subst d. cbn [tick_pc prestore]. split; cbn [in_take in_store past_init initing zsuml fold_right app set_rate w_uncounted w_rate w_init w_alpha]; auto; try (intros; discriminate).
    + specialize (af_past0 eq_refl). cbn [tick_pc prestore]. split; cbn [in_take in_store past_init initing zsuml fold_right app set_mutex w_uncounted w_rate w_init w_alpha]; auto; try (intros; discriminate).
  - subst cur'. assert (U : w_uncounted s = snd q). { rewrite af_unc0. destruct pc; try contradiction P; cbn [in_take zsuml fold_right]; now rewrite Z.add_0_r. }
    assert (I : wrap64 (snd q) = snd q) by exact af_pend0.
    destruct St; try contradiction P; cbn [wnext tick_pc prestore in_take in_store past_init initing] in *.
    + rewrite app_nil_r in af_done0. split; cbn [fst snd in_take in_store past_init initing zsuml fold_right app]; auto; try (intros; discriminate).
      * rewrite U. rewrite !Z.add_0_r. cbn. now rewrite I.
      * now rewrite U, af_done0.
    + rewrite app_nil_r in af_done0. split; cbn [fst snd in_take in_store past_init initing zsuml fold_right app]; auto; try (intros; discriminate).
      * rewrite U. rewrite !Z.add_0_r. cbn. now rewrite I.
      * now rewrite U, af_done0.
Qed.

Lemma focus_upd pcs cur t x y : focus pcs cur -> pcs t = x -> tick_pc x = false -> tick_pc y = false -> focus (pupd pcs t y) cur.
Proof.
  intros F E Hx Hy. destruct cur as [pc|]; cbn [focus] in *.
  - destruct F as (Tp & t0 & P0 & Ho). split; [exact Tp|]. exists t0. assert (N : t0 <> t) by (intros ->; congruence). rewrite pupd_other by exact N. split; [exact P0|]. intros u Hu. pcase u t; auto.
  - intros u. pcase u t; auto.
Qed.
Lemma links_at pcs tr t pc : links pcs tr -> pcs t = Some pc -> tick_pc (Some pc) = true -> exists ls, open_call t tr = Some (WTick, ls).
Proof. intros H E Tp. specialize (H t). rewrite E in H. destruct H as (op & ls & O & A & _). rewrite (A Tp) in O. eauto. Qed.
Lemma focus_none pcs cur tr t op ls : links pcs tr -> ticks_apart tr -> focus pcs cur -> open_call t tr = Some (op, ls) -> tick_pc (pcs t) = false -> (forall n, op <> WUpdate n) -> cur = None.
Proof.
  intros Lk Ap F O Tn Hop. destruct cur as [pc|]; [|reflexivity]. destruct F as (Tp & t0 & P0 & _). destruct (links_at _ _ _ _ Lk P0 Tp) as (ls0 & O0).
  assert (N : t0 <> t) by (intros ->; congruence). destruct (Ap tr [] t0 t ls0 op ls ltac:(now rewrite app_nil_r) N O0 O) as (n & E). now elim (Hop n).
Qed.
Lemma facts_cur alpha s cur cur' q d : avg_facts alpha s cur q d -> in_take cur' = in_take cur -> in_store cur' = in_store cur -> past_init cur' = past_init cur -> initing cur' = initing cur ->
  (forall pc, cur' = Some pc -> match pc with QStore _ _ _ | QInit => False | _ => True end) -> avg_facts alpha s cur' q d.
Proof.
  intros [] E1 E2 E3 E4 E5. split; rewrite ?E1, ?E2, ?E3, ?E4; auto; [intros h n b E|intros E]; now elim (E5 _ E).
Qed.

Lemma avg_exec alpha sched : pc_inv wcode (avg_inv alpha) (fst (wexec alpha sched)) (snd (wexec alpha sched)).
Proof.
  apply ewma_ind; unfold avg_inv.
  - split; [intros t; reflexivity|]. intros _. exists [], (fun _ => TIdle), ([], 0), None, []. split; [reflexivity|]. split; [constructor|]. split; [reflexivity|]. split; [intros t; reflexivity|].
    split; intros; try discriminate; reflexivity.
  - intros s pcs tr t op (Lk & IH) Ht.
    assert (Lk' : links (pupd pcs t (Some (wentry op))) (tr ++ [EInv t op])).
    { intros u. rewrite open_inv. pcase u t.
      - rewrite Nat.eqb_refl. exists op, []. split; [reflexivity|]. destruct op; cbn; repeat split; intros; try discriminate; reflexivity.
      - destruct (Nat.eqb_spec t u); [congruence|]. apply Lk. }
    split; [exact Lk'|]. intros Ap. destruct (IH (apart_prefix _ _ Ap)) as (l & f & q & cur & d & E & V & F & Fo & Fa).
    assert (Q : exists cur', focus (pupd pcs t (Some (wentry op))) cur' /\ avg_facts alpha s cur' q d).
    { destruct op as [n| | |].
      - exists cur. split; [|exact Fa]. eapply focus_upd; eauto.
      - assert (Cn : cur = None).
        { destruct cur as [pc|]; [|reflexivity]. destruct Fo as (Tp & t0 & P0 & _). destruct (links_at _ _ _ _ Lk P0 Tp) as (ls0 & O0). assert (N : t0 <> t) by (intros ->; congruence).
          destruct (Ap (tr ++ [EInv t WTick]) [] t0 t ls0 WTick []) as (n & X); [now rewrite app_nil_r|exact N| | |discriminate X].
          - rewrite open_inv. destruct (Nat.eqb_spec t t0); [congruence|exact O0].
          - rewrite open_inv, Nat.eqb_refl. reflexivity. }
        subst cur. exists (Some Q0). split; [|eapply facts_cur; eauto; intros pc X; injection X as <-; exact Logic.I].
        split; [reflexivity|]. exists t. split; [apply pupd_same|]. intros u Hu. rewrite pupd_other by exact Hu. apply Fo.
      - exists cur. split; [|exact Fa]. eapply focus_upd; eauto.
      - exists cur. split; [|exact Fa]. eapply focus_upd; eauto. }
    destruct Q as (cur' & Fo' & Fa'). exists (l ++ [XInv t op]), (tupd f t (TPending op)), q, cur', d. rewrite erase_app, history_app, E. split; [reflexivity|]. split; [apply valid_inv; [exact V|rewrite F, Ht; reflexivity]|].
    split; [|auto]. apply (tstat_upd wstat); [exact F|]. now destruct op.
  - intros s pcs tr t r (Lk & IH) Ht.
    assert (Lk' : links (pupd pcs t None) (tr ++ [ERes t r])).
    { intros u. rewrite open_res. pcase u t; [now rewrite Nat.eqb_refl|]. destruct (Nat.eqb_spec t u); [congruence|]. apply Lk. }
    split; [exact Lk'|]. intros Ap. destruct (IH (apart_prefix _ _ Ap)) as (l & f & q & cur & d & E & V & F & Fo & Fa).
    exists (l ++ [XRes t r]), (tupd f t TIdle), q, cur, d. rewrite erase_app, history_app, E. split; [reflexivity|]. split; [apply valid_res; [exact V|rewrite F, Ht; reflexivity]|].
    split; [|split; [eapply focus_upd; eauto|exact Fa]]. apply (tstat_upd wstat); [exact F|reflexivity].
  - intros s pcs tr t pc s' l0 (Lk & IH) Ht St.
    assert (Lk' : links (pupd pcs t (Some (wnext pc s))) (tr ++ map (EStep t) l0)).
    { intros u. rewrite open_steps. pcase u t.
      - rewrite Nat.eqb_refl. specialize (Lk t). rewrite Ht in Lk. destruct Lk as (op & ls & -> & A & B & C). exists op, (ls ++ l0). split; [reflexivity|]. split; [|split].
        + intros Tn. apply A. destruct St; cbn in Tn |- *; try reflexivity; discriminate Tn.
        + intros X. destruct St; cbn in X; try discriminate X; try (destruct (w_init w); discriminate X); destruct h; discriminate X.
        + intros X. destruct St; cbn in X; try discriminate X; try (destruct (w_init w); discriminate X); destruct h; discriminate X.
      - destruct (Nat.eqb_spec t u); [congruence|]. apply Lk. }
    split; [exact Lk'|]. intros Ap. pose proof (apart_prefix _ _ Ap) as Ap0. destruct (IH Ap0) as (l & f & q & cur & d & E & V & F & Fo & Fa). rewrite history_app, history_steps, app_nil_r.
    destruct (tick_pc (Some pc)) eqn:Tp.
    + assert (Cu : cur = Some pc /\ forall u, u <> t -> tick_pc (pcs u) = false).
      { destruct cur as [pc0|]; cbn [focus] in Fo; [|specialize (Fo t); congruence]. destruct Fo as (Tp0 & t0 & P0 & Ho). destruct (Nat.eq_dec t t0) as [<-|N]; [split; [congruence|exact Ho]|]. rewrite <- Ht, (Ho t N) in Tp. discriminate Tp. }
      destruct Cu as (-> & Ho). destruct (tick_facts alpha s pc s' l0 q d Fa St Tp) as (K1 & K2).
      assert (Fo' : focus (pupd pcs t (Some (wnext pc s))) (if tick_pc (Some (wnext pc s)) then Some (wnext pc s) else None)).
      { destruct (tick_pc (Some (wnext pc s))) eqn:Tn; cbn [focus].
        - split; [exact Tn|]. exists t. split; [apply pupd_same|]. intros u Hu. rewrite pupd_other by exact Hu. auto.
        - intros u. pcase u t; auto. }
      assert (Ks : (match pc with QFetch _ | QIFetch => False | _ => True end /\ wstat (wnext pc s) = wstat pc) \/ (match pc with QFetch _ | QIFetch => True | _ => False end /\ wstat pc = TPending WTick /\ wstat (wnext pc s) = TDone WNone)).
      { destruct pc; cbn in Tp; try discriminate Tp; cbn [wnext wstat]; auto; left; split; auto; try (destruct (w_init s); reflexivity); destruct h; reflexivity. }
      destruct Ks as [[Kp Ke]|(Kp & Ka & Kb)].
      * destruct (K1 Kp) as (d' & Fa'). exists l, f, q, (if tick_pc (Some (wnext pc s)) then Some (wnext pc s) else None), d'. split; [exact E|]. split; [exact V|]. split; [|split; [exact Fo'|exact Fa']]. apply (tstat_keep wstat); [exact F|]. rewrite Ht. exact Ke.
      * exists (l ++ [XLin t]), (tupd f t (TDone WNone)), (fst q ++ [snd q], 0), (if tick_pc (Some (wnext pc s)) then Some (wnext pc s) else None), d. rewrite erase_app. cbn [erase flat_map]. rewrite app_nil_r. split; [exact E|].
        split; [eapply valid_lin; [exact V|rewrite F, Ht; exact Ka|reflexivity]|]. split; [|split; [exact Fo'|exact (K2 Kp)]]. apply (tstat_upd wstat); [exact F|]. cbn. now rewrite Kb.
    + assert (Fo' : focus (pupd pcs t (Some (wnext pc s))) cur).
      { eapply focus_upd; eauto. destruct St; try discriminate Tp; reflexivity. }
      assert (Lo : exists op ls, open_call t tr = Some (op, ls) /\ (pc = QRate -> op = WRate) /\ (pc = QSnap -> op = WSnapshot)). { specialize (Lk t). rewrite Ht in Lk. destruct Lk as (op & ls & O & _ & B & C). eauto. }
      destruct Lo as (op0 & ls0 & O0 & B0 & C0).
      assert (Tt : tick_pc (pcs t) = false) by (rewrite Ht; exact Tp).
      destruct St as [n w|w|w|w|h w|h n w|h n w|h n b w|w Hm|w|w|w|n w|n w|w]; try discriminate Tp.
      * exists (l ++ [XLin t]), (tupd f t (TDone WNone)), (fst q, wrap64 (snd q + n)), cur, d. rewrite erase_app. cbn [erase flat_map]. rewrite app_nil_r. split; [exact E|].
        split; [eapply valid_lin; [exact V|rewrite F, Ht; reflexivity|reflexivity]|]. split; [apply (tstat_upd wstat); [exact F|reflexivity]|]. split; [exact Fo'|].
        destruct Fa. split; cbn [fst snd set_uncounted w_uncounted w_alpha w_rate w_init]; auto; [|apply wrap64_wrap64]. rewrite af_unc0, wrap64_add_l, wrap64_add_l. f_equal. lia.
      * assert (cur = None) as -> by (apply (focus_none pcs cur tr t op0 ls0); auto; rewrite (B0 eq_refl); intros ? X; discriminate X). destruct Fa. cbn [in_take in_store] in *. rewrite !app_nil_r in af_done0.
        exists (l ++ [XLin t]), (tupd f t (TDone (WVal (rate_of (w_rate w))))), q, None, d. rewrite erase_app. cbn [erase flat_map]. rewrite app_nil_r. split; [exact E|].
        split; [eapply valid_lin; [exact V|rewrite F, Ht; reflexivity|]|split; [apply (tstat_upd wstat); [exact F|reflexivity]|split; [exact Fo'|split; cbn [in_take in_store]; rewrite ?app_nil_r; auto]]].
        cbn [average_apply]. rewrite af_done0, af_rate0. unfold rate_of. now rewrite frombits_bits.
      * assert (cur = None) as -> by (apply (focus_none pcs cur tr t op0 ls0); auto; rewrite (C0 eq_refl); intros ? X; discriminate X). destruct Fa. cbn [in_take in_store] in *. rewrite !app_nil_r in af_done0.
        exists (l ++ [XLin t]), (tupd f t (TDone (WSnap (rate_of (w_rate w))))), q, None, d. rewrite erase_app. cbn [erase flat_map]. rewrite app_nil_r. split; [exact E|].
        split; [eapply valid_lin; [exact V|rewrite F, Ht; reflexivity|]|split; [apply (tstat_upd wstat); [exact F|reflexivity]|split; [exact Fo'|split; cbn [in_take in_store]; rewrite ?app_nil_r; auto]]].
        cbn [average_apply]. rewrite af_done0, af_rate0. unfold rate_of. now rewrite frombits_bits.
Qed.
Lemma ewma_linearizable alpha sched : ticks_apart (snd (wexec alpha sched)) -> linearizable (average_apply alpha) ([], 0) (history (snd (wexec alpha sched))).
Proof. intros H. destruct (avg_exec alpha sched) as (pcs & _ & _ & K). destruct (K H) as (l & f & q & cur & d & E & V & _). exists l, q, f. auto. Qed.

(** ** one goroutine ticks: what is read at any time *)
Definition gives (r : ewma_ret) (v : f64) : Prop := r = WVal v \/ r = WSnap v.
Record read_facts (alpha : f64) (t0 : nat) (pcs : nat -> option wpc) (tr : list (event elabel ewma_op ewma_ret)) : Prop := {
  rf_calls : calls_of t0 tr = map c_op (done_calls t0 tr) ++ match open_call t0 tr with Some (op, _) => [op] | None => [] end;
  rf_stores : (length (rate_stores (labels tr)) + b2n (prestore (pcs t0)))%nat = length (filter is_tick (calls_of t0 tr));
  rf_open : forall t r v, pcs t = Some (QEnd r) -> gives r v -> rate_during alpha t0 t (length (done_calls t tr)) tr v;
  rf_done : forall t j c v, nth_error (done_calls t tr) j = Some c -> gives (c_ret c) v -> rate_during alpha t0 t j tr v
}.
Definition read_inv (alpha : f64) (t0 : nat) (s : ewma) (pcs : nat -> option wpc) (tr : list (event elabel ewma_op ewma_ret)) : Prop :=
  inv_single alpha t0 s pcs tr /\ links pcs tr /\ (single_ticker t0 tr -> sane_feeds (labels tr) -> read_facts alpha t0 pcs tr).
Lemma during_app alpha t0 t j a b v : rate_during alpha t0 t j a v -> rate_during alpha t0 t j (a ++ b) v.
Proof. intros (a' & b' & k & op & ls & -> & H). exists a', (b' ++ b), k, op, ls. split; [now rewrite app_assoc|exact H]. Qed.
Lemma links_call pcs tr t op : links pcs tr -> links (pupd pcs t (Some (wentry op))) (tr ++ [EInv t op]).
Proof.
  intros Lk u. rewrite open_inv. pcase u t.
  - rewrite Nat.eqb_refl. exists op, []. split; [reflexivity|]. destruct op; cbn; repeat split; intros; try discriminate; reflexivity.
  - destruct (Nat.eqb_spec t u); [congruence|]. apply Lk.
Qed.
Lemma links_ret pcs tr t r : links pcs tr -> links (pupd pcs t None) (tr ++ [ERes t r]).
Proof. intros Lk u. rewrite open_res. pcase u t; [now rewrite Nat.eqb_refl|]. destruct (Nat.eqb_spec t u); [congruence|]. apply Lk. Qed.
Lemma links_step pcs tr t pc s s' l0 : links pcs tr -> pcs t = Some pc -> wstep pc s s' l0 -> links (pupd pcs t (Some (wnext pc s))) (tr ++ map (EStep t) l0).
Proof.
  intros Lk Ht St u. rewrite open_steps. pcase u t.
  - rewrite Nat.eqb_refl. specialize (Lk t). rewrite Ht in Lk. destruct Lk as (op & ls & -> & A & B & C). exists op, (ls ++ l0). split; [reflexivity|]. split; [|split].
    + intros Tn. apply A. destruct St; cbn in Tn |- *; try reflexivity; discriminate Tn.
    + intros X. destruct St; cbn in X; try discriminate X; try (destruct (w_init w); discriminate X); destruct h; discriminate X.
    + intros X. destruct St; cbn in X; try discriminate X; try (destruct (w_init w); discriminate X); destruct h; discriminate X.
  - destruct (Nat.eqb_spec t u); [congruence|]. apply Lk.
Qed.
Lemma pre_tick o : prestore o = true -> tick_pc o = true.
Proof. destruct o as [[]|]; cbn; auto. Qed.
(** a read now *)
Lemma read_now alpha t0 s pcs tr t pc op ls : inv_single alpha t0 s pcs tr -> links pcs tr -> single_ticker t0 tr -> sane_feeds (labels tr) -> read_facts alpha t0 pcs tr ->
  pcs t = Some pc -> open_call t tr = Some (op, ls) -> rate_during alpha t0 t (length (done_calls t tr)) tr (rate_of (w_rate s)).
Proof.
  intros Is Lk Sg Sn Rf Ht O. destruct (Is Sg Sn) as (done & []). destruct Rf. exists tr, [], (length done), op, ls. split; [now rewrite app_nil_r|]. split; [reflexivity|]. split; [exact O|]. rewrite sf_tk.
  split; [rewrite firstn_app, firstn_all, Nat.sub_diag; cbn [firstn]; rewrite app_nil_r, sf_rate; unfold rate_of; now rewrite frombits_bits|]. split; [rewrite app_length; lia|].
  rewrite sf_len in rf_stores0. assert (K : length (filter is_tick (calls_of t0 tr)) = (length (filter is_tick (map c_op (done_calls t0 tr))) + length (filter is_tick match open_call t0 tr with Some (op, _) => [op] | None => [] end))%nat) by (rewrite rf_calls0 at 1; now rewrite filter_app, app_length).
  destruct (prestore (pcs t0)) eqn:P; cbn [b2n] in rf_stores0.
  - destruct (pcs t0) as [pc0|] eqn:P0; [|discriminate P]. destruct (links_at _ _ _ _ Lk P0 (pre_tick _ P)) as (ls0 & O0). rewrite O0 in K. cbn [filter is_tick length] in K. lia.
  - lia.
Qed.
Lemma read_exec alpha t0 sched : pc_inv wcode (read_inv alpha t0) (fst (wexec alpha sched)) (snd (wexec alpha sched)).
Proof.
  apply ewma_ind; unfold read_inv.
  - split; [apply inv_single_start|]. split; [intros t; reflexivity|]. intros _ _. split; try reflexivity; [intros; discriminate|]. intros t [|j] c v H; discriminate H.
  - intros s pcs tr t op (Is & Lk & IH) Ht. split; [now apply inv_single_call|]. split; [now apply links_call|]. intros Sg Sn. rewrite labels_app in *. cbn [labels flat_map] in *. rewrite app_nil_r in Sn.
    pose proof (single_prefix _ _ _ Sg) as Sg0. destruct (IH Sg0 Sn) as []. assert (Ot : open_call t tr = None) by (pose proof (Lk t) as H; now rewrite Ht in H).
    split.
    + rewrite calls_of_app, done_inv, open_inv, rf_calls0. cbn [calls_of flat_map]. destruct (Nat.eqb_spec t t0) as [->|N]; cbn [app]; [rewrite Ot; now rewrite app_nil_r|now rewrite app_nil_r].
    + rewrite labels_app. cbn [labels flat_map]. rewrite app_nil_r, calls_of_app. cbn [calls_of flat_map]. rewrite filter_app, app_length, <- rf_stores0. destruct (Nat.eqb_spec t t0) as [->|N].
      * rewrite pupd_same, Ht. destruct op; cbn; lia.
      * rewrite pupd_other by congruence. cbn. lia.
    + intros u r v. rewrite done_inv. pcase u t; [destruct op; discriminate|]. intros Hu Hv. apply during_app. eauto.
    + intros u j c v. rewrite done_inv. intros Hu Hv. apply during_app. eauto.
  - intros s pcs tr t r (Is & Lk & IH) Ht. split; [now apply inv_single_ret|]. split; [now apply links_ret|]. intros Sg Sn. rewrite labels_app in *. cbn [labels flat_map] in *. rewrite app_nil_r in Sn.
    pose proof (single_prefix _ _ _ Sg) as Sg0. destruct (IH Sg0 Sn) as []. assert (Ot : exists op ls, open_call t tr = Some (op, ls)) by (pose proof (Lk t) as H; rewrite Ht in H; destruct H as (op & ls & H & _); eauto). destruct Ot as (op & ls & Ot).
    split.
    + rewrite calls_of_app, done_res, open_res, rf_calls0. cbn [calls_of flat_map]. rewrite app_nil_r. destruct (Nat.eqb_spec t t0) as [->|N]; [|reflexivity]. rewrite Ot, map_app, app_nil_r. reflexivity.
    + rewrite labels_app. cbn [labels flat_map]. rewrite app_nil_r, calls_of_app. cbn [calls_of flat_map]. rewrite app_nil_r, <- rf_stores0. destruct (Nat.eq_dec t0 t) as [->|N]; [rewrite pupd_same, Ht; reflexivity|now rewrite pupd_other].
    + intros u r' v. rewrite done_res. pcase u t; [discriminate|]. destruct (Nat.eqb_spec t u); [congruence|]. intros Hu Hv. apply during_app. eauto.
    + intros u j c v. rewrite done_res. destruct (Nat.eqb_spec t u) as [<-|N]; [|intros; apply during_app; eauto]. rewrite Ot. intros Hj Hv. apply during_app.
      destruct (Nat.lt_ge_cases j (length (done_calls t tr))) as [Lt|Ge]; [rewrite nth_error_app1 in Hj by exact Lt; eauto|]. rewrite nth_error_app2 in Hj by exact Ge.
      destruct (j - length (done_calls t tr))%nat as [|m] eqn:D; cbn in Hj; [|destruct m; discriminate Hj]. injection Hj as <-. cbn [c_ret] in Hv. replace j with (length (done_calls t tr)) by lia. eauto.
  - intros s pcs tr t pc s' l0 (Is & Lk & IH) Ht St. split; [now apply (inv_single_step alpha t0 s)|]. split; [now apply (links_step pcs tr t pc s s')|]. intros Sg Sn. rewrite labels_app, labels_steps in *.
    pose proof (single_prefix _ _ _ Sg) as Sg0. pose proof (sane_prefix _ _ Sn) as Sn0. pose proof (IH Sg0 Sn0) as Rf. assert (Ot : exists op ls, open_call t tr = Some (op, ls)) by (pose proof (Lk t) as H; rewrite Ht in H; destruct H as (op & ls & H & _); eauto). destruct Ot as (op & ls & Ot).
    pose proof (read_now alpha t0 s pcs tr t pc op ls Is Lk Sg0 Sn0 Rf Ht Ot) as Now. destruct (Is Sg0 Sn0) as (done & Sf). pose proof (sf_others _ _ _ _ _ _ Sf) as Ho. destruct Rf. split.
    + rewrite calls_of_app, calls_of_steps, app_nil_r, done_steps, open_steps, rf_calls0. destruct (Nat.eqb_spec t t0) as [->|N]; [|reflexivity]. now rewrite Ot.
    + rewrite labels_app, labels_steps, rate_stores_app, app_length, calls_of_app, calls_of_steps, app_nil_r, <- rf_stores0. destruct (Nat.eq_dec t0 t) as [->|N].
      * rewrite pupd_same, Ht. destruct St; cbn; try lia; try (destruct (w_init w); cbn; lia); destruct h; cbn; lia.
      * rewrite pupd_other by exact N. assert (Tp : tick_pc (Some pc) = false) by (rewrite <- Ht; apply Ho; congruence). destruct St; try discriminate Tp; cbn; lia.
    + intros u r v. rewrite done_steps. pcase u t; [|intros Hu Hv; apply during_app; eauto]. intros Hu Hv. apply during_app.
      assert (V : v = rate_of (w_rate s)). { destruct St; cbn in Hu; try discriminate Hu; try (destruct (w_init w); discriminate Hu); try (destruct h; try discriminate Hu); injection Hu as <-; destruct Hv as [Hv|Hv]; try discriminate Hv; now injection Hv as <-. }
      now rewrite V.
    + intros u j c v. rewrite done_steps. intros Hu Hv. apply during_app. eauto.
Qed.
Lemma rates_during alpha t0 sched t j c v : let tr := snd (wexec alpha sched) in single_ticker t0 tr -> sane_feeds (labels tr) ->
  nth_error (done_calls t tr) j = Some c -> c_ret c = WVal v \/ c_ret c = WSnap v -> rate_during alpha t0 t j tr v.
Proof. intros tr Sg Sn Hj Hv. destruct (read_exec alpha t0 sched) as (pcs & _ & _ & _ & K). destruct (K Sg Sn). eauto. Qed.
