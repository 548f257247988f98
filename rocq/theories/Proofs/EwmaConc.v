(** The EWMA machine: program points and invariants. *)
From Coq Require Import ZArith List Lia Arith.
From Verif.Model Require Import GoInt GoFloat Conc Ewma.
From Verif.Spec Require Import Traces EwmaSpec.
From Verif.Proofs Require Import IntFacts FloatFacts LinProofs PcProofs EwmaSeq.
Import ListNotations.
Open Scope Z_scope.

Inductive wpc :=
| QUpd (n : Z) | QEnd (r : ewma_ret) | QRate | QSnap
| Q0 | QFetch (h : bool) | QTake (h : bool) (n : Z) | QUp (h : bool) (n : Z) | QStore (h : bool) (n : Z) (b : Z)
| QLock | QCheck | QInit | QIFetch | QITake (n : Z) | QIStore (n : Z) | QUnlock.

Notation get := (fun w : ewma => w) (only parsing).
Notation set := (fun (_ w : ewma) => w) (only parsing).
Notation em := (fun l : elabel => [l]) (only parsing).

Definition wtail (h : bool) : code ewma elabel ewma_ret :=
  if h then eunlock get set em (Ret WNone) else Ret WNone.
Definition wstore_c (h : bool) (b : Z) : code ewma elabel ewma_ret :=
  eact get set em (fun w' => set_rate b w') (fun _ => [ERateUpd b]) (fun _ => wtail h).
Definition wtake_c (n : Z) (k : code ewma elabel ewma_ret) : code ewma elabel ewma_ret :=
  eact get set em (fun w => set_uncounted (wrap64 (w_uncounted w + wrap64 (- n))) w) (fun _ => [ETaken n]) (fun _ => k).
Definition wistore_c (n : Z) : code ewma elabel ewma_ret :=
  eact get set em (set_rate (float64bits (instant_rate n))) (fun _ => [ERateInit (float64bits (instant_rate n))]) (fun _ => wtail true).
Definition wifetch_c : code ewma elabel ewma_ret :=
  fetch_c get set em (fun ir => eact get set em (set_rate (float64bits ir)) (fun _ => [ERateInit (float64bits ir)]) (fun _ => wtail true)).
Definition winit_c : code ewma elabel ewma_ret := eact get set em set_init (fun _ => [EInitSet]) (fun _ => wifetch_c).
Definition wfetch_c (h : bool) : code ewma elabel ewma_ret := fetch_c get set em (fun ir => update_rate_c get set em ir (wtail h)).
Definition wcheck_c : code ewma elabel ewma_ret := eload get (fun w' => if w_init w' then wfetch_c true else winit_c).

Definition wcode (pc : wpc) : code ewma elabel ewma_ret :=
  match pc with
  | QUpd n => ewma_body (WUpdate n)
  | QEnd r => Ret r
  | QRate => ewma_body WRate
  | QSnap => ewma_body WSnapshot
  | Q0 => ewma_body WTick
  | QFetch h => wfetch_c h
  | QTake h n => wtake_c n (update_rate_c get set em (instant_rate n) (wtail h))
  | QUp h n => update_rate_c get set em (instant_rate n) (wtail h)
  | QStore h n b => wstore_c h b
  | QLock => elock get set em wcheck_c
  | QCheck => wcheck_c
  | QInit => winit_c
  | QIFetch => wifetch_c
  | QITake n => wtake_c n (wistore_c n)
  | QIStore n => wistore_c n
  | QUnlock => wtail true
  end.

Definition wentry (op : ewma_op) : wpc :=
  match op with WUpdate n => QUpd n | WTick => Q0 | WRate => QRate | WSnapshot => QSnap end.

Definition wnext (pc : wpc) (w : ewma) : wpc :=
  match pc with
  | QUpd _ => QEnd WNone
  | QEnd r => QEnd r
  | QRate => QEnd (WVal (rate_of (w_rate w)))
  | QSnap => QEnd (WSnap (rate_of (w_rate w)))
  | Q0 => if w_init w then QFetch false else QLock
  | QFetch h => QTake h (w_uncounted w)
  | QTake h n => QUp h n
  | QUp h n => QStore h n (float64bits (recur (w_alpha w) (float64frombits (w_rate w)) (instant_rate n)))
  | QStore h _ _ => if h then QUnlock else QEnd WNone
  | QLock => QCheck
  | QCheck => if w_init w then QFetch true else QInit
  | QInit => QIFetch
  | QIFetch => QITake (w_uncounted w)
  | QITake n => QIStore n
  | QIStore n => QUnlock
  | QUnlock => QEnd WNone
  end.

Lemma wentry_ok op : ewma_body op = wcode (wentry op).
Proof. destruct op; reflexivity. Qed.
Lemma wnext_ok pc e u l k s : wcode pc = Atom e u l k -> e s = true -> k s = wcode (wnext pc s).
Proof.
  destruct pc as [n|r| | | |h|h n|h n|h n b| | | | |n|n|]; cbn; try (destruct h; cbn);
    intros E _; inversion E; subst; cbn; try reflexivity; destruct (w_init s); reflexivity.
Qed.

(** the effect of a step *)
Inductive wstep : wpc -> ewma -> ewma -> list elabel -> Prop :=
| ws_upd n w : wstep (QUpd n) w (set_uncounted (wrap64 (w_uncounted w + n)) w) [EFed n]
| ws_rate w : wstep QRate w w []
| ws_snap w : wstep QSnap w w []
| ws_0 w : wstep Q0 w w []
| ws_fetch h w : wstep (QFetch h) w w [ELoaded (w_uncounted w)]
| ws_take h n w : wstep (QTake h n) w (set_uncounted (wrap64 (w_uncounted w + wrap64 (- n))) w) [ETaken n]
| ws_up h n w : wstep (QUp h n) w w []
| ws_store h n b w : wstep (QStore h n b) w (set_rate b w) [ERateUpd b]
| ws_lock w : w_mutex w = false -> wstep QLock w (set_mutex true w) [EAcquired]
| ws_check w : wstep QCheck w w []
| ws_init w : wstep QInit w (set_init w) [EInitSet]
| ws_ifetch w : wstep QIFetch w w [ELoaded (w_uncounted w)]
| ws_itake n w : wstep (QITake n) w (set_uncounted (wrap64 (w_uncounted w + wrap64 (- n))) w) [ETaken n]
| ws_istore n w : wstep (QIStore n) w (set_rate (float64bits (instant_rate n)) w) [ERateInit (float64bits (instant_rate n))]
| ws_unlock w : wstep QUnlock w (set_mutex false w) [EReleased].

Lemma wstep_ok pc e u l k s : wcode pc = Atom e u l k -> e s = true -> wstep pc s (u s) (l s).
Proof.
  destruct pc as [n|r| | | |h|h n|h n|h n b| | | | |n|n|]; cbn; try (destruct h; cbn);
    intro E; inversion E; subst; cbn; intros; try constructor.
  now apply Bool.negb_true_iff.
Qed.

(** induction over EWMA executions *)
Section Ind.
Variable alpha : f64.
Variable inv : ewma -> (nat -> option wpc) -> list (event elabel ewma_op ewma_ret) -> Prop.
Lemma ewma_ind : inv (NewEWMA alpha) (fun _ => None) [] ->
  (forall s pcs tr t op, inv s pcs tr -> pcs t = None -> inv s (pupd pcs t (Some (wentry op))) (tr ++ [EInv t op])) ->
  (forall s pcs tr t r, inv s pcs tr -> pcs t = Some (QEnd r) -> inv s (pupd pcs t None) (tr ++ [ERes t r])) ->
  (forall s pcs tr t pc s' l, inv s pcs tr -> pcs t = Some pc -> wstep pc s s' l ->
     inv s' (pupd pcs t (Some (wnext pc s))) (tr ++ map (EStep t) l)) ->
  forall sched, pc_inv wcode inv (fst (cexec ewma_body (NewEWMA alpha) sched)) (snd (cexec ewma_body (NewEWMA alpha) sched)).
Proof.
  intros H0 Hc Hr Hs. apply (pc_induction ewma_body (NewEWMA alpha) wcode wentry wnext wentry_ok wnext_ok inv H0 Hc).
  - intros s pcs tr t pc r Hi Ht Ec. destruct pc as [n|r'| | | |h|h n|h n|h n b| | | | |n|n|]; try discriminate Ec; try (destruct h; discriminate Ec).
    injection Ec as ->. now apply Hr.
  - intros s pcs tr t pc e u l k Hi Ht Ec En. apply (Hs s); trivial. eapply wstep_ok; eassumption.
Qed.
End Ind.

Notation wexec alpha sched := (cexec ewma_body (NewEWMA alpha) sched).

(** ** conservation *)
Lemma fed_app a b : fed (a ++ b) = fed a + fed b.
Proof. unfold fed. induction a as [|x a IH]; [reflexivity|]. cbn [app fold_right]. rewrite IH. destruct x; lia. Qed.
Lemma takens_app a b : takens (a ++ b) = takens a ++ takens b.
Proof. apply flat_map_app. Qed.
Lemma zsuml_app a b : zsuml (a ++ b) = zsuml a + zsuml b.
Proof. unfold zsuml. induction a as [|x a IH]; [reflexivity|]. cbn [app fold_right]. rewrite IH. lia. Qed.

Definition inv_sum (s : ewma) (pcs : nat -> option wpc) (tr : list (event elabel ewma_op ewma_ret)) : Prop :=
  is_int64 (w_uncounted s) /\ wrap64 (fed (labels tr)) = wrap64 (zsuml (takens (labels tr)) + w_uncounted s).

Lemma inv_sum_exec alpha sched : pc_inv wcode inv_sum (fst (wexec alpha sched)) (snd (wexec alpha sched)).
Proof.
  apply ewma_ind; unfold inv_sum.
  - split; [exact (wrap64_range 0)|reflexivity].
  - intros s pcs tr t op H _. rewrite labels_app. cbn. now rewrite app_nil_r.
  - intros s pcs tr t r H _. rewrite labels_app. cbn. now rewrite app_nil_r.
  - intros s pcs tr t pc s' l [Hi H] _ St. rewrite labels_app, labels_steps, fed_app, takens_app, zsuml_app.
    destruct St; cbn [w_uncounted set_uncounted set_rate set_mutex set_init takens flat_map fed fold_right zsuml app];
      rewrite ?Z.add_0_r; try (split; [exact Hi|exact H]); (split; [apply wrap64_range|]).
    + rewrite <- wrap64_add_l, H, wrap64_add_l, wrap64_add_r. f_equal. lia.
    + rewrite wrap64_add_r. rewrite H. rewrite <- (wrap64_add_r (w_uncounted w)) || idtac.
      replace (zsuml (takens (labels tr)) + n + (w_uncounted w + wrap64 (- n)))
        with ((zsuml (takens (labels tr)) + n + w_uncounted w) + wrap64 (- n)) by lia.
      rewrite wrap64_add_r. f_equal. lia.
    + rewrite wrap64_add_r. rewrite H.
      replace (zsuml (takens (labels tr)) + n + (w_uncounted w + wrap64 (- n)))
        with ((zsuml (takens (labels tr)) + n + w_uncounted w) + wrap64 (- n)) by lia.
      rewrite wrap64_add_r. f_equal. lia.
Qed.

Lemma conserved alpha sched :
  let '(c, tr) := wexec alpha sched in
  wrap64 (fed (labels tr)) = wrap64 (zsuml (takens (labels tr)) + w_uncounted (sh c)).
Proof.
  destruct (inv_sum_exec alpha sched) as (pcs & _ & _ & H). destruct (wexec alpha sched) as [c tr]. exact H.
Qed.

(** ** mutual exclusion and initialisation *)
Definition holds (o : option wpc) : bool :=
  match o with
  | Some (QFetch h) | Some (QTake h _) | Some (QUp h _) | Some (QStore h _ _) => h
  | Some QCheck | Some QInit | Some QIFetch | Some (QITake _) | Some (QIStore _) | Some QUnlock => true
  | _ => false
  end.
Definition initing (o : option wpc) : bool :=
  match o with Some QIFetch | Some (QITake _) | Some (QIStore _) => true | _ => false end.
Definition past_init (o : option wpc) : bool :=
  match o with
  | Some (QFetch _) | Some (QTake _ _) | Some (QUp _ _) | Some (QStore _ _ _) | Some QUnlock => true
  | o => initing o end.
(** tick pcs before the rate is stored *)
Definition prestore (o : option wpc) : bool :=
  match o with
  | Some (QFetch _) | Some (QTake _ _) | Some (QUp _ _) | Some (QStore _ _ _)
  | Some Q0 | Some QLock | Some QCheck | Some QInit | Some QIFetch | Some (QITake _) | Some (QIStore _) => true
  | _ => false end.
Definition b2n (b : bool) : nat := if b then 1%nat else 0%nat.

Record inv_mutex (s : ewma) (pcs : nat -> option wpc) (tr : list (event elabel ewma_op ewma_ret)) : Prop := {
  im_uniq : forall t u, holds (pcs t) = true -> holds (pcs u) = true -> t = u;
  im_free : w_mutex s = false -> forall t, holds (pcs t) = false;
  im_taken : w_mutex s = true -> exists t, holds (pcs t) = true;
  im_past : forall t, past_init (pcs t) = true -> w_init s = true;
  im_init : forall t, pcs t = Some QInit -> w_init s = false;
  im_count : nlabels is_init (labels tr) = b2n (w_init s);
  im_rate0 : (forall t, initing (pcs t) = false) -> nlabels is_rate_init (labels tr) = b2n (w_init s);
  im_rate1 : forall t, initing (pcs t) = true -> nlabels is_rate_init (labels tr) = 0%nat;
  im_sect : forall t, in_section (labels_of t tr) = holds (pcs t);
  im_stores : forall t, length (filter is_tick (calls_of t tr)) =
                (nlabels is_rate_store (labels_of t tr) + b2n (prestore (pcs t)))%nat;
}.

Lemma nlabels_app p a b : nlabels p (a ++ b) = (nlabels p a + nlabels p b)%nat.
Proof. unfold nlabels. now rewrite filter_app, app_length. Qed.
Lemma in_section_snoc a l : in_section (a ++ [l]) = match l with EAcquired => true | EReleased => false | _ => in_section a end.
Proof. unfold in_section. now rewrite fold_left_app. Qed.

Lemma initing_holds o : initing o = true -> holds o = true.
Proof. now destruct o as [[]|]. Qed.

Lemma pupd_cases {A} (P : A -> Prop) f t x u : (u = t -> P x) -> (u <> t -> P (f u)) -> P (pupd f t x u).
Proof. intros H1 H2. destruct (Nat.eq_dec u t) as [->|N]; [rewrite pupd_same|rewrite pupd_other by exact N]; auto. Qed.

Ltac pcase u t := destruct (Nat.eq_dec u t) as [->|?N];
  [rewrite ?pupd_same in *|rewrite ?(pupd_other _ _ _ u) in * by assumption].

Lemma inv_mutex_exec alpha sched : pc_inv wcode inv_mutex (fst (wexec alpha sched)) (snd (wexec alpha sched)).
Proof.
  apply ewma_ind.
  - split; cbn; intros; try discriminate; auto.
  - intros s pcs tr t op [] Ht.
    assert (Hh : forall u, holds (pupd pcs t (Some (wentry op)) u) = holds (pcs u)).
    { intro u. pcase u t; [|reflexivity]. rewrite Ht. now destruct op. }
    assert (Hg : forall u, initing (pupd pcs t (Some (wentry op)) u) = initing (pcs u)).
    { intro u. pcase u t; [|reflexivity]. rewrite Ht. now destruct op. }
    assert (Hp : forall u, past_init (pupd pcs t (Some (wentry op)) u) = past_init (pcs u)).
    { intro u. pcase u t; [|reflexivity]. rewrite Ht. now destruct op. }
    split; rewrite ?labels_app; cbn [labels flat_map]; rewrite ?app_nil_r; try assumption.
    + intros u v. rewrite !Hh. auto.
    + intros H u. rewrite Hh. auto.
    + intro H. destruct (im_taken0 H) as [u Hu]. exists u. now rewrite Hh.
    + intro u. rewrite Hp. eauto.
    + intro u. pcase u t; [now destruct op|eauto].
    + intro H. apply im_rate2. intro u. now rewrite <- Hg.
    + intro u. rewrite Hg. eauto.
    + intro u. rewrite Hh, labels_of_app. cbn. now rewrite app_nil_r.
    + intro u. rewrite labels_of_app, calls_of_app. cbn [labels_of flat_map]. rewrite app_nil_r, filter_app, app_length, im_stores0.
      cbn [calls_of flat_map]. pcase u t.
      * rewrite Nat.eqb_refl, Ht. destruct op; simpl; lia.
      * destruct (Nat.eqb_spec t u); [congruence|]. simpl. lia.
  - intros s pcs tr t r [] Ht.
    assert (Hh : forall u, holds (pupd pcs t None u) = holds (pcs u)) by (intro u; pcase u t; [now rewrite Ht|reflexivity]).
    assert (Hg : forall u, initing (pupd pcs t None u) = initing (pcs u)) by (intro u; pcase u t; [now rewrite Ht|reflexivity]).
    assert (Hp : forall u, past_init (pupd pcs t None u) = past_init (pcs u)) by (intro u; pcase u t; [now rewrite Ht|reflexivity]).
    assert (Hs : forall u, prestore (pupd pcs t None u) = prestore (pcs u)) by (intro u; pcase u t; [now rewrite Ht|reflexivity]).
    split; rewrite ?labels_app; cbn [labels flat_map]; rewrite ?app_nil_r; try assumption.
    + intros u v. rewrite !Hh. auto.
    + intros H u. rewrite Hh. auto.
    + intro H. destruct (im_taken0 H) as [u Hu]. exists u. now rewrite Hh.
    + intro u. rewrite Hp. eauto.
    + intro u. pcase u t; [discriminate|eauto].
    + intro H. apply im_rate2. intro u. now rewrite <- Hg.
    + intro u. rewrite Hg. eauto.
    + intro u. rewrite Hh, labels_of_app. cbn. now rewrite app_nil_r.
    + intro u. rewrite labels_of_app, calls_of_app. cbn. rewrite !app_nil_r, Hs. auto.
  - intros s pcs tr t pc s' l [] Ht St.
    assert (Ph : holds (pcs t) = holds (Some pc)) by now rewrite Ht.
    assert (Pp := im_past0 t). assert (Pi := im_init0 t). assert (Pr := im_rate3 t). rewrite Ht in Pp, Pi, Pr.
    assert (X : forall u, u <> t -> holds (Some pc) = true -> holds (pcs u) = false).
    { intros u N H. destruct (holds (pcs u)) eqn:E; [|reflexivity]. elim N. apply im_uniq0; congruence. }
    split.
    + intros u v. pcase u t; pcase v t; auto; intros Hu Hv.
      * destruct St; cbn in Hu; try (destruct (w_init w)); try discriminate; try (symmetry; apply im_uniq0; [assumption|now rewrite Ph]).
        all: try (rewrite im_free0 in Hv by assumption; discriminate).
        all: destruct h; try discriminate; symmetry; apply im_uniq0; [assumption|now rewrite Ph].
      * destruct St; cbn in Hv; try (destruct (w_init w)); try discriminate; try (apply im_uniq0; [assumption|now rewrite Ph]).
        all: try (rewrite im_free0 in Hu by assumption; discriminate).
        all: destruct h; try discriminate; apply im_uniq0; [assumption|now rewrite Ph].
    + intros H u. destruct St; cbn in H; try discriminate; pcase u t; cbn; try (destruct (w_init w)); auto;
        try (rewrite im_free0 in Ph by assumption; cbn in Ph; congruence).
      all: try (apply X; [assumption|reflexivity]).
      all: rewrite im_free0 in Ph by assumption; cbn in Ph; subst; reflexivity.
    + intros H. destruct St; cbn in H; try discriminate; try (exists t; rewrite pupd_same; cbn; try (destruct (w_init w)); reflexivity);
        destruct (im_taken0 H) as [u Hu]; exists u; pcase u t; try exact Hu; rewrite Ph in Hu; cbn in *; try (destruct (w_init w)); try discriminate; try reflexivity; try exact Hu.
      all: rewrite Hu; reflexivity.
    + intros u. pcase u t.
      * destruct St; cbn in *; auto; try (destruct (w_init w) eqn:?; cbn; intros; auto; discriminate).
      * intro H. specialize (im_past0 u H). destruct St; cbn in *; auto.
    + intros u. pcase u t.
      * destruct St; cbn in *; intro HH; try discriminate; try (destruct (w_init w) eqn:?; cbn; auto; discriminate);
          try (destruct h; discriminate).
      * intro H. specialize (im_init0 u H). destruct St; cbn in *; auto.
        specialize (X u N eq_refl). rewrite H in X. discriminate X.
    + rewrite labels_app, labels_steps, nlabels_app, im_count0. destruct St; cbn in *; try lia.
      rewrite (Pi eq_refl). reflexivity.
    + intro H. rewrite labels_app, labels_steps, nlabels_app.
      assert (H' : forall u, u <> t -> initing (pcs u) = false).
      { intros u N. specialize (H u). now rewrite pupd_other in H by exact N. }
      pose proof (H t) as Hn. rewrite pupd_same in Hn.
      destruct (initing (Some pc)) eqn:Ei.
      * rewrite Pr by exact eq_refl. destruct St; try discriminate Ei; try discriminate Hn.
        cbn. rewrite Pp by reflexivity. reflexivity.
      * rewrite im_rate2. 2:{ intro u. destruct (Nat.eq_dec u t) as [->|N]; [now rewrite Ht|auto]. }
        destruct St; try discriminate Ei; try discriminate Hn; cbn; lia.
    + intro u. rewrite labels_app, labels_steps, nlabels_app. pcase u t.
      * intro H. destruct St; try discriminate H; cbn in H; try (destruct (w_init w); discriminate H); try (destruct h; discriminate H).
        -- rewrite im_rate2; [now rewrite Pi|]. intro u. destruct (Nat.eq_dec u t) as [->|N]; [now rewrite Ht|].
           specialize (X u N eq_refl). destruct (initing (pcs u)) eqn:E; [|reflexivity]. apply initing_holds in E. congruence.
        -- rewrite Pr by reflexivity. reflexivity.
        -- rewrite Pr by reflexivity. reflexivity.
      * intro H. rewrite (im_rate3 u H). destruct St; cbn; try lia.
        apply initing_holds in H. rewrite (X u N eq_refl) in H. discriminate H.
    + intro u. rewrite labels_of_app, labels_of_steps. specialize (im_sect0 u). pcase u t.
      * rewrite Nat.eqb_refl. rewrite Ph in im_sect0.
        destruct St; cbn in *; rewrite ?app_nil_r, ?in_section_snoc; try (destruct (w_init w)); auto; now destruct h.
      * destruct (Nat.eqb_spec t u); [congruence|]. now rewrite app_nil_r.
    + intro u. rewrite labels_of_app, labels_of_steps, calls_of_app, calls_of_steps, app_nil_r, im_stores0, nlabels_app. pcase u t.
      * rewrite Nat.eqb_refl, Ht. destruct St; cbn; try (destruct (w_init w)); try (destruct h); cbn; lia.
      * destruct (Nat.eqb_spec t u); [congruence|]. cbn. lia.
Qed.

(** ** a single ticking goroutine *)
Lemma between_snoc ls l : between (ls ++ [l]) = between_step (between ls) l.
Proof. unfold between. now rewrite fold_left_app. Qed.
Lemma between_sum ls : zsuml (fst (between ls)) + snd (between ls) = fed ls.
Proof.
  induction ls as [|l ls IH] using rev_ind; [reflexivity|]. rewrite between_snoc, fed_app.
  destruct l; cbn [between_step fst snd fed fold_right]; try lia. rewrite zsuml_app. cbn. lia.
Qed.
Lemma between_nonneg ls : (forall n, In (EFed n) ls -> 0 <= n) ->
  Forall (fun n => 0 <= n) (fst (between ls)) /\ 0 <= snd (between ls).
Proof.
  induction ls as [|l ls IH] using rev_ind; intro H; [split; [constructor|cbn; lia]|].
  destruct IH as [I1 I2]; [intros n Hn; apply H, in_or_app; auto|]. rewrite between_snoc.
  destruct l; cbn [between_step fst snd]; try (split; [exact I1|exact I2]).
  - split; [exact I1|]. specialize (H n ltac:(apply in_or_app; right; left; reflexivity)). lia.
  - split; [|lia]. apply Forall_app. split; [exact I1|]. constructor; [exact I2|constructor].
Qed.
Lemma zsuml_nonneg l : Forall (fun n => 0 <= n) l -> 0 <= zsuml l.
Proof. unfold zsuml. induction 1; cbn [fold_right]; lia. Qed.

Definition tick_pc (o : option wpc) : bool :=
  match o with Some QUnlock => true | _ => prestore o end.
Definition in_take (o : option wpc) : list Z :=
  match o with Some (QTake _ n) | Some (QITake n) => [n] | _ => [] end.
Definition in_store (o : option wpc) : list Z :=
  match o with Some (QUp _ n) | Some (QStore _ n _) | Some (QIStore n) => [n] | _ => [] end.

Record single_facts (alpha : f64) (t0 : nat) (s : ewma) (pcs : nat -> option wpc) (ls : list elabel) (done : list Z) : Prop := {
  sf_others : forall t, t <> t0 -> tick_pc (pcs t) = false;
  sf_unc : w_uncounted s = snd (between ls) + zsuml (in_take (pcs t0));
  sf_lo : fst (between ls) = takens ls ++ in_take (pcs t0);
  sf_alpha : w_alpha s = alpha;
  sf_tk : takens ls = done ++ in_store (pcs t0);
  sf_len : length (rate_stores ls) = length done;
  sf_rate : w_rate s = float64bits (float_average alpha done);
  sf_store : forall h n b, pcs t0 = Some (QStore h n b) -> b = float64bits (float_average alpha (done ++ [n]));
  sf_past : past_init (pcs t0) = true -> w_init s = true;
  sf_qinit : pcs t0 = Some QInit -> w_init s = false;
  sf_init : if initing (pcs t0) then done = [] else w_init s = negb (match done with [] => true | _ => false end)
}.

Definition inv_single (alpha : f64) (t0 : nat) (s : ewma) (pcs : nat -> option wpc) (tr : list (event elabel ewma_op ewma_ret)) : Prop :=
  single_ticker t0 tr -> sane_feeds (labels tr) -> exists done, single_facts alpha t0 s pcs (labels tr) done.

Lemma sane_prefix a b : sane_feeds (a ++ b) -> sane_feeds a.
Proof.
  intros [H1 H2]. split; [intros n Hn; apply H1, in_or_app; auto|]. rewrite fed_app in H2.
  assert (0 <= fed b).
  { assert (Hb : forall n, In (EFed n) b -> 0 <= n) by (intros n Hn; apply H1, in_or_app; auto).
    clear -Hb. unfold fed. induction b as [|l b IH]; [cbn; lia|]. cbn [fold_right].
    assert (0 <= fold_right (fun l a => match l with EFed n => n + a | _ => a end) 0 b) by (apply IH; intros; apply Hb; right; assumption).
    destruct l; try assumption. specialize (Hb n (or_introl eq_refl)). lia. }
  lia.
Qed.
Lemma single_prefix {L R} t0 (a b : list (event L ewma_op R)) : single_ticker t0 (a ++ b) -> single_ticker t0 a.
Proof. intros H t Hin. apply H, in_or_app. auto. Qed.

Lemma rate_stores_app a b : rate_stores (a ++ b) = rate_stores a ++ rate_stores b.
Proof. apply flat_map_app. Qed.

Lemma inv_single_call : forall alpha t0 s pcs tr t op, inv_single alpha t0 s pcs tr -> pcs t = None -> inv_single alpha t0 s (pupd pcs t (Some (wentry op))) (tr ++ [EInv t op]).
Proof.
  unfold inv_single.
  intros alpha t0 s pcs tr t op IH Ht Hst Hsf. rewrite labels_app in *. cbn [labels flat_map] in *. rewrite app_nil_r in *.
  destruct (IH (single_prefix _ _ _ Hst) Hsf) as [done []]. exists done.
  assert (Hop : op = WTick -> t = t0).
  { intros ->. apply Hst, in_or_app. right. left. reflexivity. }
  assert (E : forall u, tick_pc (pupd pcs t (Some (wentry op)) u) = true -> tick_pc (pcs u) = true \/ u = t0).
  { intro u. pcase u t; [|auto]. destruct op; cbn; try discriminate. auto. }
  assert (N0 : pcs t0 = pupd pcs t (Some (wentry op)) t0 \/ (pcs t0 = None /\ pupd pcs t (Some (wentry op)) t0 = Some (wentry op))).
  { pcase t0 t; auto. }
  split; trivial.
  + intros u Hu. destruct (tick_pc (pupd pcs t (Some (wentry op)) u)) eqn:Eu; [|reflexivity].
    destruct (E u Eu) as [H|H]; [rewrite sf_others0 in H by exact Hu; discriminate|congruence].
  + destruct N0 as [<-|[N0 ->]]; [exact sf_unc0|]. rewrite N0 in sf_unc0. now destruct op.
  + destruct N0 as [<-|[N0 ->]]; [exact sf_lo0|]. rewrite N0 in sf_lo0. now destruct op.
  + destruct N0 as [<-|[N0 ->]]; [exact sf_tk0|]. rewrite N0 in sf_tk0. now destruct op.
  + destruct N0 as [<-|[N0 ->]]; [exact sf_store0|]. destruct op; discriminate.
  + destruct N0 as [<-|[N0 ->]]; [exact sf_past0|]. destruct op; discriminate.
  + destruct N0 as [<-|[N0 ->]]; [exact sf_qinit0|]. destruct op; discriminate.
  + destruct N0 as [<-|[N0 ->]]; [exact sf_init0|]. rewrite N0 in sf_init0. now destruct op.
Qed.
Lemma inv_single_ret : forall alpha t0 s pcs tr t r, inv_single alpha t0 s pcs tr -> pcs t = Some (QEnd r) -> inv_single alpha t0 s (pupd pcs t None) (tr ++ [ERes t r]).
Proof.
  unfold inv_single.
  intros alpha t0 s pcs tr t r IH Ht Hst Hsf. rewrite labels_app in *. cbn [labels flat_map] in *. rewrite app_nil_r in *.
  destruct (IH (single_prefix _ _ _ Hst) Hsf) as [done []]. exists done.
  assert (N0 : pcs t0 = pupd pcs t None t0 \/ (pcs t0 = Some (QEnd r) /\ pupd pcs t None t0 = None)).
  { pcase t0 t; auto. }
  split; trivial.
  + intros u Hu. pcase u t; auto.
  + destruct N0 as [<-|[N0 ->]]; [exact sf_unc0|]. now rewrite N0 in sf_unc0.
  + destruct N0 as [<-|[N0 ->]]; [exact sf_lo0|]. now rewrite N0 in sf_lo0.
  + destruct N0 as [<-|[N0 ->]]; [exact sf_tk0|]. now rewrite N0 in sf_tk0.
  + destruct N0 as [<-|[N0 ->]]; [exact sf_store0|]. discriminate.
  + destruct N0 as [<-|[N0 ->]]; [exact sf_past0|]. discriminate.
  + destruct N0 as [<-|[N0 ->]]; [exact sf_qinit0|]. discriminate.
  + destruct N0 as [<-|[N0 ->]]; [exact sf_init0|]. now rewrite N0 in sf_init0.
Qed.
Lemma inv_single_step : forall alpha t0 s pcs tr t pc s' l, inv_single alpha t0 s pcs tr -> pcs t = Some pc -> wstep pc s s' l -> inv_single alpha t0 s' (pupd pcs t (Some (wnext pc s))) (tr ++ map (EStep t) l).
Proof.
  unfold inv_single.
  intros alpha t0 s pcs tr t pc s' l IH Ht St Hst Hsf. rewrite labels_app, labels_steps in *.
  destruct (IH (single_prefix _ _ _ Hst) (sane_prefix _ _ Hsf)) as [done []].
  pose proof (between_sum (labels tr ++ l)) as BS. pose proof (between_nonneg (labels tr ++ l) (proj1 Hsf)) as [BN BC].
  assert (FB := proj2 Hsf).
  assert (W : snd (between (labels tr)) + zsuml (in_take (pcs t0)) <= fed (labels tr)).
  { pose proof (between_sum (labels tr)) as B1. pose proof (between_nonneg (labels tr) (proj1 (sane_prefix _ _ Hsf))) as [B2 B3].
    rewrite sf_lo0 in B1, B2. rewrite zsuml_app in B1. apply Forall_app in B2. destruct B2 as [B2 _].
    apply zsuml_nonneg in B2. lia. }
  assert (W0 : 0 <= snd (between (labels tr)) /\ 0 <= zsuml (in_take (pcs t0))).
  { pose proof (between_nonneg (labels tr) (proj1 (sane_prefix _ _ Hsf))) as [B2 B3].
    rewrite sf_lo0 in B2. apply Forall_app in B2. destruct B2 as [_ B2]. apply zsuml_nonneg in B2. auto. }
  assert (U : forall n, l = [EFed n] -> wrap64 (w_uncounted s + n) = snd (between (labels tr)) + n + zsuml (in_take (pcs t0))).
  { intros n ->. rewrite wrap64_id; [lia|]. rewrite fed_app in FB. cbn in FB.
    pose proof (proj1 Hsf n ltac:(apply in_or_app; right; left; reflexivity)).
    unfold is_int64, min_int64, max_int64. lia. }
  assert (FL : fed (labels tr) < 2 ^ 63) by apply (sane_prefix _ _ Hsf).
  destruct (Nat.eq_dec t t0) as [->|Nt].
  + assert (Pt : in_take (pcs t0) = in_take (Some pc)) by now rewrite Ht.
    assert (Ps : in_store (pcs t0) = in_store (Some pc)) by now rewrite Ht.
    assert (Pg : initing (pcs t0) = initing (Some pc)) by now rewrite Ht.
    assert (Pp : past_init (pcs t0) = past_init (Some pc)) by now rewrite Ht.
    rewrite Pt in *. rewrite Ps in *. rewrite Pg in *. rewrite Pp in *.
    exists (match pc with QStore _ n _ | QIStore n => done ++ [n] | _ => done end).
    assert (O : forall u, u <> t0 -> tick_pc (pupd pcs t0 (Some (wnext pc s)) u) = false).
    { intros u Hu. rewrite pupd_other by exact Hu. auto. }
    assert (SF : forall h n b, Some pc = Some (QStore h n b) -> b = float64bits (float_average alpha (done ++ [n]))).
    { intros h n b E. apply (sf_store0 h n b). congruence. }
    assert (QI : pc = QInit -> w_init s = false) by (intros ->; auto).
    split; rewrite ?pupd_same; trivial.
    * destruct St; cbn [set_uncounted set_init set_rate set_mutex w_uncounted app]; rewrite ?between_snoc, ?app_nil_r;
        cbn [between_step fst snd]; try (destruct (w_init w)); cbn [wnext in_take zsuml fold_right] in *; try (destruct h; cbn [in_take zsuml fold_right]); try lia.
      all: try (rewrite U by reflexivity; lia).
      all: try (rewrite wrap64_add_r, wrap64_id; [lia|unfold is_int64, min_int64, max_int64; lia]).
      all: destruct (w_init w); cbn; lia.
    * destruct St; rewrite ?between_snoc, ?takens_app, ?app_nil_r; cbn [between_step fst snd takens flat_map app]; rewrite ?app_nil_r, sf_lo0;
        cbn [wnext in_take]; try (destruct (w_init w)); try (destruct h); cbn [in_take]; rewrite ?app_nil_r; try reflexivity.
      all: f_equal; rewrite sf_unc0; cbn; f_equal; lia.
    * destruct St; cbn; exact sf_alpha0.
    * destruct St; rewrite ?takens_app, ?app_nil_r; cbn [takens flat_map app]; rewrite ?app_nil_r, ?sf_tk0;
        cbn [wnext in_store]; try (destruct (w_init w)); try (destruct h); cbn [in_store]; rewrite ?app_nil_r; reflexivity.
    * rewrite rate_stores_app, app_length, sf_len0. destruct St; cbn; rewrite ?app_length; cbn; lia.
    * destruct St; cbn; try exact sf_rate0; [apply (SF h n b eq_refl)|].
      cbn in sf_init0. subst done. reflexivity.
    * intros h' n' b' E. destruct St; cbn in E; try discriminate; try (destruct (w_init w); discriminate); try (destruct h; discriminate).
      injection E as <- <- <-. cbn in sf_init0. specialize (sf_past0 eq_refl).
      rewrite float_average_snoc; [now rewrite sf_rate0, frombits_bits, sf_alpha0|]. intros ->. cbn [negb] in sf_init0. congruence.
    * intro E. destruct St; cbn in E; try discriminate; try (destruct (w_init w) eqn:?; cbn; auto; discriminate); cbn; auto.
    * intro E. destruct St; cbn in E; try discriminate; try (destruct (w_init w) eqn:?; cbn; auto; discriminate); try (destruct h; discriminate); cbn; auto.
    * destruct St; cbn in *; auto; try (destruct (w_init w) eqn:?; cbn; auto; fail); try (destruct h; cbn; auto; fail).
      -- destruct h; cbn; rewrite sf_past0 by reflexivity; now destruct done.
      -- rewrite (QI eq_refl) in sf_init0. now destruct done.
      -- rewrite sf_past0 by reflexivity. now destruct done.
  + assert (Hp : tick_pc (Some pc) = false) by (rewrite <- Ht; auto).
    assert (P0 : pupd pcs t (Some (wnext pc s)) t0 = pcs t0) by (apply pupd_other; congruence).
    exists done. split; rewrite ?P0; trivial.
    * intros u Hu. pcase u t; [|auto]. destruct St; try discriminate Hp; reflexivity.
    * destruct St; try discriminate Hp; cbn [set_uncounted w_uncounted]; rewrite ?app_nil_r, ?between_snoc; cbn [between_step fst snd]; auto.
    * destruct St; try discriminate Hp; rewrite ?app_nil_r, ?between_snoc, ?takens_app; cbn [between_step fst snd takens flat_map]; rewrite ?app_nil_r; auto.
    * destruct St; try discriminate Hp; exact sf_alpha0.
    * destruct St; try discriminate Hp; rewrite ?app_nil_r, ?takens_app; cbn [takens flat_map]; rewrite ?app_nil_r; auto.
    * destruct St; try discriminate Hp; rewrite rate_stores_app, ?app_nil_r; cbn; rewrite ?app_nil_r; auto.
    * destruct St; try discriminate Hp; auto.
    * destruct St; try discriminate Hp; auto.
    * destruct St; try discriminate Hp; auto.
    * destruct St; try discriminate Hp; auto.
Qed.
Lemma inv_single_start alpha t0 : inv_single alpha t0 (NewEWMA alpha) (fun _ => None) [].
Proof. intros _ _. exists []. split; intros; try discriminate; try reflexivity; auto. Qed.
Lemma inv_single_exec alpha t0 sched : pc_inv wcode (inv_single alpha t0) (fst (wexec alpha sched)) (snd (wexec alpha sched)).
Proof. apply ewma_ind; [apply inv_single_start|apply inv_single_call|apply inv_single_ret|apply inv_single_step]. Qed.

(** ** provenance of rates *)
Record inv_prov (alpha : f64) (s : ewma) (pcs : nat -> option wpc) (tr : list (event elabel ewma_op ewma_ret)) : Prop := {
  ip_alpha : w_alpha s = alpha;
  ip_rate : exists r, w_rate s = float64bits r /\ (w_rate s = 0 \/ In (w_rate s) (rate_stores (labels tr)));
  ip_up : forall t h n, pcs t = Some (QUp h n) -> In n (takens (labels tr));
  ip_ist : forall t n, pcs t = Some (QIStore n) -> In n (takens (labels tr));
  ip_st : forall t h n b, pcs t = Some (QStore h n b) -> In n (takens (labels tr)) /\
    exists r, (float64bits r = 0 \/ In (float64bits r) (rate_stores (labels tr))) /\ b = float64bits (recur alpha r (instant_rate n));
  ip_ok : stores_ok alpha (labels tr)
}.

Lemma stores_ok_snoc alpha ls l : stores_ok alpha ls ->
  match l with
  | ERateInit b => exists n, In n (takens ls) /\ b = float64bits (instant_rate n)
  | ERateUpd b => exists n r, In n (takens ls) /\ (float64bits r = 0 \/ In (float64bits r) (rate_stores ls)) /\
      b = float64bits (recur alpha r (instant_rate n))
  | _ => True
  end -> stores_ok alpha (ls ++ [l]).
Proof.
  intros H Hl pre x post E. destruct post as [|y post _] using rev_ind.
  - apply app_inj_tail in E. destruct E as [-> ->]. exact Hl.
  - rewrite app_comm_cons, app_assoc in E. apply app_inj_tail in E. destruct E as [E _]. now apply (H pre x post).
Qed.

Lemma inv_prov_exec alpha sched : pc_inv wcode (inv_prov alpha) (fst (wexec alpha sched)) (snd (wexec alpha sched)).
Proof.
  apply ewma_ind.
  - split; intros; try discriminate; auto.
    + exists f_zero. split; [reflexivity|left; reflexivity].
    + intros pre l post E. destruct pre; discriminate.
  - intros s pcs tr t op [] Ht. split; rewrite ?labels_app; cbn [labels flat_map]; rewrite ?app_nil_r; trivial.
    + intros u h n. pcase u t; [destruct op; discriminate|eauto].
    + intros u n. pcase u t; [destruct op; discriminate|eauto].
    + intros u h n b. pcase u t; [destruct op; discriminate|eauto].
  - intros s pcs tr t r [] Ht. split; rewrite ?labels_app; cbn [labels flat_map]; rewrite ?app_nil_r; trivial.
    + intros u h n. pcase u t; [discriminate|eauto].
    + intros u n. pcase u t; [discriminate|eauto].
    + intros u h n b. pcase u t; [discriminate|eauto].
  - intros s pcs tr t pc s' l [] Ht St. destruct ip_rate0 as (r0 & Er & Hr). split; rewrite ?labels_app, ?labels_steps.
    + destruct St; exact ip_alpha0.
    + rewrite rate_stores_app. destruct St; cbn; rewrite ?app_nil_r; try (exists r0; split; [exact Er|exact Hr]).
      * destruct (ip_st0 t h n b Ht) as (_ & r & _ & ->). eexists. split; [reflexivity|]. right. apply in_or_app. right. left. reflexivity.
      * eexists. split; [reflexivity|]. right. apply in_or_app. right. left. reflexivity.
    + intros u h' n'. rewrite takens_app, in_app_iff. pcase u t; [|eauto].
      destruct St; cbn; try (destruct (w_init w)); try (destruct h); try discriminate.
      all: intro E; injection E as <- <-; auto.
    + intros u n'. rewrite takens_app, in_app_iff. pcase u t; [|eauto].
      destruct St; cbn; try (destruct (w_init w)); try (destruct h); try discriminate.
      all: intro E; injection E as <-; auto.
    + intros u h' n' b'. rewrite takens_app, rate_stores_app. pcase u t.
      * destruct St; cbn; try (destruct (w_init w)); try (destruct h); try discriminate.
        all: intro E; injection E as <- <- <-; rewrite !app_nil_r; split; [eauto|].
        all: exists r0; rewrite <- Er; split; [exact Hr|now rewrite ip_alpha0, Er, frombits_bits].
      * intro E. destruct (ip_st0 u h' n' b' E) as (I & r & H1 & H2). split; [apply in_or_app; auto|].
        exists r. split; [|exact H2]. rewrite in_app_iff. tauto.
    + destruct St; rewrite ?app_nil_r; trivial; apply stores_ok_snoc; trivial.
      * destruct (ip_st0 t h n b Ht) as (I & r & H1 & H2). exists n, r. auto.
      * exists n. split; [eauto|reflexivity].
Qed.

(** ** progress *)
Lemma wcode_enabled pc s : pc <> QLock -> match wcode pc with Ret _ => True | Atom e _ _ _ => e s = true end.
Proof. destruct pc as [n|r| | | |h|h n|h n|h n b| | | | |n|n|]; try reflexivity; try (exact I). congruence. Qed.

Lemma ewma_progress alpha sched t : let c := fst (wexec alpha sched) in
  th c t <> Idle -> exists u, can_run c u.
Proof.
  cbv zeta. destruct (inv_mutex_exec alpha sched) as (pcs & Hp & []). set (c := fst (wexec alpha sched)) in *. intro Hb.
  assert (G : forall u, pcs u <> None -> pcs u <> Some QLock -> can_run c u).
  { intros u N Q. unfold can_run. specialize (Hp u).
    destruct (th c u) as [|op cd]; destruct (pcs u) as [pc|] eqn:E; try easy. subst cd.
    apply (wcode_enabled pc (sh c)). congruence. }
  destruct (w_mutex (sh c)) eqn:Em.
  - destruct (im_taken0 eq_refl) as [u Hu]. exists u. apply G; intro E; rewrite E in Hu; discriminate.
  - exists t. unfold can_run. specialize (Hp t).
    destruct (th c t) as [|op cd]; [congruence|]. destruct (pcs t) as [pc|] eqn:E; [|easy]. subst cd.
    destruct pc; try (apply (wcode_enabled _ (sh c)); congruence). cbn. now rewrite Em.
Qed.

(** ** statements *)
Lemma single_exact alpha t0 sched :
  let '(c, tr) := wexec alpha sched in
  single_ticker t0 tr -> sane_feeds (labels tr) ->
  takens (labels tr) = firstn (length (takens (labels tr))) (fst (between (labels tr))) /\
  (length (fst (between (labels tr))) <= S (length (takens (labels tr))))%nat /\
  Forall (fun n => 0 <= n) (takens (labels tr)) /\ 0 <= w_uncounted (sh c) /\
  zsuml (takens (labels tr)) + w_uncounted (sh c) = fed (labels tr).
Proof.
  destruct (inv_single_exec alpha t0 sched) as (pcs & _ & H). destruct (wexec alpha sched) as [c tr]. cbn [fst snd] in H.
  intros Hs Hf. destruct (H Hs Hf) as [done []].
  pose proof (between_sum (labels tr)) as BS. pose proof (between_nonneg (labels tr) (proj1 Hf)) as [BN BC].
  rewrite sf_lo0 in *. rewrite zsuml_app in BS. apply Forall_app in BN. destruct BN as [BN1 BN2].
  pose proof (zsuml_nonneg _ BN2). split.
  - rewrite firstn_app, Nat.sub_diag, firstn_all. cbn [firstn]. now rewrite app_nil_r.
  - split; [|split; [exact BN1|split; lia]]. rewrite app_length.
    assert (length (in_take (pcs t0)) <= 1)%nat by (destruct (pcs t0) as [[]|]; cbn; lia). lia.
Qed.

Lemma single_idle alpha t0 sched :
  let '(c, tr) := wexec alpha sched in
  single_ticker t0 tr -> sane_feeds (labels tr) -> th c t0 = Idle ->
  takens (labels tr) = fst (between (labels tr)) /\ w_uncounted (sh c) = snd (between (labels tr)) /\
  w_rate (sh c) = float64bits (float_average alpha (takens (labels tr))).
Proof.
  destruct (inv_single_exec alpha t0 sched) as (pcs & Hp & H). destruct (wexec alpha sched) as [c tr]. cbn [fst snd] in *.
  intros Hs Hf Ei. destruct (H Hs Hf) as [done []]. specialize (Hp t0). rewrite Ei in Hp.
  destruct (pcs t0); [easy|]. cbn [in_take in_store zsuml fold_right] in *. rewrite app_nil_r in *. subst done. split; [congruence|]. split; [lia|assumption].
Qed.

Lemma mutual_exclusion alpha sched t u :
  let tr := snd (wexec alpha sched) in
  in_section (labels_of t tr) = true -> in_section (labels_of u tr) = true -> t = u.
Proof.
  cbv zeta. destruct (inv_mutex_exec alpha sched) as (pcs & _ & []). rewrite !im_sect0. apply im_uniq0.
Qed.

Lemma store_per_tick alpha sched :
  let '(c, tr) := wexec alpha sched in
  forall t, th c t = Idle -> length (filter is_tick (calls_of t tr)) = nlabels is_rate_store (labels_of t tr).
Proof.
  destruct (inv_mutex_exec alpha sched) as (pcs & Hp & []). destruct (wexec alpha sched) as [c tr]. cbn [fst snd] in *.
  intros t Ei. rewrite im_stores0. specialize (Hp t). rewrite Ei in Hp. destruct (pcs t); [easy|]. cbn. lia.
Qed.

Lemma stored_rates alpha sched : stores_ok alpha (labels (snd (wexec alpha sched))).
Proof. now destruct (inv_prov_exec alpha sched) as (pcs & _ & []). Qed.

(** a Tick was called: initialised, or about to be *)
Definition preinit (o : option wpc) : bool := match o with Some Q0 | Some QLock | Some QCheck | Some QInit => true | _ => false end.
Definition inv_called (s : ewma) (pcs : nat -> option wpc) (tr : list (event elabel ewma_op ewma_ret)) : Prop :=
  (existsb is_tick (calls tr) = false -> w_init s = false /\ forall t, tick_pc (pcs t) = false) /\
  (existsb is_tick (calls tr) = true -> w_init s = true \/ exists t, preinit (pcs t) = true).
Lemma inv_called_exec alpha sched : pc_inv wcode inv_called (fst (wexec alpha sched)) (snd (wexec alpha sched)).
Proof.
  apply ewma_ind; unfold inv_called.
  - split; [intros _; split; [reflexivity|]|discriminate]. reflexivity.
  - intros s pcs tr t op [H1 H2] Ht. rewrite calls_app, existsb_app. cbn [calls flat_map existsb].
    cbn [app existsb]. rewrite Bool.orb_false_r. split.
    + intro E. apply Bool.orb_false_iff in E. destruct E as [E1 E2]. destruct (H1 E1) as [I1 I2]. split; [exact I1|].
      intro u. pcase u t; [destruct op; (discriminate E2 || reflexivity)|apply I2].
    + intro E. destruct op; try (rewrite Bool.orb_false_r in E; destruct (H2 E) as [I|[u I]]; [now left|];
        right; exists u; pcase u t; [now rewrite Ht in I|exact I]).
      right. exists t. now rewrite pupd_same.
  - intros s pcs tr t r [H1 H2] Ht. rewrite calls_app. cbn [calls flat_map]. rewrite app_nil_r. split.
    + intro E. destruct (H1 E) as [I1 I2]. split; [exact I1|]. intro u. pcase u t; [reflexivity|apply I2].
    + intro E. destruct (H2 E) as [I|[u I]]; [now left|]. right. exists u. pcase u t; [now rewrite Ht in I|exact I].
  - intros s pcs tr t pc s' l [H1 H2] Ht St. rewrite calls_app, calls_steps, app_nil_r. split.
    + intro E. destruct (H1 E) as [I1 I2]. pose proof (I2 t) as It. rewrite Ht in It.
      split; [destruct St; try discriminate It; exact I1|]. intro u. pcase u t; [|apply I2].
      destruct St; try discriminate It; reflexivity.
    + intro E. destruct (H2 E) as [I|[u I]].
      * left. destruct St; auto.
      * pcase u t.
        -- rewrite Ht in I. destruct St; try discriminate I.
           ++ destruct (w_init w) eqn:Ew; [now left|]. right. exists t. rewrite pupd_same. cbn. now rewrite Ew.
           ++ right. exists t. now rewrite pupd_same.
           ++ destruct (w_init w) eqn:Ew; [now left|]. right. exists t. rewrite pupd_same. cbn. now rewrite Ew.
           ++ now left.
        -- right. exists u. now rewrite pupd_other by exact N.
Qed.

Lemma init_once alpha sched :
  let '(c, tr) := wexec alpha sched in
  nlabels is_init (labels tr) = (if w_init (sh c) then 1 else 0)%nat /\
  (nlabels is_rate_init (labels tr) <= 1)%nat /\
  (quiet c -> nlabels is_rate_init (labels tr) = if existsb is_tick (calls tr) then 1%nat else 0%nat).
Proof.
  destruct (inv_mutex_exec alpha sched) as (pcs & Hp & []). destruct (inv_called_exec alpha sched) as (pcs' & Hp' & C1 & C2).
  destruct (wexec alpha sched) as [c tr]. cbn [fst snd] in *.
  split; [now destruct (w_init (sh c))|]. split.
  - assert (B : (b2n (w_init (sh c)) <= 1)%nat) by (destruct (w_init (sh c)); cbn; lia).
    destruct (w_mutex (sh c)) eqn:Em.
    + destruct (im_taken0 eq_refl) as [t Ht]. destruct (initing (pcs t)) eqn:Ei; [rewrite (im_rate3 t Ei); lia|].
      rewrite im_rate2; [exact B|]. intro u. destruct (initing (pcs u)) eqn:Eu; [|reflexivity].
      rewrite (im_uniq0 u t (initing_holds _ Eu) Ht) in Eu. congruence.
    + rewrite im_rate2; [exact B|]. intro u. destruct (initing (pcs u)) eqn:Eu; [|reflexivity].
      apply initing_holds in Eu. rewrite im_free0 in Eu by reflexivity. discriminate.
  - intro Q. pose proof (quiet_pcs _ _ _ Hp Q) as N. pose proof (quiet_pcs _ _ _ Hp' Q) as N'.
    rewrite im_rate2 by (intro t; now rewrite N).
    destruct (existsb is_tick (calls tr)); [destruct (C2 eq_refl) as [->|[t E]]; [reflexivity|rewrite N' in E; discriminate]|].
    destruct (C1 eq_refl) as [-> _]. reflexivity.
Qed.

(** deciding the hypotheses on concrete executions *)
Definition single_b {L R} (t0 : nat) (tr : list (event L ewma_op R)) : bool :=
  forallb (fun e => match e with EInv t WTick => Nat.eqb t t0 | _ => true end) tr.
Lemma single_check {L R} t0 (tr : list (event L ewma_op R)) : single_b t0 tr = true -> single_ticker t0 tr.
Proof. intros H t Hin. apply (proj1 (forallb_forall _ _) H) in Hin. now apply Nat.eqb_eq. Qed.
Definition sane_b (ls : list elabel) : bool :=
  forallb (fun l => match l with EFed n => 0 <=? n | _ => true end) ls && (fed ls <? 2 ^ 63).
Lemma sane_check ls : sane_b ls = true -> sane_feeds ls.
Proof.
  unfold sane_b. intro H. apply Bool.andb_true_iff in H. destruct H as [H1 H2]. split; [|now apply Z.ltb_lt].
  intros n Hin. apply (proj1 (forallb_forall _ _) H1) in Hin. now apply Z.leb_le.
Qed.
