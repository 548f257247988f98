(** The meter machine: program points and steps. *)
From Coq Require Import ZArith List Lia Arith.
From Verif.Model Require Import GoInt GoFloat Conc Ewma Meter.
From Verif.Spec Require Import Traces.
From Verif.Proofs Require Import LinProofs PcProofs EwmaConc.
Import ListNotations.
Open Scope Z_scope.

(** ** a Tick anywhere *)
Section GTick.
Context {S L A : Type}.
Variable get : S -> ewma.
Variable set : S -> ewma -> S.
Variable em : elabel -> list L.
Variable k : code S L A.

Definition gtail (h : bool) : code S L A := if h then eunlock get set em k else k.
Definition gtake (n : Z) (c : code S L A) : code S L A :=
  eact get set em (fun w => set_uncounted (wrap64 (w_uncounted w + wrap64 (- n))) w) (fun _ => [ETaken n]) (fun _ => c).
Definition gistore (n : Z) : code S L A :=
  eact get set em (set_rate (float64bits (instant_rate n))) (fun _ => [ERateInit (float64bits (instant_rate n))]) (fun _ => gtail true).
Definition gifetch : code S L A :=
  fetch_c get set em (fun ir => eact get set em (set_rate (float64bits ir)) (fun _ => [ERateInit (float64bits ir)]) (fun _ => gtail true)).
Definition ginit : code S L A := eact get set em set_init (fun _ => [EInitSet]) (fun _ => gifetch).
Definition gfetch (h : bool) : code S L A := fetch_c get set em (fun ir => update_rate_c get set em ir (gtail h)).
Definition gcheck : code S L A := eload get (fun w' => if w_init w' then gfetch true else ginit).

Definition gcode (q : wpc) : code S L A :=
  match q with
  | Q0 => tick_c get set em k
  | QFetch h => gfetch h
  | QTake h n => gtake n (update_rate_c get set em (instant_rate n) (gtail h))
  | QUp h n => update_rate_c get set em (instant_rate n) (gtail h)
  | QStore h n b => eact get set em (fun w' => set_rate b w') (fun _ => [ERateUpd b]) (fun _ => gtail h)
  | QLock => elock get set em gcheck
  | QCheck => gcheck
  | QInit => ginit
  | QIFetch => gifetch
  | QITake n => gtake n (gistore n)
  | QIStore n => gistore n
  | QUnlock => gtail true
  | _ => k
  end.

Lemma gcode_step q e u l kk s : tick_pc (Some q) = true -> gcode q = Atom e u l kk -> e s = true ->
  exists w' ls, wstep q (get s) w' ls /\ (u s = set s w' \/ (u s = s /\ w' = get s)) /\ l s = flat_map em ls /\
    kk s = gcode (wnext q (get s)).
Proof.
  destruct q as [n|r| | | |h|h n|h n|h n b| | | | |n|n|]; try discriminate; intros _ E; cbn in E;
    try (destruct h; cbn in E); inversion E; subst; intro En; cbn in *; do 2 eexists;
    (split; [constructor|]); try (now apply Bool.negb_true_iff);
    (split; [(left; reflexivity) || (right; split; reflexivity)|]); (split; [reflexivity || (cbn; now rewrite ?app_nil_r)|]); cbn;
    try reflexivity.
  - destruct (w_init (get s)); reflexivity.
  - destruct (w_init (get s)); reflexivity.
Qed.

Lemma gcode_enabled q s : tick_pc (Some q) = true ->
  match gcode q with Ret _ => False | Atom e _ _ _ => e s = true \/ (q = QLock /\ w_mutex (get s) = true) end.
Proof.
  destruct q as [n|r| | | |h|h n|h n|h n b| | | | |n|n|]; try discriminate; intros _; cbn; try (left; reflexivity).
  destruct (w_mutex (get s)); [right; auto|left; reflexivity].
Qed.
End GTick.

(** ** program points *)
Inductive pub_stage :=
| U1 | U5 (r1 : f64) | U15 (r1 r5 : f64) | UC (r1 r5 r15 : f64) | UT (r1 r5 r15 : f64) (c : Z)
| S1 (r1 r5 r15 : f64) (m : Z) | S5 (r5 r15 : f64) (m : Z) | S15 (r15 : f64) (m : Z) | SM (m : Z).

Inductive snap_stage := N1 (c : Z) | N5 (c r1 : Z) | N15 (c r1 r5 : Z) | NM (c r1 r5 r15 : Z).

Inductive mpc :=
| PEnd (r : meter_ret)
| PNew | PNewLock (id : nat) | PNewIns (id : nat) | PNewUnlock (id : nat)
| PMark (id : nat) (n : Z) | PMarkAdd (id : nat) (n : Z) | PMarkUpd (id : nat) (n : Z) (w : which)
| PPub (id : nat) (rest : option (list nat)) (st : pub_stage)
| PStop (id : nat) | PStopLock (id : nat) | PStopDel (id : nat) | PStopUnlock (id : nat)
| PRead (op : meter_op)
| PSnap (id : nat) (st : snap_stage)
| PTickAll (order : list nat) | PTickBegin (id : nat) (rest : list nat)
| PTick (id : nat) (w : which) (q : wpc) (rest : list nat) | PTicked (id : nat) (rest : list nat) | PRUnlock
| PAdv (d : Z).

Section M.
Variable mexp : f64 -> f64.
Notation mcode' := (code marb mlabel meter_ret).

Definition runlock_c : mcode' :=
  Atom always (fun s => set_rlocks (pred (rlocks s)) s) (fun _ => [LRoundEnd]) (fun _ => Ret MUnit).
Definition loop_c (ids : list nat) : mcode' := tick_list_c ids runlock_c.
Definition ticked_c (id : nat) (rest : list nat) : mcode' := mstore (fun s => s) [LTicked id] (loop_c rest).
Definition pub_tail (id : nat) (rest : option (list nat)) : mcode' :=
  match rest with None => Ret MUnit | Some r => ticked_c id r end.
Definition tk (id : nat) (w : which) (k : mcode') : mcode' := tick_c (ewma_get id w) (ewma_set id w) (ewma_em id w) k.
Definition after_tick (id : nat) (w : which) (rest : list nat) : mcode' :=
  match w with
  | A1 => tk id A5 (tk id A15 (update_snapshot_c id (ticked_c id rest)))
  | A5 => tk id A15 (update_snapshot_c id (ticked_c id rest))
  | A15 => update_snapshot_c id (ticked_c id rest)
  end.
Definition up (id : nat) (w : which) (n : Z) (k : mcode') : mcode' :=
  ewma_update_c (ewma_get id w) (ewma_set id w) (ewma_em id w) n k.
Definition mean_bits (s : marb) (id : nat) (c : Z) : Z :=
  float64bits (fdiv (f_of_int c) (seconds (since (m_start (meter_at s id)) (now s)))).
Definition pub_store (id : nat) (w : which) (r : f64) (k : mcode') : mcode' :=
  mstore (upd_meter id (set_pub w (float64bits r))) [LPub id w (float64bits r)] k.

Section Pub.
Variable id : nat.
Variable k : mcode'.
Definition cSM (m : Z) : mcode' := mstore (upd_meter id (set_mean m)) [LMean id m] k.
Definition cS15 r15 m := pub_store id A15 r15 (cSM m).
Definition cS5 r5 r15 m := pub_store id A5 r5 (cS15 r15 m).
Definition cS1 r1 r5 r15 m := pub_store id A1 r1 (cS5 r5 r15 m).
Definition cUT r1 r5 r15 c : mcode' := mload (fun s => cS1 r1 r5 r15 (mean_bits s id c)).
Definition cUC r1 r5 r15 : mcode' := mload (fun s => cUT r1 r5 r15 (m_count (meter_at s id))).
Definition cU15 r1 r5 : mcode' := rate_c (ewma_get id A15) (fun r15 => cUC r1 r5 r15).
Definition cU5 r1 : mcode' := rate_c (ewma_get id A5) (fun r5 => cU15 r1 r5).
Definition pub_code (st : pub_stage) : mcode' :=
  match st with
  | U1 => update_snapshot_c id k
  | U5 r1 => cU5 r1 | U15 r1 r5 => cU15 r1 r5 | UC r1 r5 r15 => cUC r1 r5 r15 | UT r1 r5 r15 c => cUT r1 r5 r15 c
  | S1 r1 r5 r15 m => cS1 r1 r5 r15 m | S5 r5 r15 m => cS5 r5 r15 m | S15 r15 m => cS15 r15 m | SM m => cSM m
  end.
End Pub.

Definition stuck : mcode' := Atom (fun _ => false) (fun s => s) silent (fun _ => Ret MUnit).
Definition mcode (pc : mpc) : mcode' :=
  match pc with
  | PEnd r => Ret r
  | PNew => meter_body mexp MNew
  | PNewLock id => lock_c (Atom always (insert_live id) (fun s => LInserted id :: if started s then [] else [LSpawn])
         (fun _ => unlock_c (Ret (MHandle id))))
  | PNewIns id => Atom always (insert_live id) (fun s => LInserted id :: if started s then [] else [LSpawn])
         (fun _ => unlock_c (Ret (MHandle id)))
  | PNewUnlock id => unlock_c (Ret (MHandle id))
  | PMark id n => meter_body mexp (MMark id n)
  | PMarkAdd id n => Atom always (upd_meter id (fun m => set_count (wrap64 (m_count m + n)) m)) (fun _ => [LMarked id n])
      (fun _ => up id A1 n (up id A5 n (up id A15 n (update_snapshot_c id (Ret MUnit)))))
  | PMarkUpd id n A1 => up id A1 n (up id A5 n (up id A15 n (update_snapshot_c id (Ret MUnit))))
  | PMarkUpd id n A5 => up id A5 n (up id A15 n (update_snapshot_c id (Ret MUnit)))
  | PMarkUpd id n A15 => up id A15 n (update_snapshot_c id (Ret MUnit))
  | PPub id rest st => pub_code id (pub_tail id rest) st
  | PStop id => meter_body mexp (MStop id)
  | PStopLock id => lock_c (mstore (delete_live id) [LDeleted id] (unlock_c (Ret MUnit)))
  | PStopDel id => mstore (delete_live id) [LDeleted id] (unlock_c (Ret MUnit))
  | PStopUnlock id => unlock_c (Ret MUnit)
  | PRead op => match op with
                | MCount id | MRate id _ | MRateMean id | MSnapshot id => meter_body mexp op
                | _ => stuck end
  | PSnap id (N1 c) => mload (fun s => let r1 := m_r1 (meter_at s id) in mload (fun s => let r5 := m_r5 (meter_at s id) in
      mload (fun s => let r15 := m_r15 (meter_at s id) in mload (fun s => Ret (MSnap c r1 r5 r15 (m_mean (meter_at s id)))))))
  | PSnap id (N5 c r1) => mload (fun s => let r5 := m_r5 (meter_at s id) in
      mload (fun s => let r15 := m_r15 (meter_at s id) in mload (fun s => Ret (MSnap c r1 r5 r15 (m_mean (meter_at s id))))))
  | PSnap id (N15 c r1 r5) => mload (fun s => let r15 := m_r15 (meter_at s id) in
      mload (fun s => Ret (MSnap c r1 r5 r15 (m_mean (meter_at s id)))))
  | PSnap id (NM c r1 r5 r15) => mload (fun s => Ret (MSnap c r1 r5 r15 (m_mean (meter_at s id))))
  | PTickAll order => meter_body mexp (MTickAll order)
  | PTickBegin id rest => meter_tick_c id (loop_c rest)
  | PTick id w q rest => if tick_pc (Some q) then gcode (ewma_get id w) (ewma_set id w) (ewma_em id w) (after_tick id w rest) q else stuck
  | PTicked id rest => ticked_c id rest
  | PRUnlock => runlock_c
  | PAdv d => meter_body mexp (MAdvance d)
  end.

Definition mentry (op : meter_op) : mpc :=
  match op with
  | MNew => PNew
  | MMark id n => PMark id n
  | MStop id => PStop id
  | MTickAll order => PTickAll order
  | MAdvance d => PAdv d
  | op => PRead op
  end.

Definition loop_pc (ids : list nat) : mpc := match ids with [] => PRUnlock | id :: rest => PTickBegin id rest end.
Definition next_w (w : which) : option which := match w with A1 => Some A5 | A5 => Some A15 | A15 => None end.

Definition mnext (pc : mpc) (s : marb) : mpc :=
  match pc with
  | PEnd r => PEnd r
  | PNew => PNewLock (length (ms s))
  | PNewLock id => PNewIns id
  | PNewIns id => PNewUnlock id
  | PNewUnlock id => PEnd (MHandle id)
  | PMark id n => if m_stopped (meter_at s id) then PEnd MUnit else PMarkAdd id n
  | PMarkAdd id n => PMarkUpd id n A1
  | PMarkUpd id n w => match next_w w with Some w' => PMarkUpd id n w' | None => PPub id None U1 end
  | PPub id rest st =>
    match st with
    | U1 => PPub id rest (U5 (rate_of (w_rate (ewma_get id A1 s))))
    | U5 r1 => PPub id rest (U15 r1 (rate_of (w_rate (ewma_get id A5 s))))
    | U15 r1 r5 => PPub id rest (UC r1 r5 (rate_of (w_rate (ewma_get id A15 s))))
    | UC r1 r5 r15 => PPub id rest (UT r1 r5 r15 (m_count (meter_at s id)))
    | UT r1 r5 r15 c => PPub id rest (S1 r1 r5 r15 (mean_bits s id c))
    | S1 r1 r5 r15 m => PPub id rest (S5 r5 r15 m)
    | S5 r5 r15 m => PPub id rest (S15 r15 m)
    | S15 r15 m => PPub id rest (SM m)
    | SM m => match rest with None => PEnd MUnit | Some r => PTicked id r end
    end
  | PStop id => if m_stopped (meter_at s id) then PEnd MUnit else PStopLock id
  | PStopLock id => PStopDel id
  | PStopDel id => PStopUnlock id
  | PStopUnlock id => PEnd MUnit
  | PRead op =>
    match op with
    | MCount id => PEnd (MInt (m_count (meter_at s id)))
    | MRate id w => PEnd (MFloat (float64frombits (get_pub w (meter_at s id))))
    | MRateMean id => PEnd (MFloat (float64frombits (m_mean (meter_at s id))))
    | MSnapshot id => PSnap id (N1 (m_count (meter_at s id)))
    | _ => PEnd MUnit
    end
  | PSnap id st =>
    match st with
    | N1 c => PSnap id (N5 c (m_r1 (meter_at s id)))
    | N5 c r1 => PSnap id (N15 c r1 (m_r5 (meter_at s id)))
    | N15 c r1 r5 => PSnap id (NM c r1 r5 (m_r15 (meter_at s id)))
    | NM c r1 r5 r15 => PEnd (MSnap c r1 r5 r15 (m_mean (meter_at s id)))
    end
  | PTickAll order => loop_pc (visit order (live s))
  | PTickBegin id rest => PTick id A1 Q0 rest
  | PTick id w q rest =>
    match wnext q (ewma_get id w s) with
    | QEnd _ => match next_w w with Some w' => PTick id w' Q0 rest | None => PPub id (Some rest) U1 end
    | q' => PTick id w q' rest
    end
  | PTicked id rest => loop_pc rest
  | PRUnlock => PEnd MUnit
  | PAdv d => PEnd MUnit
  end.

Lemma mentry_ok op : meter_body mexp op = mcode (mentry op).
Proof. destruct op; reflexivity. Qed.

Lemma wnext_tick q w : tick_pc (Some q) = true -> tick_pc (Some (wnext q w)) = true \/ wnext q w = QEnd WNone.
Proof.
  destruct q as [n|r| | | |h|h n|h n|h n b| | | | |n|n|]; try discriminate; intros _; cbn; auto;
    try (destruct (w_init w); auto); destruct h; auto.
Qed.

Lemma gcode_end {S L A} g st em (k : code S L A) r : gcode g st em k (QEnd r) = k.
Proof. reflexivity. Qed.

Lemma loop_code ids : loop_c ids = mcode (loop_pc ids).
Proof. destruct ids; reflexivity. Qed.

Lemma mnext_tick id w q rest e u l k s : mcode (PTick id w q rest) = Atom e u l k -> e s = true -> k s = mcode (mnext (PTick id w q rest) s).
Proof.
  intros E En. cbn [mcode] in E. destruct (tick_pc (Some q)) eqn:T; [|injection E as <- <- <- <-; discriminate En].
  destruct (gcode_step _ _ _ _ q e u l k s T E En) as (w' & ls & _ & _ & _ & ->).
  destruct (wnext_tick q (ewma_get id w s) T) as [T'|E1].
  - cbn [mnext mcode]. destruct (wnext q (ewma_get id w s)) eqn:Eq; try discriminate T'; cbn [mcode]; rewrite T'; reflexivity.
  - cbn [mnext]. rewrite E1. cbn [gcode]. destruct w; reflexivity.
Qed.

Lemma mnext_ok pc e u l k s : mcode pc = Atom e u l k -> e s = true -> k s = mcode (mnext pc s).
Proof.
  destruct pc as [r| |id|id|id|id n|id n|id n w|id rest st|id|id|id|id|op|id st|order|id rest|id w q rest|id rest| |d];
    intros E En; try (apply (mnext_tick id w q rest e u l k s E En)); cbn in E; try discriminate E; try (inversion E; subst; cbn; reflexivity).
  - inversion E; subst. cbn. destruct (m_stopped (meter_at s id)); reflexivity.
  - destruct w; inversion E; subst; reflexivity.
  - destruct st; inversion E; subst; cbn; try reflexivity. destruct rest; reflexivity.
  - inversion E; subst. cbn. destruct (m_stopped (meter_at s id)); reflexivity.
  - destruct op; inversion E; subst; try discriminate En; reflexivity.
  - destruct st; inversion E; subst; reflexivity.
  - inversion E; subst. cbn. apply (loop_code (visit order (live s))).
  - inversion E; subst. apply loop_code.
Qed.

(** program points that only read *)
Definition loads (pc : mpc) : bool :=
  match pc with
  | PPub _ _ st => match st with U1 | U5 _ | U15 _ _ | UC _ _ _ | UT _ _ _ _ => true | _ => false end
  | PRead _ | PSnap _ _ => true
  | _ => false
  end.
(** the handle used by a method's first action *)
Definition needs (pc : mpc) : option nat :=
  match pc with
  | PMark id _ | PStop id => Some id
  | PRead (MCount id) | PRead (MRate id _) | PRead (MRateMean id) | PRead (MSnapshot id) => Some id
  | _ => None
  end.

Inductive mstep : mpc -> marb -> marb -> list mlabel -> Prop :=
| ms_load pc s : loads pc = true -> mstep pc s s []
| ms_new s : mstep PNew s (MkArb (ms s ++ [new_meter mexp (now s)]) (live s) (started s) (wlock s) (rlocks s) (now s)) []
| ms_newlock id s : wlock s = false -> rlocks s = 0%nat -> mstep (PNewLock id) s (set_lock true s) []
| ms_newins id s : mstep (PNewIns id) s (insert_live id s) (LInserted id :: if started s then [] else [LSpawn])
| ms_newunlock id s : mstep (PNewUnlock id) s (set_lock false s) []
| ms_markskip id n s : m_ready (meter_at s id) = true -> m_stopped (meter_at s id) = true -> mstep (PMark id n) s s [LSkipped id n]
| ms_mark id n s : m_ready (meter_at s id) = true -> m_stopped (meter_at s id) = false -> mstep (PMark id n) s s []
| ms_markadd id n s : mstep (PMarkAdd id n) s (upd_meter id (fun m => set_count (wrap64 (m_count m + n)) m) s) [LMarked id n]
| ms_markupd id n w s : mstep (PMarkUpd id n w) s
    (ewma_set id w s (set_uncounted (wrap64 (w_uncounted (ewma_get id w s) + n)) (ewma_get id w s))) [LEwma id w (EFed n)]
| ms_s1 id rest r1 r5 r15 m s : mstep (PPub id rest (S1 r1 r5 r15 m)) s (upd_meter id (set_pub A1 (float64bits r1)) s) [LPub id A1 (float64bits r1)]
| ms_s5 id rest r5 r15 m s : mstep (PPub id rest (S5 r5 r15 m)) s (upd_meter id (set_pub A5 (float64bits r5)) s) [LPub id A5 (float64bits r5)]
| ms_s15 id rest r15 m s : mstep (PPub id rest (S15 r15 m)) s (upd_meter id (set_pub A15 (float64bits r15)) s) [LPub id A15 (float64bits r15)]
| ms_sm id rest m s : mstep (PPub id rest (SM m)) s (upd_meter id (set_mean m) s) [LMean id m]
| ms_stop id s : m_ready (meter_at s id) = true ->
    mstep (PStop id) s (upd_meter id set_stopped s) [LCas id (negb (m_stopped (meter_at s id)))]
| ms_stoplock id s : wlock s = false -> rlocks s = 0%nat -> mstep (PStopLock id) s (set_lock true s) []
| ms_stopdel id s : mstep (PStopDel id) s (delete_live id s) [LDeleted id]
| ms_stopunlock id s : mstep (PStopUnlock id) s (set_lock false s) []
| ms_tickall order s : wlock s = false -> mstep (PTickAll order) s (set_rlocks (S (rlocks s)) s) [LRound (live s)]
| ms_tickbegin id rest s : mstep (PTickBegin id rest) s s [LTick id]
| ms_tick id w q rest s e' ls : tick_pc (Some q) = true -> wstep q (ewma_get id w s) e' ls ->
    mstep (PTick id w q rest) s (ewma_set id w s e') (map (LEwma id w) ls)
| ms_ticked id rest s : mstep (PTicked id rest) s s [LTicked id]
| ms_runlock s : mstep PRUnlock s (set_rlocks (pred (rlocks s)) s) [LRoundEnd]
| ms_adv d s : mstep (PAdv d) s (MkArb (ms s) (live s) (started s) (wlock s) (rlocks s) (now s + Z.max 0 d)) [].

Lemma upd_nth_id {A} n (f : A -> A) l d : f (nth n l d) = nth n l d -> upd_nth n f l = l.
Proof.
  revert n. induction l as [|x l IH]; intros [|n] H; cbn in *; try reflexivity; [now rewrite H|].
  f_equal. now apply IH.
Qed.
Lemma set_get_a w m : set_a w (get_a w m) m = m.
Proof. destruct m, w; reflexivity. Qed.
Lemma ewma_set_get id w s : ewma_set id w s (ewma_get id w s) = s.
Proof.
  unfold ewma_set, upd_meter, ewma_get, meter_at. rewrite (upd_nth_id id _ (ms s) meter_nil) by apply set_get_a. now destruct s.
Qed.

Lemma flat_em id w ls : flat_map (ewma_em id w) ls = map (LEwma id w) ls.
Proof. induction ls as [|l ls IH]; [reflexivity|]. cbn. now f_equal. Qed.

Lemma mstep_ok pc e u l k s : mcode pc = Atom e u l k -> e s = true ->
  mstep pc s (u s) (l s) /\ (forall id, needs pc = Some id -> m_ready (meter_at s id) = true).
Proof.
  destruct pc as [r| |id|id|id|id n|id n|id n w|id rest st|id|id|id|id|op|id st|order|id rest|id w q rest|id rest| |d];
    intros E En.
  - discriminate E.
  - inversion E; subst. split; [constructor|discriminate].
  - inversion E; subst. apply Bool.andb_true_iff in En. destruct En as [E1 E2]. apply Bool.negb_true_iff in E1. apply Nat.eqb_eq in E2.
    split; [now constructor|discriminate].
  - inversion E; subst. split; [constructor|discriminate].
  - inversion E; subst. split; [constructor|discriminate].
  - inversion E; subst. unfold exists_b in En. split.
    + cbn beta. destruct (m_stopped (meter_at s id)) eqn:Es; constructor; assumption.
    + intros i Ei. injection Ei as <-. exact En.
  - inversion E; subst. split; [constructor|discriminate].
  - destruct w; inversion E; subst; (split; [|discriminate]); apply (ms_markupd id n).
  - destruct st; inversion E; subst; (split; [|discriminate]); constructor; reflexivity.
  - inversion E; subst. split; [now constructor|]. intros i Ei. injection Ei as <-. exact En.
  - inversion E; subst. apply Bool.andb_true_iff in En. destruct En as [E1 E2]. apply Bool.negb_true_iff in E1. apply Nat.eqb_eq in E2.
    split; [now constructor|discriminate].
  - inversion E; subst. split; [constructor|discriminate].
  - inversion E; subst. split; [constructor|discriminate].
  - destruct op; inversion E; subst; try discriminate En; (split; [constructor; reflexivity|]); cbn; intros ? EE; injection EE as <-; exact En.
  - destruct st; inversion E; subst; (split; [|discriminate]); constructor; reflexivity.
  - inversion E; subst. apply Bool.negb_true_iff in En. split; [now constructor|discriminate].
  - inversion E; subst. split; [constructor|discriminate].
  - cbn [mcode] in E. destruct (tick_pc (Some q)) eqn:T; [|injection E as <- <- <- <-; discriminate En].
    destruct (gcode_step _ _ _ _ q e u l k s T E En) as (w' & ls & Hs & Hu & -> & _). split; [|discriminate].
    rewrite flat_em. destruct Hu as [->|[-> ->]].
    + now constructor.
    + rewrite <- (ewma_set_get id w s) at 2. now constructor.
  - inversion E; subst. split; [constructor|discriminate].
  - inversion E; subst. split; [constructor|discriminate].
  - inversion E; subst. split; [constructor|discriminate].
Qed.

Lemma mcode_ret pc r : mcode pc = Ret r -> pc = PEnd r.
Proof.
  destruct pc as [r'| |id|id|id|id n|id n|id n w|id rest st|id|id|id|id|op|id st|order|id rest|id w q rest|id rest| |d];
    intro E; cbn in E; try discriminate E.
  - now injection E as ->.
  - destruct w; discriminate E.
  - destruct st; discriminate E.
  - destruct op; discriminate E.
  - destruct st; discriminate E.
  - destruct q as [n|r'| | | |h|h n|h n|h n b| | | | |n|n|]; cbn in E; try discriminate E; destruct h; discriminate E.
Qed.

(** induction over executions *)
Section Ind.
Variable inv : marb -> (nat -> option mpc) -> list (event mlabel meter_op meter_ret) -> Prop.
Lemma meter_ind : inv arb_init (fun _ => None) [] ->
  (forall s pcs tr t op, inv s pcs tr -> pcs t = None -> inv s (pupd pcs t (Some (mentry op))) (tr ++ [EInv t op])) ->
  (forall s pcs tr t r, inv s pcs tr -> pcs t = Some (PEnd r) -> inv s (pupd pcs t None) (tr ++ [ERes t r])) ->
  (forall s pcs tr t pc s' l, inv s pcs tr -> pcs t = Some pc -> mstep pc s s' l ->
     (forall id, needs pc = Some id -> m_ready (meter_at s id) = true) ->
     inv s' (pupd pcs t (Some (mnext pc s))) (tr ++ map (EStep t) l)) ->
  forall sched, pc_inv mcode inv (fst (cexec (meter_body mexp) arb_init sched)) (snd (cexec (meter_body mexp) arb_init sched)).
Proof.
  intros H0 Hc Hr Hs. apply (pc_induction (meter_body mexp) arb_init mcode mentry mnext mentry_ok mnext_ok inv H0 Hc).
  { intros s pcs tr t pc r Hi Ht Ec. apply Hr; [exact Hi|]. rewrite Ht. f_equal. now apply mcode_ret. }
  intros s pcs tr t pc e u l k Hi Ht Ec En. destruct (mstep_ok pc e u l k s Ec En) as [M1 M2]. now apply (Hs s).
Qed.
End Ind.
End M.
