(** Invariants of the meter machine. *)
From Coq Require Import ZArith List Lia Arith Permutation.
From Verif.Model Require Import GoInt GoFloat Conc Ewma Meter.
From Verif.Spec Require Import Traces MeterSpec.
From Verif.Proofs Require Import IntFacts LinProofs PcProofs EwmaConc LogFacts MeterPc.
Import ListNotations.
Open Scope Z_scope.

(** ** what a step does to one meter *)
Lemma nth_upd {A} (f : A -> A) d l : forall i j, nth j (upd_nth i f l) d = if (Nat.eqb j i && Nat.ltb i (length l))%bool then f (nth i l d) else nth j l d.
Proof.
  induction l as [|x l IH]; intros i j; [destruct i, j; cbn; try reflexivity; now rewrite Bool.andb_false_r|].
  destruct i as [|i], j as [|j]; cbn; try reflexivity. now rewrite IH.
Qed.
Lemma upd_nth_len {A} (f : A -> A) l : forall i, length (upd_nth i f l) = length l.
Proof. induction l as [|x l IH]; intros [|i]; cbn; auto. Qed.

Lemma meter_at_upd id f s j : meter_at (upd_meter id f s) j =
  if (Nat.eqb j id && Nat.ltb id (length (ms s)))%bool then f (meter_at s id) else meter_at s j.
Proof. apply nth_upd. Qed.
Lemma meter_at_ms s s' j : ms s' = ms s -> meter_at s' j = meter_at s j.
Proof. unfold meter_at. now intros ->. Qed.
Lemma upd_field {A} (p : meter -> A) id f s j : (forall m, p (f m) = p m) -> p (meter_at (upd_meter id f s) j) = p (meter_at s j).
Proof.
  intro H. rewrite meter_at_upd. destruct (Nat.eqb_spec j id) as [->|]; [|reflexivity].
  destruct (Nat.ltb id (length (ms s))); cbn; auto.
Qed.
Lemma upd_hit id f s : (id < length (ms s))%nat -> meter_at (upd_meter id f s) id = f (meter_at s id).
Proof. intro H. rewrite meter_at_upd, Nat.eqb_refl. now apply Nat.ltb_lt in H as ->. Qed.
Lemma upd_miss id f s j : j <> id -> meter_at (upd_meter id f s) j = meter_at s j.
Proof. intro H. rewrite meter_at_upd. now apply Nat.eqb_neq in H as ->. Qed.
Lemma meter_at_new s m j l st wl rl t : meter_at (MkArb (ms s ++ [m]) l st wl rl t) j =
  if Nat.eqb j (length (ms s)) then m else meter_at s j.
Proof.
  unfold meter_at. cbn [ms]. destruct (Nat.eqb_spec j (length (ms s))) as [->|N].
  - now rewrite app_nth2, Nat.sub_diag by lia.
  - destruct (Nat.lt_ge_cases j (length (ms s))) as [H|H]; [now rewrite app_nth1|].
    rewrite app_nth2 by lia. destruct (j - length (ms s))%nat eqn:E; [lia|]. rewrite (nth_overflow (ms s)) by lia. cbn. now destruct n.
Qed.
Lemma meter_at_out s j : (length (ms s) <= j)%nat -> meter_at s j = meter_nil.
Proof. apply nth_overflow. Qed.
Lemma ready_len s j : m_ready (meter_at s j) = true -> (j < length (ms s))%nat.
Proof. intro H. destruct (Nat.lt_ge_cases j (length (ms s))) as [|L]; [assumption|]. now rewrite meter_at_out in H. Qed.

Definition used (o : option mpc) : list nat :=
  match o with
  | Some (PNewLock id) | Some (PNewIns id) | Some (PNewUnlock id) | Some (PMarkAdd id _) | Some (PMarkUpd id _ _)
  | Some (PStopLock id) | Some (PStopDel id) | Some (PStopUnlock id) | Some (PSnap id _) => [id]
  | Some (PPub id rest _) => id :: match rest with Some r => r | None => [] end
  | Some (PTickBegin id rest) | Some (PTick id _ _ rest) | Some (PTicked id rest) => id :: rest
  | _ => []
  end.
Definition newing (o : option mpc) : option nat := match o with Some (PNewLock id) | Some (PNewIns id) => Some id | _ => None end.
Definition deleting (o : option mpc) : option nat := match o with Some (PStopLock id) | Some (PStopDel id) => Some id | _ => None end.
Definition writing (o : option mpc) : bool :=
  match o with Some (PNewIns _) | Some (PNewUnlock _) | Some (PStopDel _) | Some (PStopUnlock _) => true | _ => false end.
Definition reading (o : option mpc) : bool :=
  match o with
  | Some (PTickBegin _ _) | Some (PTick _ _ _ _) | Some (PTicked _ _) | Some PRUnlock | Some (PPub _ (Some _) _) => true
  | _ => false end.

Section M.
Variable mexp : f64 -> f64.
Notation mstep := (mstep mexp).
Notation trace := (list (event mlabel meter_op meter_ret)).

Ltac stepcase St :=
  destruct St as [pc s Hl|s|id s Hw Hr|id s|id s|id n s Hy Hp|id n s Hy Hp|id n s|id n w s|id rest r1 r5 r15 m s|id rest r5 r15 m s
    |id rest r15 m s|id rest m s|id s Hy|id s Hw Hr|id s|id s|order s Hw|id rest s|id w q rest s e' ls Hq Hs|id rest s|s|d s].

Lemma step_len pc s s' l : mstep pc s s' l ->
  length (ms s') = (length (ms s) + match pc with PNew => 1 | _ => 0 end)%nat.
Proof.
  intro St. stepcase St; unfold ewma_set, insert_live, delete_live, set_lock, set_rlocks, upd_meter; cbn [ms];
    rewrite ?upd_nth_len, ?app_length; try (cbn; lia). destruct pc; cbn; try lia; discriminate Hl.
Qed.

Section Fld.
Context {A : Type}.
Variable p : meter -> A.
Definition keep (f : meter -> meter) : Prop := forall m, p (f m) = p m.
End Fld.

Lemma keep_upd {A} (p : meter -> A) id f s j : keep p f -> p (meter_at (upd_meter id f s) j) = p (meter_at s j).
Proof. apply upd_field. Qed.

Ltac keeps := intros []; try reflexivity; match goal with w : which |- _ => destruct w; reflexivity end.

Lemma step_count pc s s' l j : mstep pc s s' l -> (forall i, In i (used (Some pc)) -> (i < length (ms s))%nat) ->
  m_count (meter_at s' j) =
  match pc with PMarkAdd id n => if Nat.eqb j id then wrap64 (m_count (meter_at s j) + n) else m_count (meter_at s j)
  | _ => m_count (meter_at s j) end.
Proof.
  intros St Hu. stepcase St; unfold ewma_set; try (rewrite keep_upd by keeps; reflexivity); try reflexivity.
  - destruct pc; try reflexivity; discriminate Hl.
  - rewrite meter_at_new. destruct (Nat.eqb_spec j (length (ms s))) as [->|]; [|reflexivity]. now rewrite meter_at_out.
  - apply (keep_upd m_count id set_ready). keeps.
  - destruct (Nat.eqb_spec j id) as [->|N]; [|now rewrite upd_miss].
    rewrite upd_hit; [reflexivity|]. apply Hu. now left.
Qed.

Lemma step_stopped pc s s' l j : mstep pc s s' l -> (forall i, needs pc = Some i -> m_ready (meter_at s i) = true) ->
  m_stopped (meter_at s' j) = match pc with PStop id => (Nat.eqb j id || m_stopped (meter_at s j))%bool | _ => m_stopped (meter_at s j) end.
Proof.
  intros St Hu. stepcase St; unfold ewma_set; try (rewrite keep_upd by keeps; reflexivity); try reflexivity.
  - destruct pc; try reflexivity; discriminate Hl.
  - rewrite meter_at_new. destruct (Nat.eqb_spec j (length (ms s))) as [->|]; [|reflexivity]. now rewrite meter_at_out.
  - apply (keep_upd m_stopped id set_ready). keeps.
  - destruct (Nat.eqb_spec j id) as [->|N]; [|now rewrite upd_miss]. rewrite upd_hit; [reflexivity|]. now apply ready_len.
Qed.

Lemma step_ready pc s s' l j : mstep pc s s' l -> (forall i, In i (used (Some pc)) -> (i < length (ms s))%nat) ->
  m_ready (meter_at s' j) = match pc with PNewIns id => (Nat.eqb j id || m_ready (meter_at s j))%bool | _ => m_ready (meter_at s j) end.
Proof.
  intros St Hu. stepcase St; unfold ewma_set; try (rewrite keep_upd by keeps; reflexivity); try reflexivity.
  - destruct pc; try reflexivity; discriminate Hl.
  - rewrite meter_at_new. destruct (Nat.eqb_spec j (length (ms s))) as [->|]; [|reflexivity]. now rewrite meter_at_out.
  - change (insert_live id s) with (MkArb (ms (upd_meter id set_ready s)) (live s ++ [id]) true (wlock s) (rlocks s) (now s)).
    rewrite (meter_at_ms (upd_meter id set_ready s)) by reflexivity.
    destruct (Nat.eqb_spec j id) as [->|N]; [|now rewrite upd_miss]. rewrite upd_hit; [reflexivity|]. apply Hu. now left.
Qed.

Lemma step_live pc s s' l : mstep pc s s' l ->
  live s' = match pc with PNewIns id => live s ++ [id] | PStopDel id => filter (fun x => negb (Nat.eqb x id)) (live s) | _ => live s end.
Proof. intro St. stepcase St; try reflexivity. destruct pc; try reflexivity; discriminate Hl. Qed.
Lemma step_started pc s s' l : mstep pc s s' l -> started s' = match pc with PNewIns id => true | _ => started s end.
Proof. intro St. stepcase St; try reflexivity. destruct pc; try reflexivity; discriminate Hl. Qed.
Lemma step_wlock pc s s' l : mstep pc s s' l ->
  wlock s' = match pc with PNewLock _ | PStopLock _ => true | PNewUnlock _ | PStopUnlock _ => false | _ => wlock s end.
Proof. intro St. stepcase St; try reflexivity. destruct pc; try reflexivity; discriminate Hl. Qed.
Lemma step_rlocks pc s s' l : mstep pc s s' l ->
  rlocks s' = match pc with PTickAll _ => S (rlocks s) | PRUnlock => pred (rlocks s) | _ => rlocks s end.
Proof. intro St. stepcase St; try reflexivity. destruct pc; try reflexivity; discriminate Hl. Qed.

(** what a step shows *)
Lemma noew {B} (f : mlabel -> list B) id w ls : (forall e, f (LEwma id w e) = []) -> flat_map f (map (LEwma id w) ls) = [].
Proof. intro H. induction ls as [|x ls IH]; [reflexivity|]. cbn. now rewrite H. Qed.
Lemma noewf f id w ls : (forall e, f (LEwma id w e) = false) -> filter f (map (LEwma id w) ls) = [].
Proof. intro H. induction ls as [|x ls IH]; [reflexivity|]. cbn. now rewrite H. Qed.

Lemma lab_inserted pc s s' l : mstep pc s s' l -> inserted l = match pc with PNewIns id => [id] | _ => [] end.
Proof. intro St. stepcase St; try reflexivity; [destruct pc; try reflexivity; discriminate|destruct (started s); reflexivity|now apply noew]. Qed.
Lemma lab_deleted pc s s' l : mstep pc s s' l -> deleted l = match pc with PStopDel id => [id] | _ => [] end.
Proof. intro St. stepcase St; try reflexivity; [destruct pc; try reflexivity; discriminate|destruct (started s); reflexivity|now apply noew]. Qed.
Lemma lab_marked pc s s' l j : mstep pc s s' l -> marked j l = match pc with PMarkAdd id n => if Nat.eqb id j then [n] else [] | _ => [] end.
Proof.
  intro St. stepcase St; try reflexivity; [destruct pc; try reflexivity; discriminate|destruct (started s); reflexivity| |now apply noew].
  cbn. now destruct (Nat.eqb id j).
Qed.
Lemma lab_wins pc s s' l j : mstep pc s s' l ->
  wins j l = match pc with PStop id => if (negb (m_stopped (meter_at s id)) && Nat.eqb id j)%bool then 1%nat else 0%nat | _ => 0%nat end.
Proof.
  unfold wins. intro St. stepcase St; try reflexivity; [destruct pc; try reflexivity; discriminate|destruct (started s); reflexivity| |now rewrite noewf].
  cbn. destruct (m_stopped (meter_at s id)); cbn; [reflexivity|]. now destruct (Nat.eqb id j).
Qed.
Lemma lab_spawns pc s s' l : mstep pc s s' l -> spawns l = match pc with PNewIns _ => if started s then 0%nat else 1%nat | _ => 0%nat end.
Proof.
  unfold spawns. intro St. stepcase St; try reflexivity; [destruct pc; try reflexivity; discriminate|destruct (started s); reflexivity|now rewrite noewf].
Qed.
Lemma lab_begun pc s s' l : mstep pc s s' l -> rounds_begun l = match pc with PTickAll _ => 1%nat | _ => 0%nat end.
Proof.
  unfold rounds_begun. intro St. stepcase St; try reflexivity; [destruct pc; try reflexivity; discriminate|destruct (started s); reflexivity|now rewrite noewf].
Qed.
Lemma lab_ended pc s s' l : mstep pc s s' l -> rounds_ended l = match pc with PRUnlock => 1%nat | _ => 0%nat end.
Proof.
  unfold rounds_ended. intro St. stepcase St; try reflexivity; [destruct pc; try reflexivity; discriminate|destruct (started s); reflexivity|now rewrite noewf].
Qed.

Lemma inserted_app a b : inserted (a ++ b) = inserted a ++ inserted b. Proof. apply flat_map_app. Qed.
Lemma deleted_app a b : deleted (a ++ b) = deleted a ++ deleted b. Proof. apply flat_map_app. Qed.
Lemma marked_app j a b : marked j (a ++ b) = marked j a ++ marked j b. Proof. apply flat_map_app. Qed.
Lemma wins_app j a b : wins j (a ++ b) = (wins j a + wins j b)%nat. Proof. unfold wins. now rewrite filter_app, app_length. Qed.
Lemma spawns_app a b : spawns (a ++ b) = (spawns a + spawns b)%nat. Proof. unfold spawns. now rewrite filter_app, app_length. Qed.
Lemma begun_app a b : rounds_begun (a ++ b) = (rounds_begun a + rounds_begun b)%nat. Proof. unfold rounds_begun. now rewrite filter_app, app_length. Qed.
Lemma ended_app a b : rounds_ended (a ++ b) = (rounds_ended a + rounds_ended b)%nat. Proof. unfold rounds_ended. now rewrite filter_app, app_length. Qed.
Lemma sumz_app a b : sumz (a ++ b) = sumz a + sumz b.
Proof. unfold sumz. induction a as [|x a IH]; [reflexivity|]. cbn [app fold_right]. rewrite IH. lia. Qed.

(** ** the state *)
Record inv_st (s : marb) (pcs : nat -> option mpc) (ls : list mlabel) : Prop := {
  st_len : forall t i, In i (used (pcs t)) -> (i < length (ms s))%nat;
  st_count : forall j, m_count (meter_at s j) = wrap64 (sumz (marked j ls));
  st_wins : forall j, wins j ls = b2n (m_stopped (meter_at s j));
  st_ready : forall j, m_ready (meter_at s j) = true <-> In j (inserted ls);
  st_new : forall t j, newing (pcs t) = Some j -> ~ In j (inserted ls);
  st_newu : forall t u j, newing (pcs t) = Some j -> newing (pcs u) = Some j -> t = u;
  st_nodup : NoDup (inserted ls);
  st_live : live s = members ls;
  st_spawns : spawns ls = b2n (started s);
  st_started : started s = true <-> inserted ls <> [];
  st_del : forall t j, deleting (pcs t) = Some j -> m_stopped (meter_at s j) = true /\ ~ In j (deleted ls) /\ In j (inserted ls);
  st_delu : forall t u j, deleting (pcs t) = Some j -> deleting (pcs u) = Some j -> t = u;
  st_dele : forall j, m_stopped (meter_at s j) = true -> In j (deleted ls) \/ exists t, deleting (pcs t) = Some j;
  st_deln : NoDup (deleted ls);
  st_deld : forall j, In j (deleted ls) -> m_stopped (meter_at s j) = true /\ In j (inserted ls);
}.

Lemma neutral_st s pcs ls t x : inv_st s pcs ls -> newing x = None -> deleting x = None -> used x = [] ->
  deleting (pcs t) = None -> inv_st s (pupd pcs t x) ls.
Proof.
  intros [] N1 D1 U1 D0. split; try assumption.
  - intros u i. pcase u t; [now rewrite U1|eauto].
  - intros u j. pcase u t; [now rewrite N1|eauto].
  - intros u v j. pcase u t; pcase v t; rewrite ?N1; try discriminate; eauto.
  - intros u j. pcase u t; [now rewrite D1|eauto].
  - intros u v j. pcase u t; pcase v t; rewrite ?D1; try discriminate; eauto.
  - intros j H. destruct (st_dele0 j H) as [|[u Hu]]; [now left|]. right. exists u. pcase u t; congruence.
Qed.

Lemma members_ins ls id : ~ In id (deleted ls) -> members (ls ++ [LInserted id]) = members ls ++ [id].
Proof.
  intro H. unfold members. rewrite inserted_app, deleted_app. cbn. rewrite app_nil_r, filter_app. cbn.
  destruct (in_dec Nat.eq_dec id (deleted ls)); [contradiction|reflexivity].
Qed.
Lemma members_eq ls ls' : inserted ls' = inserted ls -> deleted ls' = deleted ls -> members ls' = members ls.
Proof. unfold members. now intros -> ->. Qed.
Lemma filter_filter {A} (f g : A -> bool) l : filter f (filter g l) = filter (fun x => (g x && f x)%bool) l.
Proof. induction l as [|x l IH]; [reflexivity|]. cbn. destruct (g x); cbn; [destruct (f x); cbn; now rewrite IH|exact IH]. Qed.
Lemma members_del ls id : members (ls ++ [LDeleted id]) = filter (fun x => negb (Nat.eqb x id)) (members ls).
Proof.
  unfold members. rewrite inserted_app, deleted_app. cbn. rewrite app_nil_r, filter_filter. apply filter_ext. intro x.
  destruct (in_dec Nat.eq_dec x (deleted ls)) as [i|n], (in_dec Nat.eq_dec x (deleted ls ++ [id])) as [i'|n'], (Nat.eqb_spec x id) as [E|E]; cbn; try reflexivity; exfalso.
  - apply n', in_or_app. now left.
  - apply n', in_or_app. now left.
  - apply in_app_or in i'. destruct i' as [i'|[i'|[]]]; [contradiction|congruence].
  - apply n', in_or_app. right. now left.
Qed.
Lemma members_in ls id : In id (members ls) <-> In id (inserted ls) /\ ~ In id (deleted ls).
Proof. unfold members. rewrite filter_In. destruct (in_dec Nat.eq_dec id (deleted ls)); intuition discriminate. Qed.

Lemma used_next pc s i : In i (used (Some (mnext pc s))) ->
  In i (used (Some pc)) \/ (pc = PNew /\ i = length (ms s)) \/ needs pc = Some i \/ In i (live s).
Proof.
  destruct pc as [r| |id|id|id|id n|id n|id n w|id rest st|id|id|id|id|op|id st|order|id rest|id w q rest|id rest| |d]; cbn; auto; try tauto.
  - intros [<-|[]]. auto.
  - destruct (m_stopped (meter_at s id)); cbn; intuition (subst; auto).
  - destruct (next_w w); cbn; auto.
  - destruct st; cbn; auto. destruct rest; cbn; auto.
  - destruct (m_stopped (meter_at s id)); cbn; intuition (subst; auto).
  - destruct op; cbn; try tauto. intuition (subst; auto).
  - destruct st; cbn; auto.
  - intro H. right. right. right. destruct (visit order (live s)) eqn:E; [destruct H|]. cbn in H.
    assert (In i (visit order (live s))) by (rewrite E; exact H). unfold visit in H0. apply in_app_or in H0.
    destruct H0 as [H0|H0]; apply filter_In in H0; [|tauto]. destruct H0 as [_ H0]. unfold memn in H0.
    apply existsb_exists in H0. destruct H0 as (y & Hy & Ey). apply Nat.eqb_eq in Ey. now subst.
  - intro H. left. destruct (wnext q (ewma_get id w s)); try exact H. destruct (next_w w); exact H.
  - intro H. left. destruct rest; [destruct H|]. right. exact H.
Qed.

Lemma newing_next pc s : newing (Some (mnext pc s)) = match pc with PNew => Some (length (ms s)) | PNewLock id => Some id | _ => None end.
Proof.
  destruct pc as [r| |id|id|id|id n|id n|id n w|id rest st|id|id|id|id|op|id st|order|id rest|id w q rest|id rest| |d]; cbn; try reflexivity.
  - now destruct (m_stopped (meter_at s id)).
  - now destruct (next_w w).
  - destruct st; try reflexivity. now destruct rest.
  - now destruct (m_stopped (meter_at s id)).
  - now destruct op.
  - now destruct st.
  - now destruct (visit order (live s)).
  - destruct (wnext q (ewma_get id w s)); try reflexivity. now destruct (next_w w).
  - now destruct rest.
Qed.
Lemma deleting_next pc s : deleting (Some (mnext pc s)) =
  match pc with PStop id => if m_stopped (meter_at s id) then None else Some id | PStopLock id => Some id | _ => None end.
Proof.
  destruct pc as [r| |id|id|id|id n|id n|id n w|id rest st|id|id|id|id|op|id st|order|id rest|id w q rest|id rest| |d]; cbn; try reflexivity.
  - now destruct (m_stopped (meter_at s id)).
  - now destruct (next_w w).
  - destruct st; try reflexivity. now destruct rest.
  - now destruct (m_stopped (meter_at s id)).
  - now destruct op.
  - now destruct st.
  - now destruct (visit order (live s)).
  - destruct (wnext q (ewma_get id w s)); try reflexivity. now destruct (next_w w).
  - now destruct rest.
Qed.
Lemma writing_next pc s : writing (Some (mnext pc s)) =
  match pc with PNewLock _ | PNewIns _ | PStopLock _ | PStopDel _ => true | _ => false end.
Proof.
  destruct pc as [r| |id|id|id|id n|id n|id n w|id rest st|id|id|id|id|op|id st|order|id rest|id w q rest|id rest| |d]; cbn; try reflexivity.
  - now destruct (m_stopped (meter_at s id)).
  - now destruct (next_w w).
  - destruct st; try reflexivity. now destruct rest.
  - now destruct (m_stopped (meter_at s id)).
  - now destruct op.
  - now destruct st.
  - now destruct (visit order (live s)).
  - destruct (wnext q (ewma_get id w s)); try reflexivity. now destruct (next_w w).
  - now destruct rest.
Qed.
Lemma reading_next pc s : reading (Some (mnext pc s)) =
  match pc with PTickAll _ => true | PRUnlock => false | _ => reading (Some pc) end.
Proof.
  destruct pc as [r| |id|id|id|id n|id n|id n w|id rest st|id|id|id|id|op|id st|order|id rest|id w q rest|id rest| |d]; cbn; try reflexivity.
  - now destruct (m_stopped (meter_at s id)).
  - now destruct (next_w w).
  - destruct st; try reflexivity. now destruct rest.
  - now destruct (m_stopped (meter_at s id)).
  - now destruct op.
  - now destruct st.
  - now destruct (visit order (live s)).
  - destruct (wnext q (ewma_get id w s)); try reflexivity. now destruct (next_w w).
  - now destruct rest.
Qed.

Lemma step_st s pcs ls t pc s' l : inv_st s pcs ls -> pcs t = Some pc -> mstep pc s s' l ->
  (forall id, needs pc = Some id -> m_ready (meter_at s id) = true) ->
  inv_st s' (pupd pcs t (Some (mnext pc s))) (ls ++ l).
Proof.
  intros I Ht St Hn. pose proof I as [].
  assert (Hu : forall i, In i (used (Some pc)) -> (i < length (ms s))%nat) by (intros i Hi; apply (st_len0 t); now rewrite Ht).
  assert (Hlive : forall i, In i (live s) -> (i < length (ms s))%nat).
  { intros i Hi. rewrite st_live0 in Hi. apply members_in in Hi. apply ready_len, st_ready0. tauto. }
  assert (Hlen := step_len _ _ _ _ St).
  assert (NewI : match pc with PNewIns id => ~ In id (inserted ls) | _ => True end).
  { destruct pc; trivial. apply (st_new0 t). now rewrite Ht. }
  assert (DelD : match pc with PStopDel id => ~ In id (deleted ls) | _ => True end).
  { destruct pc; trivial. apply (st_del0 t). now rewrite Ht. }
  split.
  - intros u i. pcase u t.
    + intro H. apply used_next in H. destruct H as [H|[[-> ->]|[H|H]]].
      * apply Hu in H. lia.
      * lia.
      * apply Hn, ready_len in H. lia.
      * apply Hlive in H. lia.
    + intro H. apply st_len0 in H. lia.
  - intro j. rewrite (step_count _ _ _ _ _ St Hu), marked_app, (lab_marked _ _ _ _ _ St), sumz_app, st_count0.
    destruct pc; cbn [sumz fold_right]; rewrite ?Z.add_0_r; try reflexivity.
    rewrite Nat.eqb_sym. destruct (Nat.eqb id j); cbn [sumz fold_right]; rewrite ?Z.add_0_r; [|reflexivity]. now rewrite wrap64_add_l.
  - intro j. rewrite (step_stopped _ _ _ _ _ St Hn), wins_app, (lab_wins _ _ _ _ _ St), st_wins0.
    destruct pc; try apply Nat.add_0_r. rewrite (Nat.eqb_sym id j). destruct (Nat.eqb_spec j id) as [->|N]; cbn.
    + destruct (m_stopped (meter_at s id)); reflexivity.
    + rewrite Bool.andb_false_r. apply Nat.add_0_r.
  - intro j. rewrite (step_ready _ _ _ _ _ St Hu), inserted_app, (lab_inserted _ _ _ _ St).
    destruct pc; try (rewrite app_nil_r; apply st_ready0). rewrite Bool.orb_true_iff, Nat.eqb_eq, in_app_iff, st_ready0. cbn.
    split; [intros [->|H]; auto|intros [H|[<-|[]]]; auto].
  - intros u j. rewrite inserted_app, (lab_inserted _ _ _ _ St). pcase u t.
    + rewrite newing_next. destruct pc; try discriminate; rewrite app_nil_r; intros [= <-] Hin.
      * apply st_ready0 in Hin. apply ready_len in Hin. lia.
      * revert Hin. apply (st_new0 t). now rewrite Ht.
    + intros H Hin. destruct pc; rewrite ?app_nil_r in Hin; try (now apply (st_new0 u j)).
      apply in_app_or in Hin. destruct Hin as [Hin|[<-|[]]]; [now apply (st_new0 u j)|]. apply N. apply (st_newu0 u t id); [exact H|now rewrite Ht].
  - intros u v j. pcase u t; pcase v t; auto; rewrite ?newing_next; intros Hx Hy.
    + destruct pc; try discriminate.
      * injection Hx as <-. assert (In (length (ms s)) (used (pcs v))).
        { destruct (pcs v) as [[]|]; try discriminate Hy; injection Hy as ->; now left. }
        apply st_len0 in H. lia.
      * apply (st_newu0 t v j); [|exact Hy]. now rewrite Ht.
    + destruct pc; try discriminate.
      * injection Hy as <-. assert (In (length (ms s)) (used (pcs u))).
        { destruct (pcs u) as [[]|]; try discriminate Hx; injection Hx as ->; now left. }
        apply st_len0 in H. lia.
      * apply (st_newu0 u t j); [exact Hx|]. now rewrite Ht.
    + eauto.
  - rewrite inserted_app, (lab_inserted _ _ _ _ St). destruct pc; rewrite ?app_nil_r; auto.
    apply Permutation_NoDup with (id :: inserted ls); [apply Permutation_cons_append|]. now constructor.
  - rewrite (step_live _ _ _ _ St), st_live0.
    pose proof (lab_inserted _ _ _ _ St) as E1. pose proof (lab_deleted _ _ _ _ St) as E2.
    destruct pc; try (symmetry; apply members_eq; rewrite ?inserted_app, ?deleted_app, ?E1, ?E2; apply app_nil_r).
    + symmetry. rewrite <- (members_ins ls id).
      * apply members_eq; rewrite ?inserted_app, ?deleted_app, ?E1, ?E2; reflexivity.
      * intro H. apply st_deld0 in H. tauto.
    + symmetry. rewrite <- (members_del ls id). apply members_eq; rewrite ?inserted_app, ?deleted_app, ?E1, ?E2; reflexivity.
  - rewrite (step_started _ _ _ _ St), spawns_app, (lab_spawns _ _ _ _ St), st_spawns0. destruct pc; try apply Nat.add_0_r.
    destruct (started s); reflexivity.
  - rewrite (step_started _ _ _ _ St), inserted_app, (lab_inserted _ _ _ _ St). destruct pc; rewrite ?app_nil_r; try apply st_started0.
    split; [|reflexivity]. intros _ E. apply app_eq_nil in E. destruct E; discriminate.
  - intros u j. rewrite deleted_app, inserted_app, (lab_deleted _ _ _ _ St), (lab_inserted _ _ _ _ St), (step_stopped _ _ _ _ _ St Hn). pcase u t.
    + rewrite deleting_next. destruct pc; try discriminate.
      * destruct (m_stopped (meter_at s id)) eqn:E; [discriminate|]. intros [= <-]. rewrite Nat.eqb_refl, !app_nil_r. cbn. split; [reflexivity|].
        split; [|now apply st_ready0, Hn]. intro H. apply st_deld0 in H. destruct H. congruence.
      * intros [= <-]. rewrite !app_nil_r. apply (st_del0 t). now rewrite Ht.
    + intro H. destruct (st_del0 u j H) as (D1 & D2 & D3). rewrite !in_app_iff. split; [|split; [|tauto]].
      * destruct pc; trivial. rewrite D1. apply Bool.orb_true_r.
      * intros [|X]; [contradiction|]. destruct pc; try destruct X as [X|[]]; try contradiction. subst. apply N. apply (st_delu0 u t j); [exact H|now rewrite Ht].
  - intros u v j. pcase u t; pcase v t; auto; rewrite ?deleting_next; intros Hx Hy.
    + destruct pc; try discriminate.
      * destruct (m_stopped (meter_at s id)) eqn:E; [discriminate|]. injection Hx as <-. apply st_del0 in Hy. destruct Hy. congruence.
      * apply (st_delu0 t v j); [|exact Hy]. now rewrite Ht.
    + destruct pc; try discriminate.
      * destruct (m_stopped (meter_at s id)) eqn:E; [discriminate|]. injection Hy as <-. apply st_del0 in Hx. destruct Hx. congruence.
      * apply (st_delu0 u t j); [exact Hx|]. now rewrite Ht.
    + eauto.
  - intros j. rewrite (step_stopped _ _ _ _ _ St Hn), deleted_app, (lab_deleted _ _ _ _ St). intro H.
    assert (Hold : m_stopped (meter_at s j) = true -> (In j (deleted ls ++ match pc with PStopDel id => [id] | _ => [] end) \/ exists u, deleting (pupd pcs t (Some (mnext pc s)) u) = Some j)).
    { intro Hs. destruct (st_dele0 j Hs) as [X|[u Hd]]; [left; apply in_or_app; now left|]. destruct (Nat.eq_dec u t) as [->|N].
      - rewrite Ht in Hd. destruct pc; try discriminate Hd; injection Hd as ->; [right; exists t; now rewrite pupd_same|left; apply in_or_app; right; now left].
      - right. exists u. now rewrite pupd_other. }
    destruct pc; try (now apply Hold). destruct (m_stopped (meter_at s j)) eqn:E; [now apply Hold|]. rewrite Bool.orb_false_r in H.
    apply Nat.eqb_eq in H as ->. right. exists t. rewrite pupd_same, deleting_next. now rewrite E.
  - rewrite deleted_app, (lab_deleted _ _ _ _ St). destruct pc; rewrite ?app_nil_r; auto.
    apply Permutation_NoDup with (id :: deleted ls); [apply Permutation_cons_append|]. now constructor.
  - intros j. rewrite deleted_app, inserted_app, (lab_deleted _ _ _ _ St), (step_stopped _ _ _ _ _ St Hn), !in_app_iff. intros [H|H].
    + destruct (st_deld0 j H) as [D1 D2]. split; [|tauto]. destruct pc; trivial. rewrite D1. apply Bool.orb_true_r.
    + destruct pc; try destruct H as [H|[]]; try contradiction. subst. destruct (st_del0 t j) as (D1 & D2 & D3); [now rewrite Ht|]. tauto.
Qed.
End M.
