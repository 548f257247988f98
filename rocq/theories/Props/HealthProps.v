(** Property C54: health checks.  A check is an address [l]; [OHealth e f] there says
    that its error is [e] and its function [f].  [o_health o f e] is what the function
    does when it is run while the check's error is [e], [run_of o f e] the error
    afterwards (Spec/HealthSpec.v). *)
From Coq Require Import ZArith List String Bool Lia Arith Permutation.
From Verif.Model Require Import GoInt GoFloat GoBase World.
From Verif.Spec Require Import RegistrySpec HealthSpec.
From Verif.Proofs Require Import WorldBase WorldOps WorldCalls WorldStep WorldFrame RegistryProofs RegistryStep RegistryNew HealthProofs.
From Verif.Props Require Import SnapshotProps.
Import ListNotations.
Local Open Scope nat_scope.
Local Open Scope list_scope.

Lemma names_it_true e y l : names_it e y l = true -> nth_error e y = Some (VHealth l).
Proof. unfold names_it. destruct (nth_error e y) as [v|]; [|discriminate]. destruct v; try discriminate. cbn. intros H. apply Nat.eqb_eq in H. now subst. Qed.
Lemma health_set_at mexp (st : state) y x o c l e f : c = OHealthy y /\ x = None \/ c = OUnhealthy y x -> inv st -> nth_error (heap (fst st)) l = Some (OHealth e f) ->
  nth_error (heap (fst (fst (step mexp st (c, o))))) l = Some (OHealth (if names_it (snd st) y l then x else e) f).
Proof.
  intros Hc I E. assert (G : forall v, nth_error (snd st) y = Some v -> cls v = CHealth -> nth_error (heap (fst (health_set v x o (fst st)))) l = Some (OHealth (if names_it (snd st) y l then x else e) f)).
  { intros v Ey C. unfold names_it. rewrite Ey. destruct v; cbn in C; try discriminate; [|exact E].
    assert (V : vok (heap (fst st)) (VHealth l0)) by (destruct I as [_ F]; rewrite Forall_forall in F; apply F; eapply nth_error_In; eauto).
    destruct V as (z & Ez & T). destruct z; cbn in T; try discriminate. unfold health_set, bind, load, store. rewrite Ez. cbn [fst heap set_heap is_check].
    destruct (Nat.eqb_spec l0 l) as [->|D]; [|rewrite lset_nth_neq; auto]. rewrite lset_nth_eq by (eapply nth_lt; eauto). congruence. }
  assert (K : nth_error (snd st) y = None \/ (exists v, nth_error (snd st) y = Some v /\ cls v <> CHealth) -> nth_error (heap (fst st)) l = Some (OHealth (if names_it (snd st) y l then x else e) f)).
  { intros [N|(v & N & C)]; unfold names_it; rewrite N; auto. destruct v; auto. now destruct C. }
  destruct Hc as [[-> ->]| ->]; unfold World.step; cbn [fst snd World.call]; unfold obind, only;
    (destruct (nth_error (snd st) y) as [v|] eqn:Ey; [|apply K; auto]);
    (destruct (class_eqb (cls v) CHealth) eqn:C; [|apply K; right; exists v; split; auto; intros H; rewrite H in C; discriminate]);
    specialize (G v eq_refl); (assert (C' : cls v = CHealth) by (destruct (cls v); try discriminate C; reflexivity)); specialize (G C'); unfold unit_rv, bind;
    match goal with |- context [health_set v ?z o (fst st)] => destruct (health_set v z o (fst st)) as [w' [[]|msg]] end; exact G.
Qed.
Lemma error_eq mexp (st : state) x l e f o : nth_error (snd st) x = Some (VHealth l) -> nth_error (heap (fst st)) l = Some (OHealth e f) ->
  step mexp st (OError x, o) = ((fst st, snd st ++ []), Some (Ok (RErr e))).
Proof. intros E H. unfold World.step. cbn [fst snd World.call]. unfold obind, only. rewrite E. cbn [cls class_eqb]. unfold health_error, bind, load. rewrite H. reflexivity. Qed.

(** a new check's error is nil, its function is the one given *)
Theorem C54_new : forall mexp (st : state) f o, usenil (fst st) = false ->
  exists l, let st1 := fst (step mexp st (ONew (NHealth f), o)) in
    snd (step mexp st (ONew (NHealth f), o)) = Some (Ok (RVal (VHealth l))) /\
    nth_error (snd st1) (List.length (snd st)) = Some (VHealth l) /\
    nth_error (heap (fst st1)) l = Some (OHealth None f) /\ List.length (heap (fst st)) <= l.
Proof.
  intros mexp [w e] f o U. cbn [fst snd] in *. exists (List.length (heap w)). unfold World.step. cbn [fst snd World.call ctor_of]. unfold obind, v_rv, construct, unless_nil, bind, gets. rewrite U.
  unfold alloc, ret. cbn [fst snd yields heap set_heap]. repeat split; auto; rewrite nth_error_app2, Nat.sub_diag by lia; reflexivity.
Qed.
(** Error returns the check's error and changes nothing *)
Theorem C54_error : forall mexp (st : state) x l e f o, nth_error (snd st) x = Some (VHealth l) -> nth_error (heap (fst st)) l = Some (OHealth e f) ->
  step mexp st (OError x, o) = ((fst st, snd st ++ []), Some (Ok (RErr e))).
Proof. exact error_eq. Qed.

(** one call: Healthy and Unhealthy of this check set its error; Check of it runs its function
    once, RunHealthchecks and GetAll once for every name it has in the registry (unless the call
    panics, then possibly fewer times); nothing else changes it *)
Theorem C54_step : forall mexp p c o l e f, let st := reach mexp p in
  nth_error (heap (fst st)) l = Some (OHealth e f) ->
  exists n k, checks (snd st) (fst st) c l n /\ k <= n /\
    ((forall msg, snd (step mexp st (c, o)) <> Some (Panic msg)) -> k = n) /\
    nth_error (heap (fst (fst (step mexp st (c, o))))) l = Some (OHealth (Nat.iter k (run_of o f) (told (snd st) l c e)) f).
Proof.
  intros mexp p c o l e f st. assert (I : inv st) by exact (reach_inv mexp p). clearbody st. intros E.
  assert (Triv : checks (snd st) (fst st) c l 0 -> told (snd st) l c e = e -> nth_error (heap (fst (fst (step mexp st (c, o))))) l = Some (OHealth e f) ->
    exists n k, checks (snd st) (fst st) c l n /\ k <= n /\ ((forall msg, snd (step mexp st (c, o)) <> Some (Panic msg)) -> k = n) /\
      nth_error (heap (fst (fst (step mexp st (c, o))))) l = Some (OHealth (Nat.iter k (run_of o f) (told (snd st) l c e)) f)).
  { intros A B C. exists 0, 0. rewrite B. auto. }
  assert (D : In THealth (touch c) \/ ~ In THealth (touch c)) by (destruct c; cbn; intuition congruence).
  destruct D as [D|D]. 2: { apply Triv; [| |apply untouched; auto]; destruct c; cbn in D |- *; try reflexivity; exfalso; intuition congruence. }
  assert (Reg : forall y v, nth_error (snd st) y = Some v -> cls v = CReg -> exists b es, base v = Some b /\ nth_error (heap (fst st)) b = Some (OReg es)).
  { intros y v Ey C. assert (V : vok (heap (fst st)) v) by (destruct I as [_ F]; rewrite Forall_forall in F; apply F; eapply nth_error_In; eauto).
    destruct (base_reg (fst st) v C V) as (b & B). destruct (base_ok _ v b V B) as (z & Ez & T). destruct z; cbn in T; try discriminate. eauto. }
  assert (Ents : forall b es, nth_error (heap (fst st)) b = Some (OReg es) -> NoDup (map fst es) /\ Forall (vok (heap (fst st))) (map snd (in_order (o_order o) es))).
  { intros b es Eb. destruct (wf_obj _ (proj1 I) _ _ Eb) as [ND F]. split; auto. rewrite Forall_forall in F |- *. intros v Hv. apply in_map_iff in Hv. destruct Hv as (kv & <- & H).
    apply (Permutation_in _ (in_order_perm _ _)) in H. apply (F _ H). }
  assert (Nobase : forall y, (forall v, nth_error (snd st) y = Some v -> cls v <> CReg) -> exists ns, NoDup ns /\ 0 = List.length ns /\ forall nm : string, In nm ns <-> exists v b, nth_error (snd st) y = Some v /\ base v = Some b /\ registered (fst st) b nm = Some (VHealth l)).
  { intros y H. exists []. split; [constructor|]. split; [reflexivity|]. intros nm. split; [intros []|]. intros (v & b & Ey & B & _). apply (H v Ey). destruct v; cbn in B; try discriminate; reflexivity. }
  assert (Names : forall y v b es, nth_error (snd st) y = Some v -> base v = Some b -> nth_error (heap (fst st)) b = Some (OReg es) ->
    exists ns, NoDup ns /\ count l (map snd (in_order (o_order o) es)) = List.length ns /\ forall nm : string, In nm ns <-> exists v b, nth_error (snd st) y = Some v /\ base v = Some b /\ registered (fst st) b nm = Some (VHealth l)).
  { intros y v b es Ey B Eb. destruct (Ents b es Eb) as [ND _]. destruct (count_names es l (o_order o) ND) as (ns & N1 & N2 & N3). exists ns. split; auto. split; auto. intros nm. rewrite N3. split.
    - intros L. exists v, b. split; auto. split; auto. unfold registered. rewrite Eb, <- lookup_find. exact L.
    - intros (v' & b' & Ey' & B' & R). rewrite Ey in Ey'. inversion Ey'; subst v'. rewrite B in B'. inversion B'; subst b'. unfold registered in R. rewrite Eb, <- lookup_find in R. exact R. }
  destruct c; cbn in D; try (exfalso; intuition congruence; fail).
  - (* Check *)
    unfold World.step. cbn [fst snd World.call checks told]. unfold obind, only, names_it. destruct (nth_error (snd st) x) as [v|] eqn:Ey; [|exists 0, 0; auto].
    destruct (class_eqb (cls v) CHealth) eqn:C. 2: { exists 0, 0. destruct v; cbn in *; auto; discriminate. }
    assert (C' : cls v = CHealth) by (destruct (cls v); try discriminate C; reflexivity).
    assert (V : vok (heap (fst st)) v) by (destruct I as [_ F]; rewrite Forall_forall in F; apply F; eapply nth_error_In; eauto).
    pose proof (check_one v l o f (fst st) e V C' E) as K. unfold count in K. cbn [filter] in K. exists (if is_check l v then 1 else 0), (if is_check l v then 1 else 0). split; [reflexivity|]. split; [lia|]. split; [auto|].
    unfold unit_rv, bind. destruct (health_check v o (fst st)) as [w' [[]|msg]]; cbn [fst snd ret] in *; rewrite K; destruct (is_check l v); reflexivity.
  - rewrite (health_set_at mexp st x None o (OHealthy x) l e f); auto. exists 0, 0. cbn. auto.
  - rewrite (health_set_at mexp st x e0 o (OUnhealthy x e0) l e f); auto. exists 0, 0. cbn. auto.
  - (* GetAll *)
    unfold World.step. cbn [fst snd World.call checks told]. unfold obind, only. destruct (nth_error (snd st) r) as [v|] eqn:Ey; [|exists 0, 0; split; [pose proof (Nobase r) as N0; rewrite Ey in N0; apply N0; congruence|cbn; auto]].
    destruct (class_eqb (cls v) CReg) eqn:C. 2: { exists 0, 0. split; [|cbn; auto]. pose proof (Nobase r) as N0. rewrite Ey in N0. apply N0. intros v' Hv. inversion Hv; subst. intros H. rewrite H in C. discriminate. }
    assert (C' : cls v = CReg) by (destruct (cls v); try discriminate C; reflexivity). destruct (Reg r v Ey C') as (b & es & B & Eb).
    destruct (Names r v b es Ey B Eb) as (ns & N1 & N2 & N3). destruct (Ents b es Eb) as [ND F].
    pose proof (get_all_each_sees l o f (in_order (o_order o) es) (fst st) e (proj1 I) F E) as (k & K1 & K2 & K3).
    exists (count l (map snd (in_order (o_order o) es))), k. split; [exists ns; rewrite Ey in N3; auto|]. split; [auto|]. rewrite (reg_get_all_base v b B).
    assert (R : std_get_all b o (fst st) = get_all_each (in_order (o_order o) es) o (fst st)).
    { unfold std_get_all, std_registered. unfold bind at 1 2. rewrite (entries_get_ok b es (fst st) o Eb). reflexivity. }
    unfold bind. rewrite R. destruct (get_all_each _ o (fst st)) as [w' [rs|msg]]; cbn [fst snd] in *; (split; [|exact K3]); intros H; [apply (K2 rs); auto|exfalso; apply (H msg); reflexivity].
  - (* RunHealthchecks *)
    unfold World.step. cbn [fst snd World.call checks told]. unfold obind, only. destruct (nth_error (snd st) r) as [v|] eqn:Ey; [|exists 0, 0; split; [pose proof (Nobase r) as N0; rewrite Ey in N0; apply N0; congruence|cbn; auto]].
    destruct (class_eqb (cls v) CReg) eqn:C. 2: { exists 0, 0. split; [|cbn; auto]. pose proof (Nobase r) as N0. rewrite Ey in N0. apply N0. intros v' Hv. inversion Hv; subst. intros H. rewrite H in C. discriminate. }
    assert (C' : cls v = CReg) by (destruct (cls v); try discriminate C; reflexivity). destruct (Reg r v Ey C') as (b & es & B & Eb).
    destruct (Names r v b es Ey B Eb) as (ns & N1 & N2 & N3). destruct (Ents b es Eb) as [ND F].
    pose proof (check_each_sees l o f (map snd (in_order (o_order o) es)) (fst st) e (proj1 I) F E) as (k & K1 & K2 & K3).
    exists (count l (map snd (in_order (o_order o) es))), k. split; [exists ns; rewrite Ey in N3; auto|]. split; [auto|]. rewrite (reg_run_base v b B).
    assert (R : std_run_healthchecks b o (fst st) = check_each (map snd (in_order (o_order o) es)) o (fst st)).
    { unfold std_run_healthchecks, std_registered. unfold bind at 1 2. rewrite (entries_get_ok b es (fst st) o Eb). reflexivity. }
    unfold unit_rv, bind. rewrite R. destruct (check_each _ o (fst st)) as [w' [rs|msg]]; cbn [fst snd] in *; (split; [|exact K3]); intros H; [apply (K2 rs); auto|exfalso; apply (H msg); reflexivity].
Qed.

(** Check runs the function once: it panics iff the function does, and touches no other object *)
Theorem C54_check : forall mexp (st : state) x l e f o, nth_error (snd st) x = Some (VHealth l) -> nth_error (heap (fst st)) l = Some (OHealth e f) ->
  let st1 := fst (step mexp st (OCheck x, o)) in
  snd (step mexp st (OCheck x, o)) = Some (if panics (o_health o f e) then Panic msg_user else Ok RUnit) /\
  nth_error (heap (fst st1)) l = Some (OHealth (verdict (o_health o f e) e) f) /\
  forall k, k <> l -> nth_error (heap (fst st1)) k = nth_error (heap (fst st)) k.
Proof.
  intros mexp st x l e f o E H. destruct (health_check_ok o l f (fst st) e H) as (w' & R & E' & K).
  unfold World.step. cbn [fst snd World.call]. unfold obind, only. rewrite E. cbn [cls class_eqb]. unfold unit_rv, bind. rewrite R. unfold outcome. destruct (panics (o_health o f e)); cbn [fst snd ret]; auto.
Qed.

(** the error after any calls that run no checks: that of the last Healthy or Unhealthy *)
Fixpoint last_told (mexp : f64 -> f64) (st : state) (l : nat) (q : list (op * orc)) (e : option err) : option err :=
  match q with [] => e | (c, o) :: r => last_told mexp (fst (step mexp st (c, o))) l r (told (snd st) l c e) end.
Definition runs_checks (c : op) : bool := match c with OCheck _ | ORunHealthchecks _ | OGetAll _ => true | _ => false end.
Theorem C54_last_verdict : forall mexp q p x l e f o, let st := reach mexp p in
  nth_error (snd st) x = Some (VHealth l) -> nth_error (heap (fst st)) l = Some (OHealth e f) -> forallb (fun co => negb (runs_checks (fst co))) q = true ->
  snd (step mexp (run mexp st q) (OError x, o)) = Some (Ok (RErr (last_told mexp st l q e))).
Proof.
  intros mexp q p x l e f o st. subst st. revert p e. induction q as [|[c oc] q IH]; intros p e Ex E Q.
  - cbn [last_told]. rewrite (error_eq mexp (run mexp (reach mexp p) []) x l e f o Ex E). reflexivity.
  - cbn [forallb fst] in Q. apply andb_true_iff in Q. destruct Q as [Q1 Q2].
    destruct (C54_step mexp p c oc l e f E) as (n & k & A & B & _ & D).
    assert (Z : k = 0). { destruct c; cbn in A, Q1; try discriminate Q1; lia. } subst k. cbn [Nat.iter nat_rect] in D.
    assert (R : fst (step mexp (reach mexp p) (c, oc)) = reach mexp (p ++ [(c, oc)])) by (unfold reach, run; rewrite fold_left_app; reflexivity).
    change (run mexp (reach mexp p) ((c, oc) :: q)) with (run mexp (fst (step mexp (reach mexp p) (c, oc))) q). cbn [last_told]. rewrite R in *. apply IH; auto. rewrite <- R. apply step_env. exact Ex.
Qed.

(** RunHealthchecks affects health checks only, and returns if none of the functions panics *)
Theorem C54_run_only : forall mexp p r o, let st := reach mexp p in let st1 := fst (step mexp st (ORunHealthchecks r, o)) in
  (forall l z, nth_error (heap (fst st)) l = Some z -> (forall e f, z <> OHealth e f) -> nth_error (heap (fst st1)) l = Some z) /\
  alive (fst st1) = alive (fst st) /\ snd st1 = snd st.
Proof.
  intros mexp p r o st. assert (I : inv st) by exact (reach_inv mexp p). clearbody st. cbv zeta. split; [|split].
  - intros l z E N. apply untouched; auto. cbn. intros [H|[]]. destruct z; cbn in H; try discriminate. eapply N; reflexivity.
  - apply unmoved. reflexivity.
  - unfold World.step. cbn [fst snd World.call]. unfold obind, only. destruct (nth_error (snd st) r) as [v|]; auto. destruct (class_eqb (cls v) CReg); auto. unfold unit_rv, bind.
    destruct (reg_run_healthchecks v o (fst st)) as [w' [[]|msg]]; cbn [fst snd ret yields]; auto. now rewrite app_nil_r.
Qed.
Theorem C54_run_returns : forall mexp p r v b o, let st := reach mexp p in
  nth_error (snd st) r = Some v -> base v = Some b ->
  (forall n l e f, registered (fst st) b n = Some (VHealth l) -> nth_error (heap (fst st)) l = Some (OHealth e f) -> forall e', panics (o_health o f e') = false) ->
  snd (step mexp st (ORunHealthchecks r, o)) = Some (Ok RUnit).
Proof.
  intros mexp p r v b o st. assert (I : inv st) by exact (reach_inv mexp p). clearbody st. intros Er B H.
  assert (V : vok (heap (fst st)) v) by (destruct I as [_ F]; rewrite Forall_forall in F; apply F; eapply nth_error_In; eauto).
  destruct (base_ok _ v b V B) as (z & Eb & T). destruct z; cbn in T; try discriminate. rename entries into es.
  destruct (wf_obj _ (proj1 I) _ _ Eb) as [ND F].
  assert (R : std_run_healthchecks b o (fst st) = check_each (map snd (in_order (o_order o) es)) o (fst st)).
  { unfold std_run_healthchecks, std_registered. unfold bind at 1 2. rewrite (entries_get_ok b es (fst st) o Eb). reflexivity. }
  assert (K : snd (check_each (map snd (in_order (o_order o) es)) o (fst st)) = Ok tt).
  { assert (P : forall u, In u (map snd (in_order (o_order o) es)) -> exists n, In (n, u) es).
    { intros u Hu. apply in_map_iff in Hu. destruct Hu as ([n u'] & <- & Hu). exists n. apply (Permutation_in _ (in_order_perm _ _) Hu). }
    rewrite Forall_forall in F. apply check_each_ok; [apply I| |].
    - apply Forall_forall. intros u Hu. destruct (P u Hu) as (n & Hn). apply (F _ Hn).
    - intros l e f Hl E. destruct (P _ Hl) as (n & Hn). apply (H n l e f); auto. unfold registered. rewrite Eb, <- lookup_find. apply in_lookup; auto. }
  assert (C : cls v = CReg) by (destruct v; cbn in B; try discriminate; reflexivity).
  unfold World.step. cbn [fst snd World.call]. unfold obind, only. rewrite Er, C. cbn [class_eqb]. unfold unit_rv, bind. rewrite (reg_run_base v b B), R.
  destruct (check_each _ o (fst st)) as [w' x]; cbn [snd] in K. rewrite K. reflexivity.
Qed.

(** a check whose function flips the verdict, registered under two names, next to a check that is
    not registered: RunHealthchecks runs it twice, Check once, and the other one not at all *)
Definition flip : orc := MkOrc 0 0 f_zero (fun _ => 0%Z) (fun _ => f_zero)
  (fun _ e => match e with None => [HUnhealthy (Some (EUser 5))] | Some _ => [HHealthy] end) [].
Definition checked2 : list (op * orc) :=
  [(ONew (NHealth 7), flip); (ORegister 0 "a" 1, flip); (ORegister 0 "b" 1, flip); (ONew (NHealth 8), flip); (ONew NCounter, flip); (ORegister 0 "c" 3, flip)].
Example C54_example : forall mexp, let st := reach mexp checked2 in
  nth_error (snd st) 1 = Some (VHealth 2) /\ nth_error (heap (fst st)) 2 = Some (OHealth None 7) /\
  checks (snd st) (fst st) (ORunHealthchecks 0) 2 2 /\
  snd (step mexp (fst (step mexp st (OCheck 1, flip))) (OError 1, flip)) = Some (Ok (RErr (Some (EUser 5)))) /\
  snd (step mexp (fst (step mexp st (ORunHealthchecks 0, flip))) (OError 1, flip)) = Some (Ok (RErr None)) /\
  snd (step mexp (run mexp st [(OUnhealthy 1 (Some (EUser 1)), flip); (OUnhealthy 2 (Some (EUser 9)), flip); (OHealthy 1, flip)]) (OError 2, flip)) = Some (Ok (RErr (Some (EUser 9)))).
Proof.
  intros mexp. cbv zeta. split; [reflexivity|]. split; [reflexivity|]. split; [|split; [reflexivity|split; reflexivity]].
  exists ["a"; "b"]%string. split; [repeat constructor; cbn; intuition discriminate|]. split; [reflexivity|]. intros nm. split.
  - intros H. exists (VReg 0), 0. split; [reflexivity|]. split; [reflexivity|]. destruct H as [<-|[<-|[]]]; reflexivity.
  - intros (v & b & Ev & B & R). inversion Ev; subst v. inversion B; subst b. unfold registered in R.
    assert (Er : nth_error (heap (fst (reach mexp checked2))) 0 = Some (OReg [("a", VHealth 2); ("b", VHealth 2); ("c", VCounter 4)]%string)) by reflexivity.
    unfold default_reg in R. rewrite Er in R. cbn [find fst snd option_map] in R.
    destruct (String.eqb_spec "a" nm); [subst; left; auto|]. destruct (String.eqb_spec "b" nm); [subst; right; left; auto|]. destruct (String.eqb_spec "c" nm); discriminate R.
Qed.
