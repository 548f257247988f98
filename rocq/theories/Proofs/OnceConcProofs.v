(** Proofs about the registration of the runtime's metrics by several goroutines. *)
From Coq Require Import List String Arith Lia Bool.
From Verif.Model Require Import Conc Runtime OnceConc.
From Verif.Spec Require Import Traces OnceConcSpec.
From Verif.Proofs Require Import LinProofs PcProofs LogFacts.
Import ListNotations.
Local Open Scope list_scope.
Local Opaque creates names uses.

Section Family.
Variable g : family.
(** program points *)
Inductive opc :=
| PFast (r : option nat) | PLock (r : option nat) | PCheck (r : option nat)
| PCreate (r : option nat) (f : string) (fs : list string)
| PPut (x : nat) (n f : string) (ns : list (string * string))
| PStore (r : option nat) (x : once_ret) | PUnlock (r : option nat) (x : once_ret) | PEndR (r : option nat) (x : once_ret)
| PUse (k : nat) (f : string) (fs : list string) | PEndU (k : nat) (x : once_ret).
Definition ocode_of (pc : opc) : ocode :=
  match pc with
  | PFast r => do_c g r | PLock r => lock_c g r | PCheck r => check_c g r
  | PCreate r f fs => create_c g r (f :: fs)
  | PPut x n f ns => put_c x ((n, f) :: ns)
  | PStore _ x => store_done x | PUnlock _ x => unlock_c x | PEndR _ x => Ret x
  | PUse _ f fs => use_c (f :: fs) | PEndU _ x => Ret x
  end.
Definition at_put (x : nat) (ns : list (string * string)) : opc := match ns with [] => PStore (Some x) Returned | (n, f) :: r => PPut x n f r end.
Definition at_create (r : option nat) (fs : list string) : opc :=
  match fs with [] => match r with Some x => at_put x (names g) | None => PStore None Panicked end | f :: fs' => PCreate r f fs' end.
Definition at_use (k : nat) (fs : list string) : opc := match fs with [] => PEndU k Returned | f :: r => PUse k f r end.
Definition oentry (op : once_op) : opc := match op with Register r => PFast r | Capture k => at_use k (uses g k) end.
Definition onext (pc : opc) (s : once) : opc :=
  match pc with
  | PFast r => if o_done s then PEndR r Returned else PLock r
  | PLock r => PCheck r
  | PCheck r => if o_done s then PUnlock r Returned else at_create r (creates g)
  | PCreate r f fs => at_create r fs
  | PPut x n f ns => at_put x ns
  | PStore r x => PUnlock r x
  | PUnlock r x => PEndR r x
  | PUse k f fs => if is_set f s then at_use k fs else PEndU k Panicked
  | PEndR _ _ | PEndU _ _ => pc
  end.
Lemma at_put_code x ns : ocode_of (at_put x ns) = put_c x ns.
Proof. destruct ns as [|[n f] ns]; reflexivity. Qed.
Lemma at_create_code r fs : ocode_of (at_create r fs) = create_c g r fs.
Proof. destruct fs as [|f fs]; [|reflexivity]. destruct r as [x|]; [|reflexivity]. cbn [at_create create_c]. apply at_put_code. Qed.
Lemma at_use_code k fs : ocode_of (at_use k fs) = use_c fs.
Proof. destruct fs; reflexivity. Qed.
Lemma oentry_ok op : once_body g op = ocode_of (oentry op).
Proof. destruct op; [reflexivity|]. cbn [once_body oentry]. now rewrite at_use_code. Qed.
Lemma onext_ok pc e u l k s : ocode_of pc = Atom e u l k -> e s = true -> k s = ocode_of (onext pc s).
Proof.
  destruct pc; cbn; intros H _; try discriminate H; injection H as <- <- <- <-; try reflexivity.
  - now destruct (o_done s).
  - destruct (o_done s); [reflexivity|]. now rewrite at_create_code.
  - now rewrite at_create_code.
  - now rewrite at_put_code.
  - destruct (is_set f s); [now rewrite at_use_code|reflexivity].
Qed.

Definition op_at (pc : opc) : once_op :=
  match pc with
  | PFast r | PLock r | PCheck r | PCreate r _ _ | PStore r _ | PUnlock r _ | PEndR r _ => Register r
  | PPut x _ _ _ => Register (Some x)
  | PUse k _ _ | PEndU k _ => Capture k
  end.
Definition holding (pc : opc) : bool := match pc with PCheck _ | PCreate _ _ _ | PPut _ _ _ _ | PStore _ _ | PUnlock _ _ => true | _ => false end.
Definition working (pc : opc) : bool := match pc with PCreate _ _ _ | PPut _ _ _ _ | PStore _ _ => true | _ => false end.
Lemma op_at_put x ns : op_at (at_put x ns) = Register (Some x).
Proof. destruct ns as [|[n f] ns]; reflexivity. Qed.
Lemma op_at_create r fs : op_at (at_create r fs) = Register r.
Proof. destruct fs; [|reflexivity]. destruct r; [apply op_at_put|reflexivity]. Qed.
Lemma op_at_use k fs : op_at (at_use k fs) = Capture k.
Proof. now destruct fs. Qed.
Lemma op_at_next pc s : op_at (onext pc s) = op_at pc.
Proof. destruct pc; cbn [onext]; rewrite ?op_at_create, ?op_at_put; try reflexivity; try (destruct (o_done s); rewrite ?op_at_create; reflexivity). destruct (is_set f s); [apply op_at_use|reflexivity]. Qed.
Lemma op_at_entry op : op_at (oentry op) = op.
Proof. destruct op; [reflexivity|apply op_at_use]. Qed.
Lemma working_put x ns : working (at_put x ns) = true /\ holding (at_put x ns) = true.
Proof. destruct ns as [|[n f] ns]; split; reflexivity. Qed.
Lemma working_create r fs : working (at_create r fs) = true /\ holding (at_create r fs) = true.
Proof. destruct fs; [|split; reflexivity]. destruct r; [apply working_put|split; reflexivity]. Qed.
Lemma idle_use k fs : working (at_use k fs) = false /\ holding (at_use k fs) = false.
Proof. destruct fs; split; reflexivity. Qed.
Lemma working_holding pc : working pc = true -> holding pc = true.
Proof. destruct pc; cbn; congruence. Qed.

(** how far the one registration is *)
Definition all_set (s : once) (fs : list string) : Prop := forall f, In f fs -> In f (o_set s).
Definition puts (x : nat) (ns : list (string * string)) : list once_act := map (fun nf => Put x (fst nf) (snd nf)) ns.
Definition ret_of (r : option nat) : once_ret := match r with Some _ => Returned | None => Panicked end.
Definition progress (pc : opc) (acts : list once_act) (s : once) : Prop :=
  match pc with
  | PCreate r f fs => exists pre, creates g = pre ++ f :: fs /\ acts = map Created pre /\ all_set s pre
  | PPut x n f ns => exists pre, names g = pre ++ (n, f) :: ns /\ acts = map Created (creates g) ++ puts x pre /\ all_set s (creates g)
  | PStore r x => acts = plan g r /\ all_set s (creates g) /\ x = ret_of r
  | _ => True
  end.
Lemma progress_put x pre ns acts s : names g = pre ++ ns -> acts = map Created (creates g) ++ puts x pre -> all_set s (creates g) -> progress (at_put x ns) acts s.
Proof.
  intros E A S0. destruct ns as [|[n f] ns]; cbn [at_put progress].
  - rewrite app_nil_r in E. subst pre. now split.
  - exists pre. auto.
Qed.
Lemma progress_create r pre fs acts s : creates g = pre ++ fs -> acts = map Created pre -> all_set s pre -> progress (at_create r fs) acts s.
Proof.
  intros E A S0. destruct fs as [|f fs]; cbn [at_create].
  - rewrite app_nil_r in E. subst pre. destruct r as [x|].
    + apply (progress_put x []); [reflexivity| |exact S0]. cbn. now rewrite app_nil_r.
    + cbn. unfold plan. rewrite app_nil_r. auto.
  - exists pre. auto.
Qed.
Definition use_ok (pc : opc) (ls : list once_act) : Prop :=
  match pc with
  | PUse k f fs => exists pre, uses g k = pre ++ f :: fs /\ ls = map Used pre
  | PEndU k Returned => ls = map Used (uses g k)
  | PEndU k Panicked => exists pre f post, uses g k = pre ++ f :: post /\ ls = map Used pre ++ [UsedNil f]
  | _ => True
  end.
Lemma use_ok_use k pre fs : uses g k = pre ++ fs -> use_ok (at_use k fs) (map Used pre).
Proof. intros E. destruct fs as [|f fs]; cbn; [rewrite app_nil_r in E; now rewrite E|]. exists pre. auto. Qed.
(** a nil metric is used only before any call of the Register function has ended *)
Definition nil_before (tr : list (event once_act once_op once_ret)) : Prop :=
  forall a t f b, tr = a ++ EStep t (UsedNil f) :: b -> ~ register_ended a.

Record ofacts (s : once) (pcs : nat -> option opc) (tr : list (event once_act once_op once_ret)) : Prop := {
  of_link : forall t, match pcs t with
    | None => open_call t tr = None
    | Some pc => (exists ls, open_call t tr = Some (op_at pc, ls) /\ use_ok pc ls) /\ In (op_at pc) (calls tr)
    end;
  of_locked : forall t pc, pcs t = Some pc -> holding pc = true -> o_locked s = true;
  of_holder : o_locked s = true -> exists t pc, pcs t = Some pc /\ holding pc = true;
  of_unique : forall t u pc pc', pcs t = Some pc -> pcs u = Some pc' -> holding pc = true -> holding pc' = true -> t = u;
  of_work : forall t pc, pcs t = Some pc -> working pc = true -> o_done s = false /\ progress pc (registered tr) s;
  of_rest : (exists t pc, pcs t = Some pc /\ working pc = true) \/ (o_done s = false /\ registered tr = []) \/
            (o_done s = true /\ exists r, In (Register r) (calls tr) /\ registered tr = plan g r /\ all_set s (creates g));
  of_past : forall t r x, pcs t = Some (PUnlock r x) \/ pcs t = Some (PEndR r x) -> o_done s = true /\ (x = Panicked -> r = None /\ registered tr = plan g None);
  of_end : forall t c r, In c (done_calls t tr) -> c_op c = Register r -> o_done s = true /\ (c_ret c = Panicked -> r = None /\ registered tr = plan g None);
  of_capture : forall t c k, In c (done_calls t tr) -> c_op c = Capture k -> use_ok (PEndU k (c_ret c)) (c_labels c);
  of_nil : nil_before tr
}.

Lemma registered_app a b : registered (a ++ b) = registered a ++ registered b.
Proof. unfold registered, labels. now rewrite flat_map_app, filter_app. Qed.
Lemma registered_steps t l : registered (map (EStep t) l) = filter registers l.
Proof. unfold registered, labels. induction l as [|a l IH]; [reflexivity|]. cbn. rewrite <- IH. reflexivity. Qed.
Lemma registered_inv tr t op : registered (tr ++ [EInv t op]) = registered tr.
Proof. rewrite registered_app. apply app_nil_r. Qed.
Lemma registered_res tr t x : registered (tr ++ [ERes t x]) = registered tr.
Proof. rewrite registered_app. apply app_nil_r. Qed.
Lemma calls_snoc (tr : list (event once_act once_op once_ret)) e : calls (tr ++ [e]) = calls tr ++ calls [e].
Proof. apply flat_map_app. Qed.
Lemma calls_steps' (tr : list (event once_act once_op once_ret)) t l : calls (tr ++ map (EStep t) l) = calls tr.
Proof. unfold calls. rewrite flat_map_app. replace (flat_map _ (map (EStep t) l)) with (@nil once_op); [apply app_nil_r|]. now induction l. Qed.
Lemma nil_snoc tr e : nil_before tr -> (forall t f, e = EStep t (UsedNil f) -> ~ register_ended tr) -> nil_before (tr ++ [e]).
Proof.
  intros H N a t f b E. destruct (split_snoc tr a _ e E) as [[X _]|(p & X & Y)]; [discriminate X|].
  destruct p as [|y p]; cbn in X.
  - injection X as <- ->. rewrite app_nil_r in Y. subst a. now apply (N t f).
  - injection X as <- ->. apply (H a t f p Y).
Qed.
Lemma nil_app tr t l : nil_before tr -> (forall f, In (UsedNil f) l -> ~ register_ended tr) -> (List.length l <= 1)%nat -> nil_before (tr ++ map (EStep t) l).
Proof.
  intros H N Len. destruct l as [|a [|b l]]; [now rewrite app_nil_r| |cbn in Len; lia]. apply nil_snoc; [exact H|]. intros u f [= -> ->]. apply (N f). now left.
Qed.
Ltac pcase u t := destruct (Nat.eq_dec u t) as [->|?N]; [rewrite ?pupd_same in *|rewrite ?pupd_other in * by assumption].

Lemma ofacts_call s pcs tr t op : ofacts s pcs tr -> pcs t = None -> ofacts s (pupd pcs t (Some (oentry op))) (tr ++ [EInv t op]).
Proof.
  intros [] Ht. assert (H0 : holding (oentry op) = false /\ working (oentry op) = false). { destruct op; [split; reflexivity|]. cbn [oentry]. destruct (idle_use k (uses g k)); auto. } destruct H0 as [Hh Hw].
  split.
  - intros u. rewrite open_inv, calls_snoc. pcase u t.
    + rewrite Nat.eqb_refl, op_at_entry. split; [|apply in_or_app; right; now left]. exists []. split; [reflexivity|]. destruct op as [r|k]; [exact Logic.I|]. cbn [oentry]. apply (use_ok_use k [] (uses g k)). reflexivity.
    + destruct (Nat.eqb_spec t u); [congruence|]. specialize (of_link0 u). destruct (pcs u); [|exact of_link0]. destruct of_link0 as [A B]. split; [exact A|]. apply in_or_app. now left.
  - intros u pc Hu Hp. pcase u t; [injection Hu as <-; congruence|]. now apply (of_locked0 u pc).
  - intros L. destruct (of_holder0 L) as (u & pc & Hu & Hp). exists u, pc. split; [|exact Hp]. rewrite pupd_other; [exact Hu|]. intros ->. congruence.
  - intros u v pc pc' Hu Hv Hp Hp'. pcase u t; [injection Hu as <-; congruence|]. pcase v t; [injection Hv as <-; congruence|]. now apply (of_unique0 u v pc pc').
  - intros u pc Hu Hp. rewrite registered_inv. pcase u t; [injection Hu as <-; congruence|]. now apply (of_work0 u pc).
  - rewrite registered_inv. destruct of_rest0 as [(u & pc & Hu & Hp)|[Z|(D & r & A & B & C)]]; [left|now right; left|right; right].
    + exists u, pc. split; [|exact Hp]. rewrite pupd_other; [exact Hu|]. intros ->. congruence.
    + split; [exact D|]. exists r. split; [|auto]. rewrite calls_snoc. apply in_or_app. now left.
  - intros u r x Hu. rewrite registered_inv. pcase u t; [|now apply (of_past0 u)]. destruct op as [q|k]; cbn [oentry] in Hu; [destruct Hu; discriminate|]. destruct (uses g k); destruct Hu as [Hu|Hu]; discriminate Hu.
  - intros u c r. rewrite done_inv, registered_inv. apply of_end0.
  - intros u c k. rewrite done_inv. apply of_capture0.
  - apply nil_snoc; [exact of_nil0|]. discriminate.
Qed.
Lemma ofacts_ret s pcs tr t pc x : ofacts s pcs tr -> pcs t = Some pc -> ocode_of pc = Ret x -> ofacts s (pupd pcs t None) (tr ++ [ERes t x]).
Proof.
  intros [] Ht E.
  assert (P : (exists r, pc = PEndR r x) \/ exists k, pc = PEndU k x). { destruct pc; try discriminate E; injection E as <-; eauto. }
  assert (Hh : holding pc = false /\ working pc = false) by (destruct P as [(r & ->)|(k & ->)]; split; reflexivity). destruct Hh as [Hh Hw].
  pose proof (of_link0 t) as Lt. rewrite Ht in Lt. destruct Lt as ((ls & Lo & Lu) & _).
  split.
  - intros u. rewrite open_res, calls_snoc. pcase u t; [now rewrite Nat.eqb_refl|]. destruct (Nat.eqb_spec t u); [congruence|]. specialize (of_link0 u). destruct (pcs u); [|exact of_link0]. destruct of_link0 as [A B]. split; [exact A|]. apply in_or_app. now left.
  - intros u pc' Hu Hp. pcase u t; [discriminate|]. now apply (of_locked0 u pc').
  - intros L. destruct (of_holder0 L) as (u & pc' & Hu & Hp). exists u, pc'. split; [|exact Hp]. rewrite pupd_other; [exact Hu|]. intros ->. congruence.
  - intros u v pc1 pc2 Hu Hv Hp Hp'. pcase u t; [discriminate|]. pcase v t; [discriminate|]. now apply (of_unique0 u v pc1 pc2).
  - intros u pc' Hu Hp. rewrite registered_res. pcase u t; [discriminate|]. now apply (of_work0 u pc').
  - rewrite registered_res. destruct of_rest0 as [(u & pc' & Hu & Hp)|[Z|(D & r & A & B & C)]]; [left|now right; left|right; right].
    + exists u, pc'. split; [|exact Hp]. rewrite pupd_other; [exact Hu|]. intros ->. congruence.
    + split; [exact D|]. exists r. split; [|auto]. rewrite calls_snoc. apply in_or_app. now left.
  - intros u r y Hu. rewrite registered_res. pcase u t; [destruct Hu; discriminate|]. now apply (of_past0 u).
  - intros u c r Hc Hr. rewrite done_res in Hc. rewrite registered_res. destruct (Nat.eqb_spec t u) as [<-|N]; [|now apply (of_end0 u c r)]. rewrite Lo in Hc.
    apply in_app_or in Hc. destruct Hc as [Hc|[<-|[]]]; [now apply (of_end0 t c r)|]. cbn [c_op c_ret] in *. destruct P as [(q & ->)|(k & ->)]; [|discriminate Hr]. cbn in Hr. injection Hr as ->. apply (of_past0 t). now right.
  - intros u c k Hc Hr. rewrite done_res in Hc. destruct (Nat.eqb_spec t u) as [<-|N]; [|now apply (of_capture0 u c k)]. rewrite Lo in Hc.
    apply in_app_or in Hc. destruct Hc as [Hc|[<-|[]]]; [now apply (of_capture0 t c k)|]. cbn [c_op c_ret c_labels] in *. destruct P as [(q & ->)|(k' & ->)]; [discriminate Hr|]. cbn in Hr. injection Hr as ->. exact Lu.
  - apply nil_snoc; [exact of_nil0|]. discriminate.
Qed.

(** the steps *)
Inductive ostep : opc -> once -> once -> list once_act -> Prop :=
| S_fast r s : ostep (PFast r) s s []
| S_lock r s : o_locked s = false -> ostep (PLock r) s (MkOnce (o_done s) true (o_set s)) []
| S_check r s : ostep (PCheck r) s s []
| S_create r f fs s : ostep (PCreate r f fs) s (MkOnce (o_done s) (o_locked s) (f :: o_set s)) [Created f]
| S_put x n f ns s : ostep (PPut x n f ns) s s [Put x n f]
| S_store r x s : ostep (PStore r x) s (MkOnce true (o_locked s) (o_set s)) []
| S_unlock r x s : ostep (PUnlock r x) s (MkOnce (o_done s) false (o_set s)) []
| S_use k f fs s : ostep (PUse k f fs) s s [if is_set f s then Used f else UsedNil f].
Lemma ostep_of pc e u l k s : ocode_of pc = Atom e u l k -> e s = true -> ostep pc s (u s) (l s).
Proof. destruct pc; cbn; intros H; try discriminate H; injection H as <- <- <- <-; intros He; constructor. now apply negb_true_iff. Qed.
Lemma step_quiet pc s s' l : ostep pc s s' l -> working pc = false -> o_done s' = o_done s /\ o_set s' = o_set s /\ filter registers l = [].
Proof. intros [] W; try discriminate W; cbn; auto. destruct (is_set f s0); auto. Qed.
Lemma step_hold pc s : holding (onext pc s) = true -> holding pc = true \/ exists r, pc = PLock r.
Proof. destruct pc; cbn [onext holding]; eauto; try discriminate. - destruct (o_done s); discriminate. - destruct (is_set f s); [|discriminate]. destruct (idle_use k fs) as [_ ->]. discriminate. Qed.
Lemma step_held pc s : holding pc = true -> holding (onext pc s) = true \/ exists r x, pc = PUnlock r x.
Proof.
  destruct pc; cbn [onext holding]; try discriminate; intros _; eauto.
  - left. destruct (o_done s); [reflexivity|]. apply working_create.
  - left. apply working_create.
  - left. apply working_put.
Qed.
Hypothesis uses_created : forall k f, In f (uses g k) -> In f (creates g).
Lemma ofacts_step s pcs tr t pc s' l : ofacts s pcs tr -> pcs t = Some pc -> ostep pc s s' l -> ofacts s' (pupd pcs t (Some (onext pc s))) (tr ++ map (EStep t) l).
Proof.
  intros F Ht St. pose proof F as F0. destruct F0.
  pose proof (of_link0 t) as Lt. rewrite Ht in Lt. destruct Lt as ((ls & Lo & Lu) & Lc).
  assert (Dw : o_done s = true -> working pc = false). { intros D. destruct (working pc) eqn:W; [|reflexivity]. destruct (of_work0 t pc Ht W). congruence. }
  assert (Ended : register_ended tr -> o_done s = true) by (intros (u & c & r & A & B); apply (of_end0 u c r A B)).
  assert (AllSet : o_done s = true -> all_set s (creates g)).
  { intros D. destruct of_rest0 as [(u & pc' & Hu & W)|[[Z _]|(_ & r & _ & _ & A)]]; [destruct (of_work0 u pc' Hu W)| |]; congruence || exact A. }
  assert (Others : forall u pc', u <> t -> pcs u = Some pc' -> holding pc' = true -> holding pc = false).
  { intros u pc' N Hu H. destruct (holding pc) eqn:E; [|reflexivity]. elim N. now apply (of_unique0 u t pc' pc). }
  assert (Reg : registered (tr ++ map (EStep t) l) = registered tr ++ filter registers l) by (rewrite registered_app, registered_steps; reflexivity).
  assert (Quiet : working pc = false -> o_done s' = o_done s /\ o_set s' = o_set s /\ registered (tr ++ map (EStep t) l) = registered tr).
  { intros W. destruct (step_quiet _ _ _ _ St W) as (A & B & C). rewrite Reg, C, app_nil_r. auto. }
  split.
  - intros u. rewrite open_steps, calls_steps'. pcase u t.
    + rewrite Nat.eqb_refl, op_at_next, Lo. split; [|exact Lc]. exists (ls ++ l). split; [reflexivity|].
      destruct St; cbn [onext]; try exact Logic.I.
      * destruct (o_done s); exact Logic.I.
      * destruct (o_done s); [exact Logic.I|]. destruct (creates g); cbn [at_create]; [|exact Logic.I]. destruct r; [|exact Logic.I]. destruct (names g) as [|[? ?] ?]; exact Logic.I.
      * destruct fs; cbn [at_create]; [|exact Logic.I]. destruct r; [|exact Logic.I]. destruct (names g) as [|[? ?] ?]; exact Logic.I.
      * destruct ns as [|[? ?] ?]; exact Logic.I.
      * cbn [use_ok] in Lu. destruct Lu as (pre & E & ->). destruct (is_set f s).
        -- replace (map Used pre ++ [Used f]) with (map Used (pre ++ [f])) by (rewrite map_app; reflexivity). apply use_ok_use. rewrite <- app_assoc. exact E.
        -- cbn [use_ok]. exists pre, f, fs. auto.
    + destruct (Nat.eqb_spec t u); [congruence|]. apply of_link0.
  - intros u pc' Hu Hp. pcase u t.
    + injection Hu as <-. destruct St; cbn [onext holding] in *; try reflexivity; try (apply (of_locked0 t _ Ht); reflexivity); try discriminate Hp.
      * destruct (o_done s); discriminate Hp.
      * destruct (is_set f s); [|discriminate Hp]. destruct (idle_use k fs) as [_ X]. congruence.
    + pose proof (of_locked0 u pc' Hu Hp) as L. pose proof (Others u pc' N Hu Hp) as O. destruct St; cbn; try exact L; try reflexivity. discriminate O.
  - intros L. destruct (o_locked s) eqn:Ls.
    + destruct (of_holder0 eq_refl) as (u & pc' & Hu & Hp). destruct (Nat.eq_dec u t) as [->|N].
      * rewrite Ht in Hu. injection Hu as <-. exists t, (onext pc s). rewrite pupd_same. split; [reflexivity|]. destruct (step_held pc s Hp) as [H|(r & x & ->)]; [exact H|]. inversion St; subst. discriminate L.
      * exists u, pc'. rewrite pupd_other by exact N. auto.
    + destruct St; cbn in L; try congruence. exists t, (PCheck r). rewrite pupd_same. split; reflexivity.
  - assert (One : forall v pc', v <> t -> pcs v = Some pc' -> holding pc' = true -> holding (onext pc s) = true -> False).
    { intros v pc' N Hv Hp Hn. destruct (step_hold _ _ Hn) as [H|(r & ->)]; [rewrite (Others v pc' N Hv Hp) in H; discriminate|]. inversion St; subst. rewrite (of_locked0 v pc' Hv Hp) in *. discriminate. }
    intros u v pc1 pc2 Hu Hv Hp Hp'. pcase u t; pcase v t; auto.
    + injection Hu as <-. exfalso. eapply One; eauto.
    + injection Hv as <-. exfalso. eapply One; eauto.
    + now apply (of_unique0 u v pc1 pc2).
  - intros u pc' Hu Hp. pcase u t.
    + injection Hu as <-. rewrite Reg. destruct St; cbn [onext working filter registers] in *; try discriminate Hp.
      * destruct (o_done s); discriminate Hp.
      * destruct (o_done s) eqn:D; [discriminate Hp|]. split; [reflexivity|]. rewrite app_nil_r. apply (progress_create r []); [reflexivity| |intros f []].
        destruct of_rest0 as [(v & pc' & Hv & W)|[[_ Z]|[Z _]]]; [|exact Z|congruence]. exfalso. pose proof (of_unique0 v t pc' (PCheck r) Hv Ht (working_holding _ W) eq_refl) as ->. rewrite Ht in Hv. injection Hv as <-. discriminate W.
      * destruct (of_work0 t _ Ht eq_refl) as (D & pre & E & A & B). split; [exact D|]. apply (progress_create r (pre ++ [f])).
        -- rewrite <- app_assoc. exact E.
        -- rewrite A, map_app. reflexivity.
        -- intros x Hx. cbn. apply in_app_or in Hx. destruct Hx as [Hx|[<-|[]]]; [right; now apply B|now left].
      * destruct (of_work0 t _ Ht eq_refl) as (D & pre & E & A & B). split; [exact D|]. apply (progress_put x (pre ++ [(n, f)])).
        -- rewrite <- app_assoc. exact E.
        -- rewrite A. unfold puts. rewrite map_app, app_assoc. reflexivity.
        -- exact B.
      * destruct (is_set f s); [|discriminate Hp]. destruct (idle_use k fs) as [X _]. congruence.
    + destruct (of_work0 u pc' Hu Hp) as (D & P). pose proof (Others u pc' N Hu (working_holding _ Hp)) as O. assert (W : working pc = false) by (destruct (working pc) eqn:W; [rewrite (working_holding _ W) in O; discriminate|reflexivity]).
      destruct (Quiet W) as (A & B & C). rewrite A, C. split; [exact D|]. destruct pc'; try exact P; cbn [progress] in *; unfold all_set in *; rewrite B; exact P.
  - destruct (working (onext pc s)) eqn:Wn; [left; exists t, (onext pc s); rewrite pupd_same; auto|].
    destruct (working pc) eqn:W.
    + right. right. destruct (of_work0 t pc Ht W) as (D & P). destruct St; try discriminate W; cbn [onext] in Wn.
      * destruct (working_create r fs). congruence.
      * destruct (working_put x ns). congruence.
      * destruct P as (P1 & P2 & P3). split; [reflexivity|]. exists r. rewrite calls_steps', Reg. cbn [filter]. rewrite app_nil_r. split; [exact Lc|]. split; [exact P1|exact P2].
    + destruct (Quiet eq_refl) as (A & B & C). unfold all_set. rewrite A, B, C, calls_steps'. destruct of_rest0 as [(u & pc' & Hu & Wu)|R]; [left|now right].
      exists u, pc'. split; [|exact Wu]. rewrite pupd_other; [exact Hu|]. intros ->. congruence.
  - intros u r x Hu. pcase u t.
    + destruct St; cbn [onext] in Hu; try (destruct Hu; discriminate).
      * destruct (o_done s) eqn:D; destruct Hu as [Hu|Hu]; try discriminate Hu. injection Hu as <- <-. split; [first [exact D|reflexivity]|discriminate].
      * destruct (o_done s) eqn:D; destruct Hu as [Hu|Hu]; try discriminate Hu.
        -- injection Hu as <- <-. split; [first [exact D|reflexivity]|discriminate].
        -- injection Hu as Hu. destruct (working_create r0 (creates g)) as [X _]. rewrite Hu in X. discriminate X.
        -- injection Hu as Hu. destruct (working_create r0 (creates g)) as [X _]. rewrite Hu in X. discriminate X.
      * exfalso. destruct (working_create r0 fs) as [X _]. destruct Hu as [Hu|Hu]; injection Hu as Hu; rewrite Hu in X; discriminate X.
      * exfalso. destruct (working_put x0 ns) as [X _]. destruct Hu as [Hu|Hu]; injection Hu as Hu; rewrite Hu in X; discriminate X.
      * destruct Hu as [Hu|Hu]; [|discriminate Hu]. injection Hu as <- <-. split; [reflexivity|]. intros ->. destruct (of_work0 t _ Ht eq_refl) as (_ & P1 & _ & P3). destruct r0; [discriminate P3|]. split; [reflexivity|]. rewrite Reg. cbn [filter]. now rewrite app_nil_r.
      * destruct Hu as [Hu|Hu]; [discriminate Hu|]. injection Hu as <- <-. destruct (Quiet eq_refl) as (_ & _ & C). rewrite C. cbn [o_done]. apply (of_past0 t). now left.
      * exfalso. destruct (is_set f s); [|destruct Hu; discriminate]. destruct fs; destruct Hu as [Hu|Hu]; discriminate Hu.
    + destruct (of_past0 u r x Hu) as (D & P). destruct (Quiet (Dw D)) as (A & _ & C). rewrite A, C. auto.
  - intros u c r Hc Hr. rewrite done_steps in Hc. destruct (of_end0 u c r Hc Hr) as (D & P). destruct (Quiet (Dw D)) as (A & _ & C). rewrite A, C. auto.
  - intros u c k Hc. rewrite done_steps in Hc. exact (of_capture0 u c k Hc).
  - apply nil_app; [exact of_nil0| |].
    + intros f Hf En. pose proof (AllSet (Ended En)) as As. destruct St; cbn in Hf; try contradiction; try (destruct Hf as [Hf|[]]; discriminate Hf).
      destruct (is_set f0 s) eqn:Es; destruct Hf as [Hf|[]]; try discriminate Hf. injection Hf as ->. cbn [use_ok] in Lu. destruct Lu as (pre & E & _).
      assert (X : is_set f s = true); [|congruence]. unfold is_set. apply existsb_exists. exists f. split; [|apply String.eqb_refl]. apply As, (uses_created k). rewrite E. apply in_or_app. right. now left.
    + destruct St; cbn; lia.
Qed.
Lemma once_all sched : pc_inv ocode_of ofacts (fst (once_exec g sched)) (snd (once_exec g sched)).
Proof.
  apply (pc_induction (once_body g) once_init ocode_of oentry onext oentry_ok onext_ok ofacts).
  - split; try discriminate; try contradiction.
    + intros t. reflexivity.
    + right. now left.
    + intros t r x [H|H]; discriminate H.
    + intros a t f b H. now destruct a.
  - exact ofacts_call.
  - exact ofacts_ret.
  - intros s pcs tr t pc e u l k F Ht E En. apply (ofacts_step s pcs tr t pc (u s) (l s) F Ht). now apply (ostep_of pc e u l k).
Qed.
End Family.
Lemma uses_created g k f : In f (uses g k) -> In f (creates g).
Proof.
  Local Transparent uses creates. destruct g; cbn [uses].
  - intros H. apply in_app_or in H. destruct H as [H|H]; [|apply in_app_or in H; destruct H as [H|H]; [apply repeat_spec in H; subst f|]].
    + repeat (destruct H as [<-|H]; [vm_compute; tauto|]). contradiction.
    + vm_compute; tauto.
    + repeat (destruct H as [<-|H]; [vm_compute; tauto|]). contradiction.
  - intros H. destruct k; repeat (destruct H as [<-|H]; [vm_compute; tauto|]); contradiction.
Qed.
Lemma once_facts g sched : exists pcs, at_pcs (ocode_of g) (fst (once_exec g sched)) pcs /\ ofacts g (sh (fst (once_exec g sched))) pcs (snd (once_exec g sched)).
Proof. exact (once_all g (uses_created g) sched). Qed.

(** ** what follows *)
Lemma registered_prefix g sched : let tr := snd (once_exec g sched) in registered tr = [] \/ exists r later, In (Register r) (calls tr) /\ plan g r = registered tr ++ later.
Proof.
  cbv zeta. destruct (once_facts g sched) as (pcs & _ & []). set (tr := snd _) in *. destruct of_rest0 as [(t & pc & Ht & W)|[[_ Z]|(_ & r & A & B & _)]].
  - right. destruct (of_work0 t pc Ht W) as (_ & P). specialize (of_link0 t). rewrite Ht in of_link0. destruct of_link0 as (_ & C). destruct pc; try discriminate W; cbn [progress op_at] in *.
    + destruct P as (pre & E & -> & _). exists r. unfold plan. rewrite E, map_app, <- app_assoc. eauto.
    + destruct P as (pre & E & -> & _). exists (Some x). unfold plan, puts. rewrite E, (map_app _ pre), app_assoc. eauto.
    + destruct P as (-> & _). exists r, []. now rewrite app_nil_r.
  - left. exact Z.
  - right. exists r, []. rewrite app_nil_r. auto.
Qed.
Lemma registered_all g sched : let tr := snd (once_exec g sched) in register_ended tr -> exists r, In (Register r) (calls tr) /\ registered tr = plan g r.
Proof.
  cbv zeta. destruct (once_facts g sched) as (pcs & _ & []). intros (t & c & r & Hc & Hr). destruct (of_end0 t c r Hc Hr) as (D & _).
  destruct of_rest0 as [(u & pc & Hu & W)|[[Z _]|(_ & q & A & B & _)]]; [destruct (of_work0 u pc Hu W); congruence|congruence|]. eauto.
Qed.
Lemma no_nil_later g sched a t f b u c r : snd (once_exec g sched) = a ++ EStep t (UsedNil f) :: b -> In c (done_calls u a) -> c_op c <> Register r.
Proof. destruct (once_facts g sched) as (pcs & _ & []). intros E Hc Hr. apply (of_nil0 a t f b E). exists u, c, r. auto. Qed.
Lemma panics_only g sched t c r : let tr := snd (once_exec g sched) in In c (done_calls t tr) -> c_op c = Register r -> c_ret c = Panicked -> r = None /\ registered tr = plan g None.
Proof. cbv zeta. destruct (once_facts g sched) as (pcs & _ & []). intros Hc Hr. apply (of_end0 t c r Hc Hr). Qed.
Lemma capture_outcome g sched t c k : In c (done_calls t (snd (once_exec g sched))) -> c_op c = Capture k ->
  (c_ret c = Returned /\ c_labels c = map Used (uses g k)) \/
  (c_ret c = Panicked /\ exists pre f post, uses g k = pre ++ f :: post /\ c_labels c = map Used pre ++ [UsedNil f]).
Proof.
  destruct (once_facts g sched) as (pcs & _ & []). intros Hc Hr. pose proof (of_capture0 t c k Hc Hr) as U. destruct (c_ret c); cbn [use_ok] in U; auto.
Qed.
Lemma moves g sched t : let c := fst (once_exec g sched) in th c t <> Idle -> exists u, can_move c u.
Proof.
  cbv zeta. destruct (once_facts g sched) as (pcs & At & []). set (c := fst _) in *. intros Q.
  assert (X : forall t pc, pcs t = Some pc -> (forall r, pc = PLock r -> o_locked (sh c) = false) -> can_move c t).
  { intros u pc Hu N. specialize (At u). rewrite Hu in At. unfold can_move. destruct (th c u) as [|op cd]; [contradiction|]. subst cd. destruct pc; try reflexivity. cbn [ocode_of lock_c]. now rewrite (N r eq_refl). }
  destruct (o_locked (sh c)) eqn:L.
  - destruct (of_holder0 eq_refl) as (u & pc & Hu & H). exists u. apply (X u pc Hu). intros r ->. discriminate H.
  - exists t. specialize (At t). destruct (pcs t) as [pc|] eqn:Hp; [apply (X t pc Hp); auto|]. destruct (th c t); [congruence|contradiction].
Qed.
