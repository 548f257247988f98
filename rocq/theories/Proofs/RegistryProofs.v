(** Registries refine finite maps. *)
From Coq Require Import ZArith List String Bool Lia Permutation Arith.
From Verif.Model Require Import GoInt GoFloat GoBase Stats Uniform ExpDecay Conc CounterGauge Ewma Meter World.
From Verif.Spec Require Import RegistrySpec.
From Verif.Proofs Require Import WorldBase WorldOps WorldCalls WorldStep WorldFrame.
Import ListNotations.
Local Open Scope nat_scope.
Local Open Scope list_scope.

(** ** names *)
Lemma concat_cons a l : String.concat "" (a :: l) = (a ++ String.concat "" l)%string.
Proof. destruct l; cbn; auto. induction a; cbn; congruence. Qed.
Lemma concat_app ps qs : String.concat "" (ps ++ qs) = (String.concat "" ps ++ String.concat "" qs)%string.
Proof.
  induction ps as [|p ps IH]; [reflexivity|]. rewrite <- app_comm_cons, !concat_cons, IH.
  induction p; cbn; congruence.
Qed.
Lemma full_pref u p n : full (VPref u p) n = full u (p ++ n).
Proof. unfold full. cbn [prefixes]. rewrite !concat_app. cbn. induction (String.concat "" (prefixes u)); cbn; congruence. Qed.
Lemma full_reg l n : full (VReg l) n = n.
Proof. reflexivity. Qed.
Lemma metric_is v : metric v = is_metric v.
Proof. unfold metric, is_metric. destruct (cls v); reflexivity. Qed.

Lemma lookup_find n es : lookup n es = option_map snd (find (fun kv => String.eqb (fst kv) n) es).
Proof. induction es as [|[k v] es IH]; cbn; auto. destruct (String.eqb k n); auto. Qed.
Lemma registered_at w l es n : nth_error (heap w) l = Some (OReg es) -> registered w l n = lookup n es.
Proof. intros E. unfold registered. rewrite E. symmetry. apply lookup_find. Qed.
Lemma lookup_app n es k v : lookup n (es ++ [(k, v)]) = match lookup n es with Some x => Some x | None => if String.eqb k n then Some v else None end.
Proof. induction es as [|[k' v'] es IH]; cbn; auto. destruct (String.eqb k' n); auto. Qed.
Lemma lookup_remove n es k : lookup n (remove k es) = if String.eqb n k then None else lookup n es.
Proof.
  induction es as [|[k' v'] es IH]; cbn; [now destruct (String.eqb n k)|].
  destruct (String.eqb_spec k' k) as [->|D]; cbn; fold (remove k es); rewrite IH.
  - destruct (String.eqb_spec n k) as [->|D2]; auto. destruct (String.eqb_spec k n); congruence.
  - destruct (String.eqb_spec k' n) as [->|D2]; auto. destruct (String.eqb_spec n k); congruence.
Qed.
Lemma lookup_In n es v : lookup n es = Some v -> In (n, v) es.
Proof. induction es as [|[k x] es IH]; cbn; [discriminate|]. destruct (String.eqb_spec k n); [intros [= ->]; subst; auto|auto]. Qed.
Lemma In_lookup n es v : NoDup (map fst es) -> In (n, v) es -> lookup n es = Some v.
Proof.
  induction es as [|[k x] es IH]; cbn; [tauto|]. intros N [E|H]; inversion N; subst.
  - inversion E; subst. now rewrite String.eqb_refl.
  - destruct (String.eqb_spec k n) as [->|D]; auto. exfalso. apply H2. apply in_map_iff. exists (n, v). auto.
Qed.

(** ** registry values *)
Section Base.
Variable l : nat.
Lemma reg_get_std v : base v = Some l -> forall n, reg_get v n = std_get l (full v n).
Proof. induction v; cbn [base]; try discriminate; intros H n; cbn [reg_get]; [inversion H; reflexivity|]. rewrite full_pref. auto. Qed.
Lemma reg_gor_std v : base v = Some l -> forall n mk, reg_get_or_register v n mk = std_get_or_register l (full v n) mk.
Proof. induction v; cbn [base]; try discriminate; intros H n mk; cbn [reg_get_or_register]; [inversion H; reflexivity|]. rewrite full_pref. auto. Qed.
Lemma reg_register_std v : base v = Some l -> forall n i, reg_register v n i = std_register l (full v n) i.
Proof. induction v; cbn [base]; try discriminate; intros H n i; cbn [reg_register]; [inversion H; reflexivity|]. rewrite full_pref. auto. Qed.
Lemma reg_unregister_std v : base v = Some l -> forall n, reg_unregister v n = std_unregister l (full v n).
Proof. induction v; cbn [base]; try discriminate; intros H n; cbn [reg_unregister]; [inversion H; reflexivity|]. rewrite full_pref. auto. Qed.
Lemma reg_unregister_all_std v : base v = Some l -> reg_unregister_all v = std_unregister_all l.
Proof. induction v; cbn [base]; try discriminate; intros H; cbn [reg_unregister_all]; [inversion H; reflexivity|]. auto. Qed.
Lemma reg_run_std v : base v = Some l -> reg_run_healthchecks v = std_run_healthchecks l.
Proof. induction v; cbn [base]; try discriminate; intros H; cbn [reg_run_healthchecks]; [inversion H; reflexivity|]. auto. Qed.
Lemma reg_get_all_std v : base v = Some l -> reg_get_all v = std_get_all l.
Proof. induction v; cbn [base]; try discriminate; intros H; cbn [reg_get_all]; [inversion H; reflexivity|]. auto. Qed.
Lemma find_prefix_spec v : base v = Some l -> forall n, find_prefix v n = (Some l, full v n).
Proof. induction v; cbn [base]; try discriminate; intros H n; cbn [find_prefix]; [inversion H; reflexivity|]. rewrite full_pref. auto. Qed.
End Base.
Lemma vok_base h v : cls v = CReg -> vok h v -> exists l, base v = Some l /\ tagat h l TReg.
Proof. induction v; cbn [cls vok base]; try discriminate; intros C V; [eauto|]. destruct V; auto. Qed.
Lemma base_cls v l : base v = Some l -> cls v = CReg.
Proof. destruct v; cbn; congruence. Qed.
Lemma tag_reg h l : tagat h l TReg -> exists es, nth_error h l = Some (OReg es).
Proof. intros (x & E & T). destruct x; cbn in T; try discriminate. eauto. Qed.

(** ** stopping *)
Definition stop_obj (x : obj) : obj := match x with OMeter s a b c t _ => OMeter s a b c t true | x => x end.
Definition stops (ks : list nat) (w w' : world) : Prop :=
  alive w' = filter (fun k => negb (memn k ks)) (alive w) /\ ticking w' = ticking w /\ usenil w' = usenil w /\
  List.length (heap w') = List.length (heap w) /\
  (forall l x, nth_error (heap w) l = Some x -> tag_of x <> TReg ->
     nth_error (heap w') l = Some (if memn l ks then stop_obj x else x)).
Definition olist {A} (x : option A) : list A := match x with Some a => [a] | None => [] end.

Lemma memn_app k a b : memn k (a ++ b) = memn k a || memn k b.
Proof. unfold memn. apply existsb_app. Qed.
Lemma filter_filter' {A} (f g : A -> bool) l : filter f (filter g l) = filter (fun x => g x && f x) l.
Proof. induction l; cbn; auto. destruct (g a); cbn; [destruct (f a); congruence|auto]. Qed.
Lemma stop_tag x : tag_of (stop_obj x) = tag_of x.
Proof. destruct x; reflexivity. Qed.
Lemma stop_idem x : stop_obj (stop_obj x) = stop_obj x.
Proof. destruct x; reflexivity. Qed.
Lemma stops_nil w : stops [] w w.
Proof. split; [|auto]. cbn. clear. induction (alive w); cbn; congruence. Qed.
Lemma stops_trans a b w w' w'' : stops a w w' -> stops b w' w'' -> stops (a ++ b) w w''.
Proof.
  intros (A1 & A2 & A3 & A4 & A5) (B1 & B2 & B3 & B4 & B5). repeat split; try congruence.
  - rewrite B1, A1, filter_filter'. apply filter_ext. intros k. rewrite memn_app. now destruct (memn k a), (memn k b).
  - intros l x E T. specialize (A5 l x E T). apply B5 in A5; [|destruct (memn l a); rewrite ?stop_tag; auto].
    rewrite A5, memn_app. destruct (memn l a), (memn l b); cbn; rewrite ?stop_idem; reflexivity.
Qed.

Lemma meter_stop_ok o w v : wf w -> cls v = CMeter -> vok (heap w) v ->
  exists w', meter_stop v o w = (w', Ok tt) /\ stops (match v with VMeter k => [k] | _ => [] end) w w' /\
    (forall l es, nth_error (heap w) l = Some (OReg es) -> nth_error (heap w') l = Some (OReg es)).
Proof.
  intros W C V. destruct v; cbn in C; try discriminate; try (exists w; split; [reflexivity|split; [apply stops_nil|auto]]; fail).
  destruct V as (x & E & T). destruct x; cbn in T; try discriminate.
  unfold meter_stop, meter_get, bind, load. rewrite E. cbn [ret mo_stopped]. destruct stopped.
  - exists w. split; [reflexivity|]. split; [|auto]. split; [|split; [auto|split; [auto|split; [auto|]]]].
    + symmetry.
      assert (N : ~ In l (alive w)) by (rewrite (wf_alive w W); intros (s & a & b & c & t & E'); congruence).
      revert N. generalize (alive w). induction l0 as [|k ks IH]; cbn; auto. intros N. rewrite orb_false_r.
      destruct (Nat.eqb_spec k l) as [->|D]; [tauto|]. cbn. f_equal. apply IH. tauto.
    + intros k x Ek Tk. cbn. rewrite orb_false_r. destruct (Nat.eqb_spec k l) as [->|D]; auto. rewrite E in Ek. inversion Ek; subst. rewrite E. reflexivity.
  - eexists. split; [reflexivity|]. cbn [mo_snap mo_a1 mo_a5 mo_a15 mo_start]. pose proof (nth_lt _ _ _ E) as Hl. split.
    + split; [|split; [auto|split; [auto|split; [cbn; apply lset_length|]]]]; cbn [heap alive set_heap].
      * apply filter_ext. intros k. cbn. now rewrite orb_false_r.
      * intros k x Ek Tk. cbn [memn existsb]. rewrite orb_false_r. destruct (Nat.eqb_spec k l) as [->|D].
        -- rewrite E in Ek. inversion Ek; subst. cbn. now rewrite lset_nth_eq.
        -- rewrite lset_nth_neq; auto.
    + intros k es Ek. cbn [heap set_heap]. rewrite lset_nth_neq; auto. intros ->. congruence.
Qed.
Lemma stop_value_ok o w v : wf w -> vok (heap w) v ->
  exists w', stop_value v o w = (w', Ok tt) /\ stops (olist (meter_of w v)) w w' /\
    (forall l es, nth_error (heap w) l = Some (OReg es) -> nth_error (heap w') l = Some (OReg es)).
Proof.
  intros W V. unfold stop_value. destruct (cls v) eqn:C;
    try (exists w; split; [reflexivity|split; [|auto]]; destruct v; cbn in C; try discriminate; apply stops_nil).
  - destruct (meter_stop_ok o w v W C V) as (w' & A & B & D). exists w'. split; auto. split; auto.
    destruct v; cbn in C; try discriminate; exact B.
  - destruct v; cbn in C; try discriminate; try (exists w; split; [reflexivity|split; [apply stops_nil|auto]]; fail).
    destruct V as (x & E & T). destruct x as [| | | | | | | | | | | | |hh m| |]; cbn in T; try discriminate.
    destruct (wf_obj w W _ _ E) as (_ & CM & VM).
    destruct (meter_stop_ok o w m W CM VM) as (w' & A & B & D).
    exists w'. split; [|split; [|exact D]].
    + unfold timer_stop, timer_get, bind, load. rewrite E. cbn [ret]. exact A.
    + cbn [meter_of]. rewrite E. destruct m; cbn in CM; try discriminate; exact B.
Qed.

(** ** the operations of one StandardRegistry *)
Section Std.
Variables (l : nat) (es : list (string * val)) (w : world) (o : orc).
Hypothesis E : nth_error (heap w) l = Some (OReg es).
Lemma entries_get_ok : entries_get l o w = (w, Ok es).
Proof. unfold entries_get, bind, load. rewrite E. reflexivity. Qed.
Lemma std_get_ok n : std_get l n o w = (w, Ok (match lookup n es with Some v => v | None => VNil end)).
Proof. unfold std_get, bind. rewrite entries_get_ok. reflexivity. Qed.
Lemma std_register_ok n v : std_register l n v o w =
  match lookup n es with
  | Some _ => (w, Ok (Some (EDup n)))
  | None => (if is_metric v then set_heap (lset (heap w) l (OReg (es ++ [(n, v)]))) w else w, Ok None)
  end.
Proof. unfold std_register, bind. rewrite entries_get_ok. destruct (lookup n es); [reflexivity|]. destruct (is_metric v); reflexivity. Qed.
End Std.
Lemma std_unregister_ok o w l es n : wf w -> nth_error (heap w) l = Some (OReg es) ->
  exists w', std_unregister l n o w = (w', Ok tt) /\
    stops (match lookup n es with Some v => olist (meter_of w v) | None => [] end) w w' /\
    nth_error (heap w') l = Some (OReg (remove n es)) /\
    (forall l' es', l' <> l -> nth_error (heap w) l' = Some (OReg es') -> nth_error (heap w') l' = Some (OReg es')) /\ wf w'.
Proof.
  intros W E.
  assert (S : exists w1, match lookup n es with Some v => stop_value v | None => ret tt end o w = (w1, Ok tt) /\
     stops (match lookup n es with Some v => olist (meter_of w v) | None => [] end) w w1 /\
     (forall l es, nth_error (heap w) l = Some (OReg es) -> nth_error (heap w1) l = Some (OReg es))).
  { destruct (lookup n es) as [v|] eqn:L.
    - apply stop_value_ok; auto. destruct (wf_obj w W _ _ E) as [_ F]. rewrite Forall_forall in F. apply (F _ (lookup_In _ _ _ L)).
    - exists w. split; [reflexivity|]. split; auto using stops_nil. }
  destruct S as (w1 & R & S & K). pose proof (K _ _ E) as E1. pose proof (nth_lt _ _ _ E1) as Hl.
  eexists. split; [|split; [|split; [|split]]].
  - unfold std_unregister. unfold bind at 1. rewrite (entries_get_ok l es w o E). unfold bind at 1. rewrite R. unfold bind.
    rewrite (entries_get_ok l es w1 o E1). reflexivity.
  - destruct S as (S1 & S2 & S3 & S4 & S5). split; [|split; [|split; [|split]]]; cbn [heap alive ticking usenil set_heap]; auto.
    + rewrite lset_length. auto.
    + intros k x Ek Tk. specialize (S5 k x Ek Tk). rewrite lset_nth_neq; auto. intros <-. rewrite E in Ek. inversion Ek; subst. now apply Tk.
  - cbn [heap set_heap]. now rewrite lset_nth_eq.
  - intros l' es' D Ek. cbn [heap set_heap]. rewrite lset_nth_neq; auto.
  - assert (T : tagat (heap w) l TReg) by (exists (OReg es); auto).
    destruct (t_std_unregister (fun _ => False) 0 l n o w W T) as (W' & _).
    unfold std_unregister, bind at 1 in W'. rewrite (entries_get_ok l es w o E) in W'. unfold bind at 1 in W'. rewrite R in W'. unfold bind in W'.
    rewrite (entries_get_ok l es w1 o E1) in W'. exact W'.
Qed.

(** the meters of some entries *)
Definition meters_in (w : world) (es : list (string * val)) : list nat := flat_map (fun kv => olist (meter_of w (snd kv))) es.
Lemma meter_of_stops ks w w' v : stops ks w w' -> vok (heap w) v -> meter_of w' v = meter_of w v.
Proof.
  intros (_ & _ & _ & _ & S) V. destruct v; auto. cbn [meter_of]. destruct V as (x & E & T). rewrite E.
  specialize (S _ _ E ltac:(congruence)). rewrite S. destruct x; cbn in T; try discriminate. destruct (memn l ks); reflexivity.
Qed.
Lemma vok_stops ks w w' v : stops ks w w' -> wf w -> vok (heap w) v -> (forall l es, nth_error (heap w) l = Some (OReg es) -> exists es', nth_error (heap w') l = Some (OReg es')) -> vok (heap w') v.
Proof.
  intros (_ & _ & _ & L & S) W V R. eapply vok_mono; [|exact V]. split.
  - intros l t (x & E & T). assert (D : tag_of x = TReg \/ tag_of x <> TReg) by (destruct x; cbn; auto; right; discriminate).
    destruct D as [D|D].
    + destruct x; cbn in D; try discriminate. destruct (R _ _ E) as (es' & E'). exists (OReg es'). auto.
    + specialize (S _ _ E D). exists (if memn l ks then stop_obj x else x). split; auto. destruct (memn l ks); rewrite ?stop_tag; auto.
  - intros l t (x & E & T) (k & a & b & c & d & f & K).
    destruct (nth_error (heap w) k) as [y|] eqn:Ey; [|apply nth_error_None in Ey; apply nth_lt in K; lia].
    assert (D : tag_of y = TReg \/ tag_of y <> TReg) by (destruct y; cbn; auto; right; discriminate).
    destruct D as [D|D].
    + destruct y; cbn in D; try discriminate. destruct (R _ _ Ey) as (es' & E'). congruence.
    + specialize (S _ _ Ey D). rewrite K in S. inversion S as [S']. destruct y; cbn in S'; destruct (memn k ks); inversion S'; subst; repeat eexists; exact Ey.
Qed.
Definition remove_all (ns : list string) (es : list (string * val)) : list (string * val) := fold_left (fun es n => remove n es) ns es.
Definition meters_under (w : world) (es : list (string * val)) (ns : list string) : list nat :=
  flat_map (fun n => match lookup n es with Some v => olist (meter_of w v) | None => [] end) ns.
Lemma unregister_each_ok o ns : forall w l es, wf w -> nth_error (heap w) l = Some (OReg es) -> NoDup ns ->
  exists w', unregister_each l ns o w = (w', Ok tt) /\
    stops (meters_under w es ns) w w' /\
    nth_error (heap w') l = Some (OReg (remove_all ns es)) /\
    (forall l' es', l' <> l -> nth_error (heap w) l' = Some (OReg es') -> nth_error (heap w') l' = Some (OReg es')) /\ wf w'.
Proof.
  induction ns as [|n ns IH]; intros w l es W E ND; cbn [unregister_each].
  - exists w. split; [reflexivity|]. split; [apply stops_nil|]. auto.
  - destruct (std_unregister_ok o w l es n W E) as (w1 & R1 & S1 & E1 & K1 & W1). inversion ND; subst.
    destruct (IH w1 l (remove n es) W1 E1 ltac:(auto)) as (w2 & R2 & S2 & E2 & K2 & W2).
    exists w2. split; [unfold bind; rewrite R1; exact R2|]. split; [|split; [exact E2|split; [|exact W2]]].
    + replace (meters_under w es (n :: ns)) with ((match lookup n es with Some v => olist (meter_of w v) | None => [] end) ++ meters_under w1 (remove n es) ns).
      { eapply stops_trans; eauto. }
      unfold meters_under. cbn [flat_map]. f_equal. destruct (wf_obj w W _ _ E) as [_ F]. rewrite Forall_forall in F.
      clear -F S1 H1. induction ns as [|k ns IHn]; cbn [flat_map]; auto. f_equal.
      * rewrite lookup_remove. destruct (String.eqb_spec k n) as [->|D]; [exfalso; apply H1; left; auto|]. destruct (lookup k es) as [v|] eqn:L; auto.
        rewrite (meter_of_stops _ _ _ v S1); auto. apply (F _ (lookup_In _ _ _ L)).
      * apply IHn. intros Hn. apply H1. now right.
    + intros l' es' D E'. apply K2; auto.
Qed.
Lemma lookup_remove_all ns : forall es n, lookup n (remove_all ns es) = if existsb (String.eqb n) ns then None else lookup n es.
Proof.
  induction ns as [|k ns IH]; intros es n; cbn; auto. fold (remove_all ns (remove k es)). rewrite IH, lookup_remove. destruct (String.eqb n k), (existsb (String.eqb n) ns); auto.
Qed.
(** ** iteration order *)
Lemma flat_map_seq {A} (l : list A) k : flat_map (fun i => match nth_error l (i - k) with Some a => [a] | None => [] end) (seq k (List.length l)) = l.
Proof.
  revert k. induction l as [|a l IH]; intros k; cbn; auto. rewrite Nat.sub_diag. cbn. f_equal. rewrite <- (IH (S k)) at 2.
  rewrite !flat_map_concat_map. f_equal. apply map_ext_in. intros i Hi. apply in_seq in Hi. replace (i - k) with (S (i - S k)) by lia. reflexivity.
Qed.
Lemma in_order_perm {A} order (l : list A) : Permutation (in_order order l) l.
Proof.
  unfold in_order.
  transitivity (flat_map (fun i => match nth_error l i with Some a => [a] | None => [] end) (seq 0 (List.length l))).
  - apply Permutation_flat_map, visit_perm, seq_NoDup.
  - apply Permutation_refl'. etransitivity; [|apply (flat_map_seq l 0)]. apply flat_map_ext. intros i. now rewrite Nat.sub_0_r.
Qed.
Lemma std_unregister_all_ok o w l es : wf w -> nth_error (heap w) l = Some (OReg es) ->
  exists w' ks, std_unregister_all l o w = (w', Ok tt) /\
    stops ks w w' /\ (forall k, In k ks <-> exists n v, lookup n es = Some v /\ meter_of w v = Some k) /\
    (exists es', nth_error (heap w') l = Some (OReg es') /\ forall n, lookup n es' = None) /\
    (forall l' es', l' <> l -> nth_error (heap w) l' = Some (OReg es') -> nth_error (heap w') l' = Some (OReg es')) /\ wf w'.
Proof.
  intros W E. pose proof (wf_obj w W _ _ E) as [ND F]. set (ns := map fst (in_order (o_order o) es)).
  assert (P : Permutation ns (map fst es)) by (apply Permutation_map, in_order_perm).
  destruct (unregister_each_ok o ns w l es W E) as (w' & R & S & E' & K & W').
  { eapply Permutation_NoDup; [symmetry; exact P|exact ND]. }
  exists w', (meters_under w es ns). split; [|split; [exact S|split; [|split; [|split; [exact K|exact W']]]]].
  - unfold std_unregister_all. unfold bind at 1. rewrite (entries_get_ok l es w o E). exact R.
  - intros k. unfold meters_under. rewrite in_flat_map. split.
    + intros (n & Hn & Hk). destruct (lookup n es) as [v|] eqn:L; [|destruct Hk]. exists n, v. split; auto. destruct (meter_of w v); cbn in Hk; [|destruct Hk]. destruct Hk as [->|[]]. reflexivity.
    + intros (n & v & L & M). exists n. rewrite L, M. split; [|left; reflexivity]. eapply Permutation_in; [symmetry; exact P|]. apply in_map_iff. exists (n, v). split; auto. apply lookup_In; auto.
  - eexists. split; [exact E'|]. intros n. rewrite lookup_remove_all. destruct (existsb (String.eqb n) ns) eqn:X; auto.
    destruct (lookup n es) as [v|] eqn:L; auto. exfalso. assert (In n ns).
    { eapply Permutation_in; [symmetry; exact P|]. apply in_map_iff. exists (n, v). split; auto. apply lookup_In; auto. }
    assert (existsb (String.eqb n) ns = true) by (apply existsb_exists; exists n; split; auto; apply String.eqb_refl). congruence.
Qed.
