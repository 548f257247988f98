(** Captures by several goroutines. *)
From Coq Require Import ZArith List String Bool Lia Arith.
From Verif.Model Require Import GoInt GoFloat GoBase Conc World Runtime RuntimeConc.
From Verif.Spec Require Import Traces RuntimeSpec RuntimeConcSpec.
From Verif.Proofs Require Import LinProofs.
Import ListNotations.
Local Open Scope string_scope.
Local Open Scope list_scope.
Local Open Scope Z_scope.

(** ** A call that is alone *)
Section Alone.
Context {S L Op R : Type}.
Variable body : Op -> code S L R.
Variable s0 : S.
Fixpoint finish (c : code S L R) (s : S) : S * list L :=
  match c with
  | Ret _ => (s, [])
  | Atom e u l k => let r := finish (k s) (u s) in (fst r, l s ++ snd r)
  end.
Fixpoint serial (s : S) (ops : list Op) : S * list L :=
  match ops with
  | [] => (s, [])
  | op :: r => let a := finish (body op) s in let b := serial (fst a) r in (fst b, snd a ++ snd b)
  end.
Lemma serial_snoc ops op : forall s, serial s (ops ++ [op]) =
  let a := serial s ops in let b := finish (body op) (fst a) in (fst b, snd a ++ snd b).
Proof.
  induction ops as [|o ops IH]; intros s; cbn [serial app]; cbv zeta; cbn [fst snd]; [rewrite app_nil_r; destruct (finish _ _); reflexivity|].
  rewrite IH. cbv zeta. cbn [fst snd]. rewrite app_assoc. reflexivity.
Qed.
Lemma one_prefix sched ch : one_at_a_time body s0 (sched ++ [ch]) -> one_at_a_time body s0 sched.
Proof. intros H pre t op post ->. apply (H pre t op (post ++ [ch])). now rewrite <- app_assoc. Qed.
Definition alone (c : config S L Op R) (tr : list (event L Op R)) : Prop :=
  (quiet c /\ serial s0 (calls tr) = (sh c, labels tr)) \/
  (exists t op k, th c t = Busy op k /\ (forall u, u <> t -> th c u = Idle) /\
     serial s0 (calls tr) = (fst (finish k (sh c)), labels tr ++ snd (finish k (sh c)))).
Lemma alone_inv sched : one_at_a_time body s0 sched -> alone (fst (cexec body s0 sched)) (snd (cexec body s0 sched)).
Proof.
  induction sched as [|ch sched IH] using rev_ind; intros H.
  - left. split; [intros t; reflexivity|reflexivity].
  - specialize (IH (one_prefix _ _ H)). rewrite cexec_snoc. destruct (cexec body s0 sched) as [c tr] eqn:E. cbn [fst snd] in *.
    destruct ch as [t op|t].
    + assert (Q : quiet c) by (specialize (H sched t op [] eq_refl); rewrite E in H; exact H).
      destruct IH as [[_ IH]|(u & op' & k & Hu & _)]; [|rewrite Q in Hu; discriminate]. cbn [cstep]. rewrite (Q t). cbn [fst snd]. right.
      exists t, op, (body op). cbn [th sh]. split; [apply tset_same|]. split; [intros u N; rewrite tset_other by auto; apply Q|].
      rewrite calls_app, labels_app. cbn [calls labels flat_map app]. rewrite serial_snoc, IH. cbv zeta. cbn [fst snd]. rewrite app_nil_r. reflexivity.
    + destruct IH as [[Q IH]|(u & op & k & Hu & Ho & IH)].
      * cbn [cstep]. rewrite (Q t). cbn [fst snd]. rewrite app_nil_r. left. auto.
      * destruct (Nat.eq_dec t u) as [->|N].
        -- cbn [cstep]. rewrite Hu. destruct k as [a|e f l k].
           ++ cbn [fst snd]. left. split.
              ** intros v. cbn [th]. destruct (Nat.eq_dec v u) as [->|Nv]; [apply tset_same|rewrite tset_other by auto; auto].
              ** rewrite calls_app, labels_app. cbn [calls labels flat_map app sh]. rewrite !app_nil_r. rewrite IH. cbn [finish fst snd]. rewrite app_nil_r. reflexivity.
           ++ destruct (e (sh c)) eqn:En; cbn [fst snd].
              ** right. exists u, op, (k (sh c)). cbn [th sh]. split; [apply tset_same|]. split; [intros v Nv; rewrite tset_other by auto; auto|].
                 rewrite calls_app, labels_app, calls_steps, labels_steps, app_nil_r, IH. cbn [finish]. cbv zeta. cbn [fst snd]. rewrite app_assoc. reflexivity.
              ** rewrite app_nil_r. right. exists u, op, (Atom e f l k). auto.
        -- cbn [cstep]. rewrite (Ho t N). cbn [fst snd]. rewrite app_nil_r. right. exists u, op, k. auto.
Qed.
End Alone.

(** ** One capture *)
Definition made (f : group -> string -> nat) (c : code vars seen_action unit) (s : vars) : list op := calls_made f (snd (finish c s)).
Definition ends (c : code vars seen_action unit) (s : vars) : vars := fst (finish c s).
Section One.
Variable f : group -> string -> nat.
Lemma made_load {A} x (get : vars -> A) k s : made f (load x get k) s = made f (k (get s)) s.
Proof. reflexivity. Qed.
Lemma ends_load {A} x (get : vars -> A) k s : ends (load x get k) s = ends (k (get s)) s.
Proof. reflexivity. Qed.
Lemma made_store x g k s : made f (store x g k) s = made f k (g s).
Proof. reflexivity. Qed.
Lemma ends_store x g k s : ends (store x g k) s = ends k (g s).
Proof. reflexivity. Qed.
Lemma made_call l k s : made f (do_call l k) s = as_call f l ++ made f k s.
Proof. reflexivity. Qed.
Lemma ends_call l k s : ends (do_call l k) s = ends k s.
Proof. reflexivity. Qed.
Lemma made_pauses is k s : made f (pauses_c is k) s = map (OUpdate (f RuntimeMetrics "PauseNs")) (map wrap64 (map (fun i => nth i (ms_PauseNs (v_mem s)) 0) is)) ++ made f k s.
Proof. induction is as [|i is IH]; [reflexivity|]. cbn [pauses_c]. rewrite made_load, made_call, IH. reflexivity. Qed.
Lemma ends_pauses is k s : ends (pauses_c is k) s = ends k s.
Proof. induction is as [|i is IH]; [reflexivity|]. cbn [pauses_c]. rewrite ends_load, ends_call. exact IH. Qed.
Lemma indices_are numGC m : map wrap64 (map (fun i => nth i (ms_PauseNs m) 0) (pause_indices (256 <=? sub32 (ms_NumGC m) numGC) (numGC mod 256) (ms_NumGC m mod 256))) = pauses numGC m.
Proof.
  unfold pauses, pause_indices, segment. cbv zeta. f_equal. destruct (256 <=? _); [reflexivity|]. destruct (_ <? _); [apply map_app|reflexivity].
Qed.
Lemma runtime_made r t s : made f (runtime_c r t) s = capture (f RuntimeMetrics) (v_prev s) r t.
Proof.
  unfold runtime_c, show_c, delta_c, remember_c. rewrite made_store.
  repeat (rewrite made_load || rewrite made_call || rewrite made_store || rewrite made_pauses). cbn [v_mem v_prev v_gc set_prev].
  rewrite indices_are. unfold capture, set_prev, set_frees, set_lookups, set_mallocs, set_numGC. cbn [v_mem v_prev v_gc pv_cgo pv_frees pv_lookups pv_mallocs pv_numGC as_call app made finish calls_made flat_map snd].
  reflexivity.
Qed.
Lemma runtime_ends r t s : ends (runtime_c r t) s = MkVars (rd_mem r) (remember r) (v_gc s).
Proof.
  unfold runtime_c, show_c, delta_c, remember_c. rewrite ends_store.
  repeat (rewrite ends_load || rewrite ends_call || rewrite ends_store || rewrite ends_pauses).
  unfold set_prev, set_frees, set_lookups, set_mallocs, set_numGC, set_cgo, remember. cbn [v_mem v_prev v_gc pv_cgo pv_frees pv_lookups pv_mallocs pv_numGC ends finish fst].
  reflexivity.
Qed.
Definition last_of (s : vars) : option Z := match v_gc s with Some g => Some (gc_LastGC g) | None => None end.
Lemma debug_made g t s : made f (debug_c g t) s = dbg_capture (f DebugMetrics) (last_of s) g t.
Proof.
  unfold debug_c. repeat (rewrite made_load || rewrite made_call || rewrite made_store). cbn [v_mem v_prev v_gc the_gc]. cbv zeta. fold (last_of s). unfold dbg_capture.
  destruct (match last_of s with Some n => n =? gc_LastGC g | None => false end).
  - rewrite made_load, made_call. reflexivity.
  - rewrite made_load. cbn [the_gc v_gc]. destruct (gc_Pause g) as [|p ps] eqn:E.
    + rewrite made_load, made_call. reflexivity.
    + repeat (rewrite made_load || rewrite made_call). cbn [the_gc v_gc]. rewrite E. reflexivity.
Qed.
Lemma debug_ends g t s : ends (debug_c g t) s = MkVars (v_mem s) (v_prev s) (Some g).
Proof.
  unfold debug_c. repeat (rewrite ends_load || rewrite ends_call || rewrite ends_store). cbv zeta. cbn [the_gc v_gc].
  destruct (match _ with Some n => n =? _ | None => false end); [reflexivity|]. rewrite ends_load. cbn [the_gc v_gc]. destruct (gc_Pause g); reflexivity.
Qed.
Lemma serial_made cs : forall s, calls_made f (snd (serial capture_body s cs)) = in_turn f (v_prev s) (last_of s) cs.
Proof.
  induction cs as [|c cs IH]; intros s; [reflexivity|]. cbn [serial]. cbv zeta. cbn [snd]. unfold calls_made in *. rewrite flat_map_app, IH.
  change (fst (finish (capture_body c) s)) with (ends (capture_body c) s). change (flat_map (as_call f) (snd (finish (capture_body c) s))) with (made f (capture_body c) s).
  destruct c as [r t|g t]; cbn [capture_body in_turn].
  - rewrite runtime_made, runtime_ends. reflexivity.
  - rewrite debug_made, debug_ends. reflexivity.
Qed.
End One.

(** ** Pauses are those of some reading *)
Section Sound.
Variable M : list memstats.
Definition good (n : Z) : Prop := exists m i, In m M /\ n = wrap64 (nth i (ms_PauseNs m) 0).
(** [b]: memStats has been read before *)
Fixpoint sound (b : bool) (c : code vars seen_action unit) : Prop :=
  match c with
  | Ret _ => True
  | Atom e u l k => forall s, (b = true -> In (v_mem s) M) ->
      (forall n, In n (recorded_pauses (l s)) -> good n) /\ (In (v_mem s) M -> In (v_mem (u s)) M) /\
      ((b = true \/ In (v_mem (u s)) M) /\ sound true (k s) \/ sound false (k s))
  end.
Lemma sound_load {A} b x (get : vars -> A) k : (forall s, (b = true -> In (v_mem s) M) -> sound b (k (get s))) -> sound b (load x get k).
Proof.
  intros H s Hs. split; [intros n []|]. split; [auto|]. destruct b; [left; split; [left; reflexivity|apply H; exact Hs]|right; apply H; exact Hs].
Qed.
Lemma sound_call b l k : (forall n, In n (recorded_pauses [l]) -> good n) -> sound b k -> sound b (do_call l k).
Proof. intros Hl H s Hs. split; [exact Hl|]. split; [auto|]. destruct b; [left; auto|right; auto]. Qed.
Lemma sound_store b x g k : (forall s, v_mem (g s) = v_mem s) -> sound b k -> sound b (store x g k).
Proof. intros Hg H s Hs. split; [intros n []|]. split; [rewrite Hg; auto|]. destruct b; [left; auto|right; auto]. Qed.
Lemma sound_pauses is k : sound true k -> sound true (pauses_c is k).
Proof.
  intros H. induction is as [|i is IH]; [exact H|]. cbn [pauses_c]. apply sound_load. intros s Hs. apply sound_call; [|exact IH].
  intros n [<-|[]]. exists (v_mem s), i. auto.
Qed.
Lemma runtime_sound r t : In (rd_mem r) M -> sound false (runtime_c r t).
Proof.
  intros H. unfold runtime_c. intros s _. split; [intros n []|]. split; [intros _; exact H|]. left. split; [right; exact H|].
  unfold show_c, delta_c, remember_c.
  repeat first [exact Logic.I | apply sound_pauses | apply sound_load; intros ? _ | apply sound_call; [intros ? []|] | apply sound_store; [reflexivity|]].
Qed.
Lemma debug_sound b g t : sound b (debug_c g t).
Proof.
  unfold debug_c.
  repeat first [exact Logic.I | apply sound_load; intros ? _ | apply sound_call; [intros ? []|] | apply sound_store; [reflexivity|]].
  cbv zeta. destruct (match _ with Some n => n =? _ | None => false end); repeat first [exact Logic.I | apply sound_load; intros ? _ | apply sound_call; [intros ? []|]].
  destruct (gc_Pause _); repeat first [exact Logic.I | apply sound_load; intros ? _ | apply sound_call; [intros ? []|]].
Qed.
Lemma pauses_app a b : recorded_pauses (a ++ b) = recorded_pauses a ++ recorded_pauses b.
Proof. apply flat_map_app. Qed.
Lemma sound_inv sched : (forall t r x, In (Call t (CaptureRuntime r x)) sched -> In (rd_mem r) M) ->
  let c := fst (captures sched) in
  (forall t op k, th c t = Busy op k -> exists b, sound b k /\ (b = true -> In (v_mem (sh c)) M)) /\
  (forall n, In n (recorded_pauses (labels (snd (captures sched)))) -> good n).
Proof.
  induction sched as [|ch sched IH] using rev_ind; intros H.
  - split; [intros t op k X; discriminate|intros n []].
  - destruct IH as [I1 I2]; [intros; eapply H; apply in_or_app; left; eassumption|]. unfold captures in *. rewrite cexec_snoc. destruct (cexec capture_body vars_init sched) as [c tr]. cbn [fst snd] in *.
    assert (Keep : forall l, (forall n, In n (recorded_pauses l) -> good n) -> forall n, In n (recorded_pauses (labels tr ++ l)) -> good n) by (intros l Hl n; rewrite pauses_app, in_app_iff; intros [X|X]; auto).
    cbv zeta. destruct ch as [t op|t]; cbn [cstep].
    + destruct (th c t) eqn:Et; cbn [fst snd]; [|rewrite app_nil_r; auto]. split; [|rewrite labels_app; apply Keep; intros n []].
      intros u op' k. cbn [th sh]. destruct (Nat.eq_dec u t) as [->|N]; [rewrite tset_same|rewrite tset_other by auto; apply I1]. intros X; inversion X; subst op' k. exists false. split; [|discriminate].
      destruct op as [r x|g x]; [apply runtime_sound; apply (H t r x), in_or_app; right; left; reflexivity|apply debug_sound].
    + destruct (th c t) as [|op [a|e g l k]] eqn:Et; cbn [fst snd].
      * rewrite app_nil_r. auto.
      * split; [|rewrite labels_app; apply Keep; intros n []]. intros u op' k'. cbn [th sh]. destruct (Nat.eq_dec u t) as [->|N]; [rewrite tset_same; discriminate|rewrite tset_other by auto; apply I1].
      * destruct (e (sh c)); cbn [fst snd]; [|rewrite app_nil_r; auto]. destruct (I1 _ _ _ Et) as (b & Sb & Hb). cbn [sound] in Sb. destruct (Sb (sh c) Hb) as (S1 & S2 & S3).
        split; [|rewrite labels_app, labels_steps; apply Keep; exact S1]. intros u op' k'. cbn [th sh]. destruct (Nat.eq_dec u t) as [->|N].
        -- rewrite tset_same. intros X; inversion X; subst op' k'. destruct S3 as [[Hm S3]|S3]; [exists true; split; [exact S3|]; intros _; destruct Hm as [-> |Hm]; auto|exists false; split; [exact S3|discriminate]].
        -- rewrite tset_other by auto. intros X. destruct (I1 _ _ _ X) as (b' & Sb' & Hb'). exists b'. split; auto.
Qed.
End Sound.
