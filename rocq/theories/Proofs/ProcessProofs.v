(** A process behaves like World.v, one call at a time. *)
From Coq Require Import ZArith List String Bool Lia Arith.
From Verif.Model Require Import GoInt GoFloat GoBase Conc CounterGauge Stats Uniform ExpDecay Ewma Mutex Compose World Process.
From Verif.Model Require SampleConc.
From Verif.Spec Require Import Linearizability Traces ComposeSpec SampleSpec ProcessSpec.
From Verif.Proofs Require Import LinProofs MutexProofs SampleConcProofs ComposeProofs WorldBase WorldStep WorldArrays.
Import ListNotations.
Local Open Scope nat_scope.
Local Open Scope list_scope.

(** ** linearizations of one object as linearizations of another *)
Section Transfer.
Context {Q1 Op1 R1 Q2 Op2 R2 : Type}.
Variable apply1 : Q1 -> Op1 -> Q1 * R1.
Variable apply2 : Q2 -> Op2 -> Q2 * R2.
Variable fo : Op1 -> Op2.
Variable fr : R1 -> R2.
Variable good : Op1 -> Prop.
Variable Rel : Q1 -> Q2 -> Prop.
Hypothesis sim : forall q1 q2 op, good op -> Rel q1 q2 -> Rel (fst (apply1 q1 op)) (fst (apply2 q2 (fo op))) /\ snd (apply2 q2 (fo op)) = fr (snd (apply1 q1 op)).
Definition xmap (e : xevent Op1 R1) : xevent Op2 R2 := match e with XInv t o => XInv t (fo o) | XLin t => XLin t | XRes t r => XRes t (fr r) end.
Definition hmap (e : hevent Op1 R1) : hevent Op2 R2 := match e with HInv t o => HInv t (fo o) | HRes t r => HRes t (fr r) end.
Definition smap (x : @tstat Op1 R1) : @tstat Op2 R2 := match x with TIdle => TIdle | TPending o => TPending (fo o) | TDone r => TDone (fr r) end.
Lemma erase_xmap l : erase (map xmap l) = map hmap (erase l).
Proof. induction l as [|[t o|t|t r] l IH]; cbn; [reflexivity| |exact IH|]; f_equal; exact IH. Qed.
Definition all_good (h : list (hevent Op1 R1)) : Prop := forall t op, In (HInv t op) h -> good op.
Lemma transfer_valid q f l q' f' : valid apply1 q f l q' f' -> (forall t, f t = TIdle) -> all_good (erase l) -> forall p g, Rel q p -> (forall t, g t = TIdle) ->
  exists p' g', valid apply2 p g (map xmap l) p' g' /\ Rel q' p' /\ (forall t, g' t = smap (f' t)) /\ (forall t op, f' t = TPending op -> good op).
Proof.
  intros V. induction V as [q f|q f l q' f' t op V IH Hf|q f l q' f' t op q'' r V IH Hf Ha|q f l q' f' t r V IH Hf]; intros If Ag p g Hp Ig.
  - exists p, g. split; [constructor|]. split; [exact Hp|]. split; [intros t; now rewrite Ig, If|]. intros t op E. rewrite If in E. discriminate.
  - rewrite erase_app in Ag. destruct (IH If (fun u o H => Ag u o (in_or_app _ _ _ (or_introl H))) p g Hp Ig) as (p' & g' & V' & Hr & Hg & Hpe). exists p', (tupd g' t (TPending (fo op))). split; [|split; [exact Hr|split]].
    + rewrite map_app. apply valid_inv; [exact V'|]. now rewrite Hg, Hf.
    + intros u. destruct (Nat.eq_dec u t) as [->|N]; [now rewrite !tupd_same|]. now rewrite !tupd_other by exact N.
    + intros u o. destruct (Nat.eq_dec u t) as [->|N]; [rewrite tupd_same; intros E; injection E as <-; apply (Ag t op), in_or_app; right; now left|]. rewrite tupd_other by exact N. apply Hpe.
  - rewrite erase_app in Ag. destruct (IH If (fun u o H => Ag u o (in_or_app _ _ _ (or_introl H))) p g Hp Ig) as (p' & g' & V' & Hr & Hg & Hpe). destruct (sim q' p' op (Hpe t op Hf) Hr) as (Hr' & Es). rewrite Ha in Hr', Es. cbn [fst snd] in Hr', Es.
    destruct (apply2 p' (fo op)) as [p'' r'] eqn:E2. cbn [fst snd] in Hr', Es. subst r'. exists p'', (tupd g' t (TDone (fr r))). split; [|split; [exact Hr'|split]].
    + rewrite map_app. apply (valid_lin apply2 _ _ _ p' g' t (fo op)); [exact V'|now rewrite Hg, Hf|exact E2].
    + intros u. destruct (Nat.eq_dec u t) as [->|N]; [now rewrite !tupd_same|]. now rewrite !tupd_other by exact N.
    + intros u o. destruct (Nat.eq_dec u t) as [->|N]; [rewrite tupd_same; discriminate|]. rewrite tupd_other by exact N. apply Hpe.
  - rewrite erase_app in Ag. destruct (IH If (fun u o H => Ag u o (in_or_app _ _ _ (or_introl H))) p g Hp Ig) as (p' & g' & V' & Hr & Hg & Hpe). exists p', (tupd g' t TIdle). split; [|split; [exact Hr|split]].
    + rewrite map_app. apply valid_res; [exact V'|]. now rewrite Hg, Hf.
    + intros u. destruct (Nat.eq_dec u t) as [->|N]; [now rewrite !tupd_same|]. now rewrite !tupd_other by exact N.
    + intros u o. destruct (Nat.eq_dec u t) as [->|N]; [rewrite tupd_same; discriminate|]. rewrite tupd_other by exact N. apply Hpe.
Qed.
Lemma transfer q p h : linearizable apply1 q h -> all_good h -> Rel q p -> linearizable apply2 p (map hmap h).
Proof.
  intros (l & q' & f & E & V) Ag Hr. subst h. destruct (transfer_valid _ _ _ _ _ V (fun _ => eq_refl) Ag p (fun _ => TIdle) Hr (fun _ => eq_refl)) as (p' & g' & V' & _).
  exists (map xmap l), p', g'. split; [apply erase_xmap|exact V'].
Qed.
End Transfer.
Lemma transfer_same {Q1 Q2 Op R} (apply1 : Q1 -> Op -> Q1 * R) (apply2 : Q2 -> Op -> Q2 * R) (Rel : Q1 -> Q2 -> Prop) q p h :
  (forall q1 q2 op, Rel q1 q2 -> Rel (fst (apply1 q1 op)) (fst (apply2 q2 op)) /\ snd (apply2 q2 op) = snd (apply1 q1 op)) ->
  linearizable apply1 q h -> Rel q p -> linearizable apply2 p h.
Proof.
  intros H L Hr. replace h with (map (hmap (fun o => o) (fun r => r)) h).
  - apply (transfer apply1 apply2 _ _ (fun _ => True) Rel (fun q1 q2 op _ => H q1 q2 op) q p); auto. intros t op _. exact Logic.I.
  - rewrite <- (map_id h) at 2. apply map_ext. now intros [t o|t r].
Qed.

Section Exp.
Variable mexp : f64 -> f64.

(** ** a struct, one call at a time *)
Definition cell_apply (k : cell) (co : op * orc) : cell * seen :=
  match k with
  | CounterAt n => match counter_call (fst co) with
    | Some c => match cseq (counter_body c) n with Some (n', r) => (CounterAt n', seen_counter r) | None => (k, SeenNothing) end | None => (k, SeenNothing) end
  | GaugeAt n => match gauge_call (fst co) with
    | Some c => match cseq (gauge_body c) n with Some (n', r) => (GaugeAt n', seen_gauge r) | None => (k, SeenNothing) end | None => (k, SeenNothing) end
  | GaugeFAt n => match gaugef_call (fst co) with
    | Some c => match cseq (gaugef_body c) n with Some (n', r) => (GaugeFAt n', seen_gaugef r) | None => (k, SeenNothing) end | None => (k, SeenNothing) end
  | UniformAt s => match sample_call (fst co) (snd co) with Some c => (UniformAt (fst (uniform_apply s c)), seen_sample (snd (uniform_apply s c))) | None => (k, SeenNothing) end
  | ExpAt s => match sample_call (fst co) (snd co) with Some c => (ExpAt (fst (expdecay_apply mexp s c)), seen_sample (snd (expdecay_apply mexp s c))) | None => (k, SeenNothing) end
  | NoMetric => (k, SeenNothing)
  end.

Lemma cell_linearizable k sched : linearizable cell_apply k (history (snd (cexec (cell_body mexp k) (cell_start k) sched))).
Proof.
  destruct k as [n|n|n|s|s|]; cbn [cell_start cell_state].
  - apply (one_action_linearizable (cell_body mexp (CounterAt n)) cell_apply CounterAt (fun _ => True) n); [exact I|]. intros [c o]. cbn [cell_body fst].
    destruct (counter_call c) as [[i|i| | |]|] eqn:E; cbn; (do 3 eexists; split; [reflexivity|]; intros s _; split; [exact I|]; eexists; split; [reflexivity|]; unfold cell_apply; cbn [fst]; rewrite E; reflexivity).
  - apply (one_action_linearizable (cell_body mexp (GaugeAt n)) cell_apply GaugeAt (fun _ => True) n); [exact I|]. intros [c o]. cbn [cell_body fst].
    destruct (gauge_call c) as [[i| |]|] eqn:E; cbn; (do 3 eexists; split; [reflexivity|]; intros s _; split; [exact I|]; eexists; split; [reflexivity|]; unfold cell_apply; cbn [fst]; rewrite E; reflexivity).
  - apply (one_action_linearizable (cell_body mexp (GaugeFAt n)) cell_apply GaugeFAt (fun _ => True) n); [exact I|]. intros [c o]. cbn [cell_body fst].
    destruct (gaugef_call c) as [[i| |]|] eqn:E; cbn; (do 3 eexists; split; [reflexivity|]; intros s _; split; [exact I|]; eexists; split; [reflexivity|]; unfold cell_apply; cbn [fst]; rewrite E; reflexivity).
  - apply (transfer_same (fun d co => match sample_call (fst co) (snd co) with Some c => (fst (uniform_apply d c), seen_sample (snd (uniform_apply d c))) | None => (d, SeenNothing) end) cell_apply (fun d k => k = UniformAt d) s); [| |reflexivity].
    + intros d k [c o] ->. unfold cell_apply. cbn [fst snd]. destruct (sample_call c o); split; reflexivity.
    + apply (guarded_linearizable (fun co => match sample_call (fst co) (snd co) with Some c => SampleConc.uniform_code c | None => Ret (Panic msg_nil) end)
        (fun co r => match sample_call (fst co) (snd co) with Some _ => seen_sample r | None => SeenNothing end)).
      intros [c o] d. cbn [fst snd]. destruct (sample_call c o) as [c'|]; [|exists d, (Panic msg_nil); split; reflexivity].
      destruct (uniform_seq c' d) as (d' & a & E & A). exists d', a. rewrite A. split; [exact E|reflexivity].
  - apply (transfer_same (fun d co => match sample_call (fst co) (snd co) with Some c => (fst (expdecay_apply mexp d c), seen_sample (snd (expdecay_apply mexp d c))) | None => (d, SeenNothing) end) cell_apply (fun d k => k = ExpAt d) s); [| |reflexivity].
    + intros d k [c o] ->. unfold cell_apply. cbn [fst snd]. destruct (sample_call c o); split; reflexivity.
    + apply (guarded_linearizable (fun co => match sample_call (fst co) (snd co) with Some c => SampleConc.expdecay_code mexp c | None => Ret (Panic msg_nil) end)
        (fun co r => match sample_call (fst co) (snd co) with Some c => seen_sample (SampleConc.expdecay_after c r) | None => SeenNothing end)).
      intros [c o] d. cbn [fst snd]. destruct (sample_call c o) as [c'|]; [|exists d, (Panic msg_nil); split; reflexivity].
      destruct (expdecay_seq mexp c' d) as (d' & a & E & A). exists d', a. rewrite A. split; [exact E|reflexivity].
  - apply (one_action_linearizable (cell_body mexp NoMetric) cell_apply (fun _ => NoMetric) (fun _ => True) tt); [exact I|]. intros co. do 3 eexists. split; [reflexivity|]. intros s _. split; [exact I|]. eexists. split; reflexivity.
Qed.

(** ** where the structs are *)
Definition metric_tag (t : tag) : Prop := match t with TCounter | TGauge | TGaugeF | TUniform | TExp => True | _ => False end.
Lemma cell_store_other w l o o' l' : nth_error (heap w) l = Some o -> tag_of o <> TArr -> l' <> l -> cell_at w l' <> NoMetric ->
  cell_at (set_heap (lset (heap w) l o') w) l' = cell_at w l'.
Proof.
  intros E T N C. unfold cell_at in *. cbn [heap set_heap]. rewrite (lset_nth_neq (heap w) l l') by congruence. destruct (nth_error (heap w) l') as [[]|]; try reflexivity.
  destruct (Nat.eq_dec l arr) as [<-|Na]; [|now rewrite lset_nth_neq]. rewrite E in C. destruct o; cbn in T; congruence.
Qed.
Lemma cell_alloc w o l : cell_at w l <> NoMetric -> cell_at (set_heap (heap w ++ [o]) w) l = cell_at w l.
Proof.
  intros C. unfold cell_at in *. cbn [heap set_heap]. destruct (nth_error (heap w) l) as [y|] eqn:E; [|now destruct C]. rewrite (nth_app_l _ _ _ _ E). destruct y; try reflexivity.
  destruct (nth_error (heap w) arr) as [z|] eqn:Ea; [|now destruct C]. now rewrite (nth_app_l _ _ _ _ Ea).
Qed.
Lemma cell_store_array w l c n a ys l' : apart w -> nth_error (heap w) l = Some (OUniform c n a) -> l' <> l -> cell_at w l' <> NoMetric -> (exists xs, nth_error (heap w) a = Some (OArr xs)) ->
  cell_at (set_heap (lset (heap w) a (OArr ys)) w) l' = cell_at w l'.
Proof.
  intros (_ & A & _) E N C (xs & Ea). unfold cell_at in *. cbn [heap set_heap]. destruct (Nat.eq_dec a l') as [<-|Nl]; [rewrite Ea in C; now destruct C|]. rewrite (lset_nth_neq (heap w) a l') by exact Nl.
  destruct (nth_error (heap w) l') as [y|] eqn:El; [|reflexivity]. destruct y; try reflexivity. rewrite lset_nth_neq; [reflexivity|]. intros <-. apply N. eapply A; eauto.
Qed.

(** ** one step of the world *)
Definition does (w : world) (l : nat) (co : op * orc) (w' : world) (r : seen) : Prop :=
  cell_at w l <> NoMetric /\ cell_apply (cell_at w l) co = (cell_at w' l, r) /\ forall l', l' <> l -> cell_at w l' <> NoMetric -> cell_at w' l' = cell_at w l'.
Lemma does_still w l co r : cell_at w l <> NoMetric -> cell_apply (cell_at w l) co = (cell_at w l, r) -> does w l co w r.
Proof. intros C E. split; [exact C|]. split; [exact E|]. reflexivity. Qed.
Lemma does_store w l co o o' r : nth_error (heap w) l = Some o -> tag_of o <> TArr -> cell_at w l <> NoMetric ->
  cell_apply (cell_at w l) co = (cell_at (set_heap (lset (heap w) l o') w) l, r) -> does w l co (set_heap (lset (heap w) l o') w) r.
Proof. intros E T C A. split; [exact C|]. split; [exact A|]. intros l' N C'. now apply (cell_store_other w l o o'). Qed.
Lemma does_alloc w l co o w' r : does w l co w' r -> cell_at w' l <> NoMetric -> does w l co (set_heap (heap w' ++ [o]) w') r.
Proof.
  intros (C & A & F) C'. split; [exact C|]. split; [rewrite A; f_equal; symmetry; now apply cell_alloc|]. intros l' N N'. rewrite <- (F l' N N'). apply cell_alloc. now rewrite F.
Qed.
Lemma counter_step (st : state) x l n c o : nth_error (snd st) x = Some (VCounter l) -> nth_error (heap (fst st)) l = Some (OCounter n) -> receiver c = Some x -> call mexp (snd st) c <> None ->
  does (fst st) l (c, o) (fst (fst (step mexp st (c, o)))) (look (fst (fst (step mexp st (c, o)))) (snd (step mexp st (c, o)))).
Proof.
  intros Ex El Rc Tc. assert (Ck : cell_at (fst st) l = CounterAt n) by (unfold cell_at; now rewrite El).
  assert (Cs : forall n', cell_at (set_heap (lset (heap (fst st)) l (OCounter n')) (fst st)) l = CounterAt n') by (intros n'; unfold cell_at; cbn [heap set_heap]; rewrite lset_nth_eq by (eapply nth_lt; eauto); reflexivity).
  destruct c; cbn in Rc; try discriminate; injection Rc as ->; unfold World.call, obind in Tc; rewrite Ex in Tc; try (cbn in Tc; now destruct Tc);
  unfold World.step; cbn [fst snd]; unfold World.call, obind; rewrite Ex; cbn;
  unfold unit_rv, z_rv, v_rv, counter_mut, counter_count, counter_snapshot, c_do, c_load, bind, load; rewrite El; cbn; (apply (does_store _ _ _ (OCounter n)); [exact El|discriminate|congruence|]; rewrite Ck; rewrite Cs; reflexivity).
Qed.
Lemma gauge_step (st : state) x l n c o : nth_error (snd st) x = Some (VGauge l) -> nth_error (heap (fst st)) l = Some (OGauge n) -> receiver c = Some x -> call mexp (snd st) c <> None ->
  does (fst st) l (c, o) (fst (fst (step mexp st (c, o)))) (look (fst (fst (step mexp st (c, o)))) (snd (step mexp st (c, o)))).
Proof.
  intros Ex El Rc Tc. assert (Ck : cell_at (fst st) l = GaugeAt n) by (unfold cell_at; now rewrite El).
  assert (Cs : forall n', cell_at (set_heap (lset (heap (fst st)) l (OGauge n')) (fst st)) l = GaugeAt n') by (intros n'; unfold cell_at; cbn [heap set_heap]; rewrite lset_nth_eq by (eapply nth_lt; eauto); reflexivity).
  destruct c; cbn in Rc; try discriminate; injection Rc as ->; unfold World.call, obind in Tc; rewrite Ex in Tc; try (cbn in Tc; now destruct Tc);
  unfold World.step; cbn [fst snd]; unfold World.call, obind; rewrite Ex; cbn;
  unfold unit_rv, z_rv, v_rv, gauge_update, gauge_value, gauge_snapshot, g_do, bind, load; rewrite El; cbn; (apply (does_store _ _ _ (OGauge n)); [exact El|discriminate|congruence|]; rewrite Ck; rewrite Cs; reflexivity).
Qed.
Lemma gaugef_step (st : state) x l n c o : nth_error (snd st) x = Some (VGaugeF l) -> nth_error (heap (fst st)) l = Some (OGaugeF n) -> receiver c = Some x -> call mexp (snd st) c <> None ->
  does (fst st) l (c, o) (fst (fst (step mexp st (c, o)))) (look (fst (fst (step mexp st (c, o)))) (snd (step mexp st (c, o)))).
Proof.
  intros Ex El Rc Tc. assert (Ck : cell_at (fst st) l = GaugeFAt n) by (unfold cell_at; now rewrite El).
  assert (Cs : forall n', cell_at (set_heap (lset (heap (fst st)) l (OGaugeF n')) (fst st)) l = GaugeFAt n') by (intros n'; unfold cell_at; cbn [heap set_heap]; rewrite lset_nth_eq by (eapply nth_lt; eauto); reflexivity).
  Local Opaque float64bits float64frombits.
  destruct c; cbn in Rc; try discriminate; injection Rc as ->; unfold World.call, obind in Tc; rewrite Ex in Tc; try (cbn in Tc; now destruct Tc);
  unfold World.step; cbn [fst snd]; unfold World.call, obind; rewrite Ex; cbn;
  unfold unit_rv, f_rv, v_rv, gaugef_update, gaugef_value, gaugef_snapshot, gf_do, bind, load; rewrite El; cbn; (apply (does_store _ _ _ (OGaugeF n)); [exact El|discriminate|congruence|]; rewrite Ck; rewrite Cs; reflexivity).
Qed.

(** ** samples *)
Definition mdoes (co : op * orc) (m : M rv) (w : world) (l : nat) : Prop := does w l co (fst (m (snd co) w)) (look (fst (m (snd co) w)) (Some (snd (m (snd co) w)))).
Lemma step_mdoes (st : state) c o l m : call mexp (snd st) c = Some m -> mdoes (c, o) m (fst st) l ->
  does (fst st) l (c, o) (fst (fst (step mexp st (c, o)))) (look (fst (fst (step mexp st (c, o)))) (snd (step mexp st (c, o)))).
Proof.
  intros E D. unfold World.step. cbn [fst snd]. rewrite E. unfold mdoes in D. cbn [snd] in D. destruct (m o (fst st)) as [w' [r|msg]]; cbn [fst snd] in *; exact D.
Qed.
(** a call as a method of a sample *)
Definition sample_method (sv : val) (c : op) : option (M rv) :=
  match c with
  | OUpdate _ n => Some (unit_rv (sample_update mexp n sv))
  | OClear _ => Some (unit_rv (sample_clear sv))
  | OCount _ => Some (z_rv (sample_count sv))
  | OSize _ => Some (z_rv (sample_size sv))
  | OValues _ => Some (v_rv (sample_values sv))
  | OSnapshot _ => Some (v_rv (sample_snapshot sv))
  | OStat _ s => Some (sample_stat s sv)
  | OPercentile _ p => Some (f_rv (bind (sample_percentiles [p] sv) first_score))
  | OPercentiles _ ps => Some (bind (sample_percentiles ps sv) (fun l => ret (RFs l)))
  | _ => None
  end.
Lemma uni_size s v d : u_size (fst (uni_update s v d)) = u_size s.
Proof.
  unfold uni_update. repeat match goal with |- context [if ?b then _ else _] => destruct b | |- context [match ?r with Ok _ => _ | Panic _ => _ end] => destruct r end; reflexivity.
Qed.
Lemma nth_last {A} (l : list A) a : nth_error (l ++ [a]) (List.length l) = Some a.
Proof. rewrite nth_error_app2 by lia. now rewrite Nat.sub_diag. Qed.
Lemma uniform_sorts w l c n a xs co ps m : apart w -> nth_error (heap w) l = Some (OUniform c n a) -> nth_error (heap w) a = Some (OArr xs) ->
  fst (m (snd co) w) = set_heap (lset (heap w) a (OArr (fst (SamplePercentiles xs ps)))) w ->
  cell_apply (UniformAt (MkUniform c n xs)) co = (UniformAt (MkUniform c n (fst (SamplePercentiles xs ps))), look (fst (m (snd co) w)) (Some (snd (m (snd co) w)))) -> mdoes co m w l.
Proof.
  intros Ap El Ea Ew Er. unfold mdoes. set (r := look _ _) in *. clearbody r. rewrite Ew. assert (Ck : cell_at w l = UniformAt (MkUniform c n xs)) by (unfold cell_at; now rewrite El, Ea). split; [congruence|]. split.
  - rewrite Ck, Er. f_equal. unfold cell_at. cbn [heap set_heap]. rewrite lset_nth_neq by congruence. rewrite El. rewrite lset_nth_eq by (eapply nth_lt; eauto). reflexivity.
  - intros l' N C'. apply (cell_store_array w l c n a _ l' Ap El N C'). eauto.
Qed.
Lemma uniform_method w l c n a xs co m : apart w -> nth_error (heap w) l = Some (OUniform c n a) -> nth_error (heap w) a = Some (OArr xs) ->
  sample_method (VUniform l) (fst co) = Some m -> mdoes co m w l.
Proof.
  intros Ap El Ea Hm. destruct co as [op o]. cbn [fst] in Hm.
  assert (Ck : cell_at w l = UniformAt (MkUniform c n xs)) by (unfold cell_at; now rewrite El, Ea). assert (Cn : cell_at w l <> NoMetric) by congruence.
  assert (Nla : a <> l) by congruence.
  assert (Ll : l < List.length (heap w)) by (eapply nth_lt; eauto). assert (La : a < List.length (heap w)) by (eapply nth_lt; eauto).
  unfold mdoes. cbn [snd].
  destruct op; cbn [sample_method] in Hm; try discriminate; injection Hm as <-.
  - (* Clear *) unfold unit_rv, sample_clear, uni_get, new_slice, alloc, store, bind, load. rewrite El. cbn [ret fst snd heap set_heap look].
    set (w1 := set_heap (heap w ++ [OArr []]) w). assert (El1 : nth_error (heap w1) l = Some (OUniform c n a)) by (cbn [w1 heap set_heap]; now apply nth_app_l).
    split; [exact Cn|]. split.
    + rewrite Ck. unfold cell_at. cbn [w1 heap set_heap]. rewrite lset_nth_eq by (rewrite app_length; cbn; lia). rewrite lset_nth_neq by lia. rewrite nth_last. reflexivity.
    + intros l' N C'. rewrite <- (cell_alloc w (OArr []) l' C'). change (set_heap (lset (heap w ++ [OArr []]) l (OUniform 0 n (List.length (heap w)))) w1) with (set_heap (lset (heap w1) l (OUniform 0 n (List.length (heap w)))) w1).
      apply (cell_store_other w1 l _ _ l' El1); [discriminate|exact N|]. unfold w1. now rewrite cell_alloc.
  - (* Count *) unfold z_rv, sample_count, uni_get, bind, load. rewrite El. cbn. apply does_still; [exact Cn|]. rewrite Ck. reflexivity.
  - (* Update *) unfold unit_rv, sample_update, uni_get, arr_get, ask, bind, load. rewrite El. cbn [ret]. rewrite Ea. cbn [ret]. pose proof (uni_size (MkUniform c n xs) n0 (o_draw o)) as Sz.
    assert (Ap' : cell_apply (cell_at w l) (OUpdate x n0, o) = (UniformAt (fst (uni_update (MkUniform c n xs) n0 (o_draw o))), match snd (uni_update (MkUniform c n xs) n0 (o_draw o)) with Ok _ => SeenUnit | Panic m => SeenPanic m end)).
    { rewrite Ck. cbn [cell_apply fst snd sample_call uniform_apply]. destruct (snd (uni_update (MkUniform c n xs) n0 (o_draw o))); reflexivity. }
    destruct (uni_update (MkUniform c n xs) n0 (o_draw o)) as [u r]. cbn [fst snd u_size] in *. unfold store, lift. cbn [fst snd heap set_heap].
    assert (Er : forall w', look w' (Some (snd (let (w'0, r0) := (w', r) in match r0 with Ok _ => (w'0, Ok RUnit) | Panic msg => (w'0, Panic msg) end))) = match r with Ok _ => SeenUnit | Panic m => SeenPanic m end) by (intros w'; destruct r; reflexivity).
    set (w1 := set_heap (lset (heap w) a (OArr (u_values u))) w). assert (El1 : nth_error (heap w1) l = Some (OUniform c n a)) by (cbn [w1 heap set_heap]; now rewrite lset_nth_neq).
    assert (G : does w l (OUpdate x n0, o) (set_heap (lset (heap w1) l (OUniform (u_count u) (u_size u) a)) w1) (match r with Ok _ => SeenUnit | Panic m => SeenPanic m end)).
    { split; [exact Cn|]. split.
      - rewrite Ap'. f_equal. unfold cell_at. cbn [w1 heap set_heap]. rewrite lset_nth_eq by (rewrite lset_length; lia). rewrite lset_nth_neq by congruence. rewrite lset_nth_eq by lia. now destruct u.
      - intros l' N C'. rewrite <- (cell_store_array w l c n a (u_values u) l' Ap El N C' (ex_intro _ xs Ea)). fold w1. apply (cell_store_other w1 l _ _ l' El1); [discriminate|exact N|]. unfold w1. now rewrite (cell_store_array w l c n a (u_values u) l' Ap El N C' (ex_intro _ xs Ea)). }
    destruct r; exact G.
  - (* Snapshot *) unfold v_rv, sample_snapshot, uni_get, arr_get, new_slice, alloc, bind, load. rewrite El. cbn [ret]. rewrite Ea. cbn [ret fst snd look heap set_heap].
    set (w1 := set_heap (heap w ++ [OArr xs]) w).
    assert (E : snapshot_in (set_heap ((heap w ++ [OArr xs]) ++ [OSampleSnap c (List.length (heap w))]) w1) (List.length (heap w ++ [OArr xs])) = SeenSample c xs).
    { unfold snapshot_in, slice_in. cbn [heap set_heap]. rewrite nth_last. rewrite (nth_app_l _ _ _ _ (nth_last (heap w) (OArr xs))). reflexivity. }
    rewrite E. change (set_heap ((heap w ++ [OArr xs]) ++ [OSampleSnap c (List.length (heap w))]) w1) with (set_heap (heap w1 ++ [OSampleSnap c (List.length (heap w))]) w1).
    apply does_alloc; [apply does_alloc; [apply does_still; [exact Cn|rewrite Ck; reflexivity]|exact Cn]|unfold w1; now rewrite cell_alloc].
  - (* Stat *) unfold sample_stat, sample_contents, uni_get, arr_get, bind, load. rewrite El. cbn [ret]. rewrite Ea. cbn [ret fst snd]. apply does_still; [exact Cn|]. rewrite Ck. destruct s; reflexivity.
  - (* Percentile *) apply (uniform_sorts w l c n a xs (OPercentile x p, o) [p] _ Ap El Ea).
    + unfold f_rv, sample_percentiles, first_score, uni_get, arr_get, bind, load. rewrite El. cbn [ret]. rewrite Ea. cbn [ret]. destruct (SamplePercentiles xs [p]) as [after [r|msg]]; unfold store, lift; cbn [fst snd]; [|reflexivity]. now destruct (sget r 0).
    + unfold f_rv, sample_percentiles, first_score, uni_get, arr_get, bind, load. rewrite El. cbn [ret]. rewrite Ea. cbn [ret]. cbn [cell_apply fst snd sample_call uniform_apply uni_percentiles uni_Values u_values u_count u_size]. unfold SamplePercentile, uni_percentiles. cbn [u_values u_count u_size].
      destruct (SamplePercentiles xs [p]) as [after [r|msg]]; unfold store, lift; cbn [fst snd]; [|reflexivity]. cbn [res_bind]. now destruct (sget r 0).
  - (* Percentiles *) apply (uniform_sorts w l c n a xs (OPercentiles x ps, o) ps _ Ap El Ea).
    + unfold sample_percentiles, uni_get, arr_get, bind, load. rewrite El. cbn [ret]. rewrite Ea. cbn [ret]. destruct (SamplePercentiles xs ps) as [after [r|msg]]; reflexivity.
    + unfold sample_percentiles, uni_get, arr_get, bind, load. rewrite El. cbn [ret]. rewrite Ea. cbn [ret]. cbn [cell_apply fst snd sample_call uniform_apply uni_percentiles uni_Values u_values u_count u_size]. unfold uni_percentiles. cbn [u_values u_count u_size].
      destruct (SamplePercentiles xs ps) as [after [r|msg]]; reflexivity.
  - (* Size *) unfold z_rv, sample_size, sample_contents, uni_get, arr_get, bind, load. rewrite El. cbn [ret]. rewrite Ea. cbn [ret fst snd]. apply does_still; [exact Cn|]. rewrite Ck. reflexivity.
  - (* Values *) unfold v_rv, sample_values, sample_contents, uni_get, arr_get, new_slice, alloc, bind, load. rewrite El. cbn [ret]. rewrite Ea. cbn [ret fst snd look].
    assert (E : slice_in (set_heap (heap w ++ [OArr xs]) w) (List.length (heap w)) = Some xs) by (unfold slice_in; cbn [heap set_heap]; now rewrite nth_last). rewrite E.
    apply does_alloc; [apply does_still; [exact Cn|rewrite Ck; reflexivity]|exact Cn].
Qed.
Lemma exp_method w l s co m : apart w -> nth_error (heap w) l = Some (OExp s) -> sample_method (VExp l) (fst co) = Some m -> mdoes co m w l.
Proof.
  intros Ap El Hm. destruct co as [op o]. cbn [fst] in Hm.
  assert (Ck : cell_at w l = ExpAt s) by (unfold cell_at; now rewrite El). assert (Cn : cell_at w l <> NoMetric) by congruence.
  assert (Ll : l < List.length (heap w)) by (eapply nth_lt; eauto).
  assert (Cs : forall s', cell_at (set_heap (lset (heap w) l (OExp s')) w) l = ExpAt s') by (intros s'; unfold cell_at; cbn [heap set_heap]; now rewrite lset_nth_eq by exact Ll).
  unfold mdoes. cbn [snd].
  destruct op; cbn [sample_method] in Hm; try discriminate; injection Hm as <-.
  - (* Clear *) unfold unit_rv, sample_clear, exp_get, ask, store, bind, load. rewrite El. cbn [ret fst snd heap set_heap look].
    apply (does_store _ _ _ (OExp s)); [exact El|discriminate|exact Cn|]. now rewrite Ck, Cs.
  - (* Count *) unfold z_rv, sample_count, exp_get, bind, load. rewrite El. cbn [ret fst snd look]. apply does_still; [exact Cn|]. rewrite Ck. reflexivity.
  - (* Update *) unfold unit_rv, sample_update, exp_get, ask, bind, load. rewrite El. cbn [ret].
    assert (Ap' : cell_apply (cell_at w l) (OUpdate x n, o) = (ExpAt (fst (exp_update mexp s (o_now o) n (o_rand o))), match snd (exp_update mexp s (o_now o) n (o_rand o)) with Ok _ => SeenUnit | Panic m => SeenPanic m end)).
    { rewrite Ck. cbn [cell_apply fst snd sample_call expdecay_apply]. destruct (snd (exp_update mexp s (o_now o) n (o_rand o))); reflexivity. }
    destruct (exp_update mexp s (o_now o) n (o_rand o)) as [u r]. cbn [fst snd] in *. unfold store, lift. cbn [fst snd heap set_heap].
    assert (G : does w l (OUpdate x n, o) (set_heap (lset (heap w) l (OExp u)) w) (match r with Ok _ => SeenUnit | Panic m => SeenPanic m end)).
    { apply (does_store _ _ _ (OExp s)); [exact El|discriminate|exact Cn|]. now rewrite Ap', Cs. }
    destruct r; exact G.
  - (* Snapshot *) unfold v_rv, sample_snapshot, exp_get, new_slice, alloc, bind, load. rewrite El. cbn [ret fst snd look heap set_heap].
    set (xs := exp_Values s). set (c := exp_Count s). set (w1 := set_heap (heap w ++ [OArr xs]) w).
    assert (E : snapshot_in (set_heap ((heap w ++ [OArr xs]) ++ [OSampleSnap c (List.length (heap w))]) w1) (List.length (heap w ++ [OArr xs])) = SeenSample c xs).
    { unfold snapshot_in, slice_in. cbn [heap set_heap]. rewrite nth_last. rewrite (nth_app_l _ _ _ _ (nth_last (heap w) (OArr xs))). reflexivity. }
    rewrite E. change (set_heap ((heap w ++ [OArr xs]) ++ [OSampleSnap c (List.length (heap w))]) w1) with (set_heap (heap w1 ++ [OSampleSnap c (List.length (heap w))]) w1).
    apply does_alloc; [apply does_alloc; [apply does_still; [exact Cn|rewrite Ck; reflexivity]|exact Cn]|unfold w1; now rewrite cell_alloc].
  - (* Stat *) unfold sample_stat, sample_contents, exp_get, bind, load. rewrite El. cbn [ret fst snd]. apply does_still; [exact Cn|]. rewrite Ck. destruct s0; reflexivity.
  - (* Percentile *) unfold f_rv, sample_percentiles, first_score, exp_get, bind, load. rewrite El. cbn [ret]. unfold lift.
    assert (Ap' : cell_apply (cell_at w l) (OPercentile x p, o) = (ExpAt s, match snd (SamplePercentiles (exp_Values s) [p]) with Ok r => match sget r 0 with Ok v => SeenFloat v | Panic m => SeenPanic m end | Panic m => SeenPanic m end)).
    { rewrite Ck. cbn [cell_apply fst snd sample_call expdecay_apply]. unfold SamplePercentile. destruct (SamplePercentiles (exp_Values s) [p]) as [after [r|msg]]; cbn [fst snd res_bind done]; [|reflexivity]. now destruct (sget r 0). }
    destruct (snd (SamplePercentiles (exp_Values s) [p])) as [r|msg]; [destruct (sget r 0)|]; cbn [ret fst snd look]; (apply does_still; [exact Cn|rewrite Ap', Ck; reflexivity]).
  - (* Percentiles *) unfold sample_percentiles, exp_get, bind, load. rewrite El. cbn [ret]. unfold lift.
    assert (Ap' : cell_apply (cell_at w l) (OPercentiles x ps, o) = (ExpAt s, match snd (SamplePercentiles (exp_Values s) ps) with Ok r => SeenFloats r | Panic m => SeenPanic m end)).
    { rewrite Ck. cbn [cell_apply fst snd sample_call expdecay_apply]. destruct (SamplePercentiles (exp_Values s) ps) as [after [r|msg]]; reflexivity. }
    destruct (snd (SamplePercentiles (exp_Values s) ps)) as [r|msg]; cbn [ret fst snd look]; (apply does_still; [exact Cn|rewrite Ap', Ck; reflexivity]).
  - (* Size *) unfold z_rv, sample_size, sample_contents, exp_get, bind, load. rewrite El. cbn [ret fst snd]. apply does_still; [exact Cn|]. rewrite Ck. cbn [cell_apply fst snd sample_call expdecay_apply seen_sample look]. f_equal. f_equal. apply fits_size. exact (proj2 (proj2 Ap) _ _ El).
  - (* Values *) unfold v_rv, sample_values, sample_contents, exp_get, new_slice, alloc, bind, load. rewrite El. cbn [ret fst snd look].
    assert (E : slice_in (set_heap (heap w ++ [OArr (exp_Values s)]) w) (List.length (heap w)) = Some (exp_Values s)) by (unfold slice_in; cbn [heap set_heap]; now rewrite nth_last). rewrite E.
    apply does_alloc; [apply does_still; [exact Cn|rewrite Ck; reflexivity]|exact Cn].
Qed.
Definition sample_here (w : world) (sv : val) (l : nat) : Prop :=
  (exists c n a xs, sv = VUniform l /\ nth_error (heap w) l = Some (OUniform c n a) /\ nth_error (heap w) a = Some (OArr xs)) \/
  (exists s, sv = VExp l /\ nth_error (heap w) l = Some (OExp s)).
Lemma sample_method_does w l sv co m : apart w -> sample_here w sv l -> sample_method sv (fst co) = Some m -> mdoes co m w l.
Proof. intros Ap [(c & n & a & xs & -> & El & Ea)|(s & -> & El)] Hm; [eapply uniform_method; eauto|eapply exp_method; eauto]. Qed.
Lemma sample_here_ok w sv l : wf w -> vok (heap w) sv -> sv = VUniform l \/ sv = VExp l -> sample_here w sv l.
Proof.
  intros W V [->| ->]; cbn in V; destruct V as (y & E & T); destruct y; try discriminate.
  - left. destruct (wf_obj _ W _ _ E) as ((z & Ez & Tz) & _). destruct z; try discriminate. repeat eexists; eauto.
  - right. eauto.
Qed.
Lemma sample_step (st : state) x sv l c o : apart (fst st) -> nth_error (snd st) x = Some sv -> sample_here (fst st) sv l -> receiver c = Some x -> call mexp (snd st) c <> None ->
  does (fst st) l (c, o) (fst (fst (step mexp st (c, o)))) (look (fst (fst (step mexp st (c, o)))) (snd (step mexp st (c, o)))).
Proof.
  intros Ap Ex H Rc Tc. assert (K : cls sv = CSample) by (destruct H as [(? & ? & ? & ? & -> & _)|(? & -> & _)]; reflexivity).
  destruct (call mexp (snd st) c) as [m|] eqn:E; [|now destruct Tc]. apply (step_mdoes st c o l m E). apply (sample_method_does _ l sv (c, o) m Ap H). cbn [fst]. rewrite <- E.
  clear H. destruct c; cbn in Rc; try discriminate; injection Rc as ->; unfold World.call, obind in E |- *; rewrite Ex in E |- *;
    unfold m_clear, m_count, m_value, m_update, m_snapshot, m_stat, m_percentiles, World.only in E |- *; rewrite ?K in E; rewrite ?K; cbn [class_eqb] in E |- *; try discriminate; reflexivity.
Qed.
Lemma mdoes_eq co m m' w l : m (snd co) w = m' (snd co) w -> mdoes co m' w l -> mdoes co m w l.
Proof. unfold mdoes. now intros ->. Qed.
Lemma does_cell w l co w' r : does w l co w' r -> cell_at w' l <> NoMetric.
Proof.
  intros (C & A & _). destruct (cell_at w l) eqn:K; cbn [cell_apply] in A; [| | | | |now destruct C];
    repeat match type of A with context [match ?x with _ => _ end] => destruct x end; injection A as A _; rewrite <- A; discriminate.
Qed.
Lemma hist_step (st : state) x h sv l c o : apart (fst st) -> nth_error (snd st) x = Some (VHist h) -> nth_error (heap (fst st)) h = Some (OHist sv) -> sample_here (fst st) sv l -> receiver c = Some x -> call mexp (snd st) c <> None ->
  does (fst st) l (c, o) (fst (fst (step mexp st (c, o)))) (look (fst (fst (step mexp st (c, o)))) (snd (step mexp st (c, o)))).
Proof.
  intros Ap Ex Eh H Rc Tc. destruct (call mexp (snd st) c) as [m|] eqn:E; [|now destruct Tc]. apply (step_mdoes st c o l m E).
  assert (G : forall m0, sample_method sv c = Some m0 -> mdoes (c, o) m0 (fst st) l) by (intros m0 E0; exact (sample_method_does (fst st) l sv (c, o) m0 Ap H E0)).
  destruct c; cbn in Rc; try discriminate; injection Rc as ->; unfold World.call, obind in E; rewrite Ex in E; cbn in E; try discriminate; injection E as <-; cbn [sample_method] in G.
  - eapply mdoes_eq; [|apply G; reflexivity]. cbn [snd]. unfold unit_rv, hist_clear. unfold hist_sample, bind, load. cbv beta iota. rewrite Eh. reflexivity.
  - eapply mdoes_eq; [|apply G; reflexivity]. cbn [snd]. unfold z_rv, hist_count. unfold hist_sample, bind, load. cbv beta iota. rewrite Eh. reflexivity.
  - eapply mdoes_eq; [|apply G; reflexivity]. cbn [snd]. unfold unit_rv, hist_update. unfold hist_sample, bind, load. cbv beta iota. rewrite Eh. reflexivity.
  - specialize (G _ eq_refl). unfold mdoes in G |- *. cbn [snd] in G |- *.
    assert (Sn : exists w' k, sample_snapshot sv o (fst st) = (w', Ok (VSampleSnap k))).
    { destruct H as [(d & n & a & xs & -> & El & Ea)|(s & -> & El)]; unfold sample_snapshot, uni_get, exp_get, arr_get, bind, load; rewrite El; cbn [ret]; [rewrite Ea; cbn [ret]|]; unfold new_slice, alloc; eexists _, _; reflexivity. }
    destruct Sn as (w' & k & Sn). unfold v_rv in G |- *. unfold bind in G. rewrite Sn in G. cbn [ret fst snd look] in G.
    unfold hist_snapshot, hist_sample, bind, load. cbv beta iota. rewrite Eh. cbn [ret]. rewrite Sn. unfold alloc, ret. cbn [fst snd look heap set_heap]. rewrite nth_last.
    assert (El : snapshot_in (set_heap (heap w' ++ [OHistSnap k]) w') k = snapshot_in w' k).
    { pose proof G as (_ & A & _). clear - A H Sn. assert (N : snapshot_in w' k <> SeenNothing).
      { intros N. rewrite N in A. destruct H as [(d & n & a & xs & -> & El & Ea)|(s & -> & El)]; unfold cell_at in A; rewrite El in A; [rewrite Ea in A|]; discriminate. }
      unfold snapshot_in, slice_in in *. cbn [heap set_heap]. destruct (nth_error (heap w') k) as [y|] eqn:Ek; [|now destruct N]. rewrite (nth_app_l _ _ _ _ Ek). destruct y; try reflexivity.
      destruct (nth_error (heap w') arr) as [z|] eqn:Ez; [|now destruct N]. now rewrite (nth_app_l _ _ _ _ Ez). }
    rewrite El. apply does_alloc; [exact G|]. exact (does_cell _ _ _ _ _ G).
  - eapply mdoes_eq; [|apply G; reflexivity]. cbn [snd]. unfold hist_stat. unfold hist_sample, bind, load. cbv beta iota. rewrite Eh. reflexivity.
  - eapply mdoes_eq; [|apply G; reflexivity]. cbn [snd]. unfold f_rv, hist_percentiles. unfold hist_sample, bind, load. cbv beta iota. rewrite Eh. reflexivity.
  - eapply mdoes_eq; [|apply G; reflexivity]. cbn [snd]. unfold hist_percentiles. unfold hist_sample, bind, load. cbv beta iota. rewrite Eh. reflexivity.
Qed.

(** ** the whole process *)
Lemma served_step (st : state) c o l : inv st -> apart (fst st) -> target st c = Some l -> call mexp (snd st) c <> None ->
  does (fst st) l (c, o) (fst (fst (step mexp st (c, o)))) (look (fst (fst (step mexp st (c, o)))) (snd (step mexp st (c, o)))).
Proof.
  intros [W F] Ap Tg Tc. unfold target in Tg. destruct (receiver c) as [x|] eqn:Rc; [|discriminate]. destruct (nth_error (snd st) x) as [v|] eqn:Ex; [|discriminate].
  rewrite Forall_forall in F. pose proof (F v (nth_error_In _ _ Ex)) as V. destruct v; cbn [home] in Tg; try discriminate.
  - injection Tg as ->. destruct V as (y & E & T). destruct y; try discriminate. eapply counter_step; eauto.
  - injection Tg as ->. destruct V as (y & E & T). destruct y; try discriminate. eapply gauge_step; eauto.
  - injection Tg as ->. destruct V as (y & E & T). destruct y; try discriminate. eapply gaugef_step; eauto.
  - injection Tg as ->. eapply sample_step; eauto. apply sample_here_ok; auto.
  - injection Tg as ->. eapply sample_step; eauto. apply sample_here_ok; auto.
  - destruct (nth_error (heap (fst st)) l0) as [y|] eqn:Eh; [|discriminate]. destruct y; try discriminate. destruct (wf_obj _ W _ _ Eh) as (_ & Vs).
    destruct s; try discriminate; injection Tg as ->; (eapply hist_step; [exact Ap|exact Ex|exact Eh| |exact Rc|exact Tc]; apply sample_here_ok; auto).
Qed.
(** the world that goes with the structs *)
Definition follows (st0 : state) (q : nat -> cell) (st : state) : Prop :=
  inv st /\ apart (fst st) /\ (forall x v, nth_error (snd st0) x = Some v -> nth_error (snd st) x = Some v) /\
  (forall h s, nth_error (heap (fst st0)) h = Some (OHist s) -> nth_error (heap (fst st)) h = Some (OHist s)) /\
  (forall l, cell_at (fst st0) l <> NoMetric -> cell_at (fst st) l = q l /\ q l <> NoMetric).
Lemma follows_start st0 : inv st0 -> apart (fst st0) -> follows st0 (fun l => cell_at (fst st0) l) st0.
Proof. intros I A. split; [exact I|]. split; [exact A|]. auto. Qed.
Lemma obind_recv {A} (e e' : env) x (f : val -> option A) : (forall v, nth_error e x = Some v -> nth_error e' x = Some v) -> obind (nth_error e x) f <> None -> obind (nth_error e' x) f <> None.
Proof. intros H. destruct (nth_error e x) as [v|]; [|intros N; now destruct N]. now rewrite (H v eq_refl). Qed.
Lemma served_later st0 q st c : follows st0 q st -> inv st0 -> served mexp st0 c -> target st c = target st0 c /\ call mexp (snd st) c <> None.
Proof.
  intros (_ & _ & Ev & Hs & _) [W0 F0] (Tg & Tc). unfold target in *. destruct (receiver c) as [x|] eqn:Rc; [|now destruct Tg]. destruct (nth_error (snd st0) x) as [v|] eqn:Ex; [|now destruct Tg].
  pose proof (Ev x v Ex) as Ex'. rewrite Ex'. split.
  - destruct v; cbn [home] in *; try reflexivity. destruct (nth_error (heap (fst st0)) l) as [y|] eqn:Eh; [|now destruct Tg]. destruct y; try (now destruct Tg). now rewrite (Hs _ _ Eh).
  - destruct c; cbn in Rc; try discriminate; injection Rc as ->; unfold World.call in *; rewrite Ex in Tc; rewrite Ex'; exact Tc.
Qed.
Lemma hist_stays (st : state) c o h s : inv st -> nth_error (heap (fst st)) h = Some (OHist s) -> nth_error (heap (fst (fst (step mexp st (c, o))))) h = Some (OHist s).
Proof.
  intros I E. destruct (step_inv mexp st c o I) as (_ & (_ & L & _) & _). destruct (L _ _ E) as (y' & E' & X). rewrite E'. cbn in X. now rewrite X.
Qed.
Notation Obj st0 := (metrics mexp (fst st0)).
Definition all_apply (st0 : state) := apply_at (Obj st0) (fun _ => cell) (fun _ => cell_apply).
Lemma follows_step st0 q st co l : inv st0 -> apart (fst st0) -> follows st0 q st -> served mexp st0 (fst co) -> target st0 (fst co) = Some l ->
  follows st0 (fst (all_apply st0 q (existT _ l co))) (fst (world_apply mexp st co)) /\ snd (world_apply mexp st co) = result_only (mexp := mexp) (w := fst st0) (snd (all_apply st0 q (existT _ l co))).
Proof.
  intros I0 A0 H Sv Tg. destruct co as [c o]. cbn [fst] in *. destruct (served_later st0 q st c H I0 Sv) as (Tg' & Tc). rewrite Tg in Tg'. pose proof H as (I & A & Ev & Hs & Cl).
  pose proof (served_step st c o l I A Tg' Tc) as D. pose proof (does_cell _ _ _ _ _ D) as Cd. destruct D as (C & Ap & Fr).
  assert (Cl0 : cell_at (fst st0) l <> NoMetric) by (destruct Sv as (_ & Tc0); exact (proj1 (served_step st0 c o l I0 A0 Tg Tc0))).
  unfold all_apply, apply_at, world_apply. rewrite (proj1 (Cl l Cl0)) in Ap. cbn [metrics o_op o_ret] in *. rewrite Ap. cbn [fst snd result_only projT2]. split; [|reflexivity].
  split; [apply (step_inv mexp st c o I)|]. split; [apply step_apart, A|]. split; [intros x v E; apply step_env, Ev, E|]. split; [intros h s E; apply hist_stays; auto|].
  intros l' C'. destruct (Nat.eq_dec l l') as [<-|N]; [rewrite put_same; split; [reflexivity|exact Cd]|]. rewrite put_other by exact N. destruct (Cl l' C') as (E & Ne). rewrite Fr; [auto|congruence|congruence].
Qed.

Lemma located st sched t op : In (Call t op) (map (locate_choice mexp st) sched) -> exists co, In (Call t co) sched /\ op = locate mexp st co.
Proof. intros H. apply in_map_iff in H. destruct H as ([u co|u] & E & H); cbn in E; [|discriminate]. injection E as <- <-. eauto. Qed.
Lemma history_calls {S L Op R} (body : Op -> code S L R) s0 sched t op : In (HInv t op) (history (snd (cexec body s0 sched))) -> In (Call t op) sched.
Proof.
  induction sched as [|[u o|u] sched IH] using rev_ind; [intros []| |]; rewrite cexec_snoc; destruct (cexec body s0 sched) as [c tr]; cbn [fst snd] in *; intros H; apply in_or_app.
  - cbn [cstep] in H. destruct (th c u); cbn [snd fst] in H; rewrite ?app_nil_r, ?history_app in H; [|auto].
    apply in_app_or in H. destruct H as [H|H]; [auto|]. cbn in H. destruct H as [H|[]]. injection H as <- <-. right. now left.
  - left. apply IH. cbn [cstep] in H. destruct (th c u) as [|o [r|e up l k]]; [now rewrite app_nil_r in H| |].
    + cbn [snd fst] in H. rewrite history_app in H. apply in_app_or in H. destruct H as [H|H]; [exact H|]. cbn in H. destruct H as [H|[]]. discriminate.
    + destruct (e (sh c)); cbn [snd fst] in H; [|now rewrite app_nil_r in H]. rewrite history_app, history_steps, app_nil_r in H. exact H.
Qed.
Lemma process_linearizable st sched : inv st -> apart (fst st) -> (forall t co, In (Call t co) sched -> served mexp st (fst co)) ->
  linearizable (world_apply mexp) st (seen_history (history (snd (process mexp st sched)))).
Proof.
  intros I A Sv. unfold seen_history.
  assert (L : linearizable (all_apply st) (fun l => cell_at (fst st) l) (history (snd (process mexp st sched)))) by (apply (objects_linearizable (Obj st) (fun _ => cell) (fun _ => cell_apply)); intros l sched'; apply cell_linearizable).
  refine (transfer (all_apply st) (world_apply mexp) call_only result_only (fun op => served mexp st (fst (call_only op)) /\ target st (fst (call_only op)) = Some (projT1 op)) (follows st) _ _ _ _ L _ (follows_start st I A)).
  - intros q p [l co] (Sc & Tg) H. exact (follows_step st q p co l I A H Sc Tg).
  - intros t op H. unfold process, objects_exec in H. apply history_calls in H. apply located in H. destruct H as (co & H & ->). specialize (Sv t co H). cbn [locate call_only projT1 projT2]. split; [exact Sv|].
    destruct Sv as (Tg & _). destruct (target st (fst co)); [reflexivity|now destruct Tg].
Qed.
End Exp.
