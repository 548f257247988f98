(** The methods of the samples, run without interference, do what the sequential functions do. *)
From Coq Require Import ZArith List Lia Permutation Sorted Bool Arith.
From Verif.Model Require Import GoInt GoFloat GoBase Conc Stats Uniform ExpDecay Ewma SortRace Mutex SampleConc.
From Verif.Spec Require Import Reservoir Uniformity DecaySpec SampleSpec MutexSpec.
From Verif.Proofs Require Import ListFacts SortFacts SortRaceProofs.
Import ListNotations.
Open Scope Z_scope.

Lemma cseq_get {D A R} (f : D -> A) (k : A -> code D unit R) s : cseq (get f k) s = cseq (k (f s)) s.
Proof. reflexivity. Qed.
Lemma cseq_put {D R} (f : D -> D) (k : code D unit R) s : cseq (put f k) s = cseq k (f s).
Proof. reflexivity. Qed.

(** ** UniformSample *)
Lemma cseq_copy {R} m : forall i (k : list Z -> code uniform unit R) s, (i + m = length (u_values s))%nat -> cseq (copy_from i m k) s = cseq (k (skipn i (u_values s))) s.
Proof.
  induction m as [|m IH]; intros i k s L; cbn [copy_from].
  - rewrite skipn_all2 by lia. reflexivity.
  - rewrite cseq_get, IH by lia. f_equal. f_equal. assert (H : (i < length (u_values s))%nat) by lia. clear - H. revert i H. induction (u_values s) as [|x l IHl]; intros i H; [cbn in H; lia|]. destruct i; [reflexivity|]. cbn [nth skipn]. rewrite <- IHl by (cbn in H; lia). reflexivity.
Qed.
Lemma cseq_elements {R} (k : list Z -> code uniform unit R) s : cseq (elements k) s = cseq (k (u_values s)) s.
Proof. unfold elements. rewrite cseq_get, cseq_copy by reflexivity. reflexivity. Qed.
Lemma cseq_variance {R} (k : f64 -> code uniform unit R) s : cseq (variance_loops k) s = cseq (k (uni_Variance s)) s.
Proof.
  unfold variance_loops. rewrite cseq_get. unfold uni_Variance, SampleVariance. destruct (u_values s) as [|x l] eqn:E; [reflexivity|]. cbn [length]. rewrite !cseq_elements, E. reflexivity.
Qed.
Lemma cseq_on_values {A} (c : code (list Z) unit A) : forall s, cseq (on_values c) s = match cseq c (u_values s) with Some (l, a) => Some (MkUniform (u_count s) (u_size s) l, a) | None => None end.
Proof.
  induction c as [a|e u l k IH]; intros s; [now destruct s|]. cbn [on_values cseq]. destruct (e (u_values s)); [|reflexivity]. rewrite IH. reflexivity.
Qed.
Lemma cseq_scores n : forall ps k s, length s = n -> cseq (scores n ps k) s = match percentile_loop s ps with Ok xs => cseq (k xs) s | Panic m => Some (s, Panic m) end.
Proof.
  induction ps as [|p ps IH]; intros k s L; [reflexivity|]. cbn [scores percentile_loop]. rewrite score_alone by exact L. destruct (percentile_of_sorted s p) as [x|m]; [|reflexivity]. rewrite IH by exact L. destruct (percentile_loop s ps); reflexivity.
Qed.
Lemma cseq_percentiles xs ps k : cseq (percentiles_body (length xs) ps k) xs = Some (fst (SamplePercentiles xs ps), done k (snd (SamplePercentiles xs ps))).
Proof.
  destruct xs as [|x xs]; [reflexivity|]. cbn [length percentiles_body].
  destruct (insertion_alone (scores (S (length xs)) ps (fun xs => Ret (Ok (k xs)))) (length xs) [x] xs eq_refl) as (zs & H & P & Sz); [repeat constructor|]. cbn [length app] in *. rewrite H, cseq_scores by (rewrite <- (Permutation_length P); reflexivity).
  assert (Ez : zs = sortz (x :: xs)) by (symmetry; rewrite <- (sortz_correct_any (fun _ => zs) (x :: xs)); auto).
  unfold SamplePercentiles. rewrite <- Ez. cbn [fst snd]. destruct (percentile_loop zs ps) as [v|m]; reflexivity.
Qed.
Lemma percentiles_length l : forall ps xs, snd (SamplePercentiles l ps) = Ok xs -> length xs = length ps.
Proof.
  intros ps xs. unfold SamplePercentiles. destruct l as [|x l]; cbn [snd].
  - intros E. injection E as <-. apply map_length.
  - generalize (sortz (x :: l)). intros s. revert xs. induction ps as [|p ps IH]; intros xs E; cbn [percentile_loop] in E; [now injection E as <-|].
    destruct (percentile_of_sorted s p); [|discriminate]. destruct (percentile_loop s ps) as [ys|]; [|discriminate]. cbn [res_bind] in E. injection E as <-. cbn [length]. f_equal. now apply IH.
Qed.

Lemma uniform_seq o s : exists s' a, cseq (uniform_code o) s = Some (s', a) /\ uniform_apply s o = (s', a).
Proof.
  enough (H : cseq (uniform_code o) s = Some (uniform_apply s o)). { destruct (uniform_apply s o) as [s' a]. exists s', a. auto. }
  destruct o as [v now draw rand|now| | | | |q|p|ps]; cbn [uniform_code uniform_apply].
  - rewrite !cseq_get, cseq_put, !cseq_get. unfold uni_update, set_count, set_values. cbn [u_count u_size u_values]. destruct (slen (u_values s) <? u_size s); [reflexivity|]. rewrite cseq_get. cbn [u_count]. destruct (Int63n (wrap64 (u_count s + 1)) draw) as [r|m]; [|reflexivity].
    rewrite cseq_get. cbn [u_values]. destruct (r <? slen (u_values s)) eqn:E; [|reflexivity]. rewrite cseq_get. cbn [u_values]. unfold sset. rewrite E, Z.leb_antisym, E. destruct (r <? 0); reflexivity.
  - reflexivity.
  - reflexivity.
  - reflexivity.
  - rewrite cseq_elements. reflexivity.
  - rewrite cseq_elements. reflexivity.
  - destruct q; rewrite ?cseq_elements, ?cseq_variance; reflexivity.
  - rewrite cseq_get, cseq_on_values, cseq_percentiles. unfold uni_percentiles, SamplePercentile, uni_Values. pose proof (percentiles_length (u_values s) [p]) as L. destruct (SamplePercentiles (u_values s) [p]) as [l [xs|m]]; cbn [fst snd done res_bind]; [|reflexivity].
    specialize (L xs eq_refl). destruct xs as [|x [|? ?]]; try discriminate L. reflexivity.
  - rewrite cseq_get, cseq_on_values, cseq_percentiles. unfold uni_percentiles. destruct (SamplePercentiles (u_values s) ps) as [l r]. reflexivity.
Qed.

(** ** ExpDecaySample *)
Lemma cseq_push {R} e (k : code expdecay unit (res R)) s : cseq (push e k) s = match hpush (x_heap s) e with Ok h => cseq k (x_set_heap h s) | Panic m => Some (s, Panic m) end.
Proof. unfold push. rewrite cseq_get. destruct (hpush (x_heap s) e); reflexivity. Qed.
Lemma cseq_rescale {R} mexp t0 m : forall i (v : R) s,
  cseq (rescale mexp m i t0 (Ret (Ok v))) s =
  let '(h, r) := rescale_loop m i (mexp (fmul (fneg (x_alpha s)) (seconds (time_sub (x_t0 s) t0)))) (x_heap s) in Some (x_set_heap h s, res_bind r (fun _ => Ok v)).
Proof.
  induction m as [|m IH]; intros i v s; cbn [rescale rescale_loop]; [now destruct s|]. rewrite cseq_get. destruct (nth_error (h_arr (x_heap s)) i) as [e|]; [|now destruct s]. rewrite !cseq_get, cseq_push.
  match goal with |- context [hpush ?h ?e] => destruct (hpush h e) as [h'|msg] end; [|now destruct s]. rewrite IH. unfold x_set_heap. cbn [x_alpha x_t0 x_heap x_count x_size x_t1]. destruct (rescale_loop m (S i) _ h') as [h2 r]. reflexivity.
Qed.
Lemma expdecay_seq mexp o s : exists s' a, cseq (expdecay_code mexp o) s = Some (s', a) /\ expdecay_apply mexp s o = (s', expdecay_after o a).
Proof.
  destruct o as [v t draw rand|now| | | | |q|p|ps]; cbn [expdecay_code expdecay_apply].
  - assert (X : forall h, let s1 := MkExp (x_alpha s) (wrap64 (x_count s + 1)) (x_size s) (x_t0 s) (x_t1 s) h in
      cseq (get x_t0 (fun t0 => get x_alpha (fun alpha => push (MkEntry (fdiv (mexp (fmul (seconds (time_sub t t0)) alpha)) rand) v) (get x_t1 (fun t1 => if t1 <? t then
        get (fun s => h_len (x_heap s)) (fun n => get x_t0 (fun t0 => get x_heap (fun h => put (x_set_heap (hclear h)) (put (x_set_t0 t) (get x_t0 (fun t' => put (x_set_t1 (t' + rescaleThreshold)) (rescale mexp n 0 t0 (Ret (Ok (XDone VUnit)))))))))) else Ret (Ok (XDone VUnit))))))) s1
      = match hpush h (MkEntry (fdiv (mexp (exp_arg1 s t)) rand) v) with
        | Panic m => Some (s1, Panic m)
        | Ok h2 => if x_t1 s <? t then let '(h3, r) := rescale_loop (h_len h2) 0 (mexp (exp_arg2 s t)) (hclear h2) in Some (MkExp (x_alpha s) (wrap64 (x_count s + 1)) (x_size s) t (t + rescaleThreshold) h3, res_bind r (fun _ => Ok (XDone VUnit)))
                   else Some (MkExp (x_alpha s) (wrap64 (x_count s + 1)) (x_size s) (x_t0 s) (x_t1 s) h2, Ok (XDone VUnit))
        end).
    { intros h s1. rewrite !cseq_get, cseq_push. unfold s1. cbn [x_t0 x_alpha x_heap]. fold (exp_arg1 s t). destruct (hpush h (MkEntry (fdiv (mexp (exp_arg1 s t)) rand) v)) as [h2|m]; [|reflexivity]. rewrite cseq_get. unfold x_set_heap. cbn [x_t1 x_alpha x_count x_size x_t0]. destruct (x_t1 s <? t); [|reflexivity].
      rewrite !cseq_get, !cseq_put, cseq_get, cseq_put, cseq_rescale. unfold x_set_heap, x_set_t0, x_set_t1. cbn [x_t1 x_alpha x_count x_size x_t0 x_heap]. reflexivity. }
    rewrite !cseq_get, cseq_put, !cseq_get. unfold x_set_count. cbn [x_heap x_size]. unfold exp_update, exp_update_raw. destruct (hsize (x_heap s) =? x_size s)%nat.
    + rewrite cseq_get. cbn [x_heap]. destruct (hpop (x_heap s)) as [[h1 e]|m]; [|do 2 eexists; split; reflexivity]. cbn [res_bind fst snd]. rewrite cseq_put. match goal with |- context [cseq _ (x_set_heap h1 ?s0)] => change (x_set_heap h1 s0) with (MkExp (x_alpha s) (wrap64 (x_count s + 1)) (x_size s) (x_t0 s) (x_t1 s) h1) end. rewrite X.
      destruct (hpush h1 _) as [h2|m]; [|do 2 eexists; split; reflexivity]. destruct (x_t1 s <? t); [|do 2 eexists; split; reflexivity]. destruct (rescale_loop _ 0 _ _) as [h3 r]. do 2 eexists; split; [reflexivity|]. cbn [fst snd]. f_equal. destruct r; reflexivity.
    + rewrite X. destruct (hpush (x_heap s) _) as [h2|m]; [|do 2 eexists; split; reflexivity]. destruct (x_t1 s <? t); [|do 2 eexists; split; reflexivity]. destruct (rescale_loop _ 0 _ _) as [h3 r]. do 2 eexists; split; [reflexivity|]. cbn [fst snd]. f_equal. destruct r; reflexivity.
  - do 2 eexists; split; reflexivity.
  - do 2 eexists; split; reflexivity.
  - do 2 eexists; split; reflexivity.
  - do 2 eexists; split; reflexivity.
  - do 2 eexists; split; reflexivity.
  - destruct q; do 2 eexists; split; reflexivity.
  - do 2 eexists; split; reflexivity.
  - do 2 eexists; split; reflexivity.
Qed.

(** ** sequences of calls *)
Definition to_uop (o : sop) : uop * Z :=
  match o with SUpdate v _ d _ => (UUpdate v, d) | SClear _ => (UClear, 0) | SPercentile p => (UPercentiles [p], 0) | SPercentiles ps => (UPercentiles ps, 0) | _ => (URead, 0) end.
Definition to_xop (o : sop) : xop := match o with SUpdate v t _ r => XUpdate t v r | SClear t => XClear t | _ => XRead end.
Lemma uniform_run ops : forall s, after_calls uniform_apply s ops = uni_run s (map to_uop ops).
Proof.
  unfold after_calls, uni_run. induction ops as [|o ops IH]; intros s; [reflexivity|]. cbn [map fold_left]. rewrite IH. f_equal. destruct o as [v now draw rand|now| | | | |q|p|ps]; try reflexivity; [destruct q; reflexivity| |]; cbn [uniform_apply to_uop]; unfold uni_step; cbn [fst snd]; destruct (uni_percentiles s _); reflexivity.
Qed.
Lemma expdecay_run mexp ops : forall s, after_calls (expdecay_apply mexp) s ops = exp_run mexp s (map to_xop ops).
Proof.
  unfold after_calls, exp_run. induction ops as [|o ops IH]; intros s; [reflexivity|]. cbn [map fold_left]. rewrite IH. f_equal. destruct o as [v now draw rand|now| | | | |q|p|ps]; try reflexivity. destruct q; reflexivity.
Qed.
Lemma uop_events ops : map uop_event (map to_uop ops) = map sop_event ops.
Proof. rewrite map_map. apply map_ext. intros []; reflexivity. Qed.
Lemma xop_events ops : map xop_event (map to_xop ops) = map sop_event ops.
Proof. rewrite map_map. apply map_ext. intros []; reflexivity. Qed.
