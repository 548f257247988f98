(** Properties C17-C22: ExpDecaySample (sample.go:32-186, 537-610).

    [exp_run mexp (NewExpDecaySample N alpha now) h] is the sample after the
    calls [h]; each update carries its time and its random draw, both arbitrary;
    [mexp] is math.Exp, arbitrary unless restricted. *)
From Coq Require Import ZArith List Permutation Lia.
From Verif.Model Require Import GoInt GoFloat GoBase ExpDecay.
From Verif.Spec Require Import OrderStats Reservoir DecaySpec.
From Verif.Proofs Require Import FloatFacts ListFacts UniformProofs ExpDecayProofs.
Import ListNotations.
Open Scope Z_scope.

(** a stand-in for math.Exp used in the examples *)
Definition toy_exp (x : f64) : f64 :=
  if flt x f_zero then f_of_scaled 1 (-10) else if flt f_zero x then f_of_int 1024 else f_of_int 1.

(* two updates, an update two hours later (rescaling), one with a backward
   clock, at capacity 2; then a clear and another update *)
Definition ex_xhistory : list xop :=
  [XUpdate 0 7 (f_of_scaled 1 (-2)); XUpdate 5 8 (f_of_scaled 1 (-1)); XRead;
   XUpdate 7200000000000 9 (f_of_scaled 3 (-2)); XUpdate 7100000000000 6 (f_of_scaled 3 (-4))].
Definition ex_xhistory2 : list xop := ex_xhistory ++ [XClear 7300000000000; XUpdate 7300000000001 (-5) (f_of_scaled 1 (-7))].

(** ** C17 *)
Theorem C17_count_and_size : forall mexp N alpha now h, (1 <= N)%nat -> few (map xop_event h) ->
  let s := exp_run mexp (NewExpDecaySample N alpha now) h in let r := recorded (map xop_event h) in
  exp_Count s = slen r /\ exp_Size s = Z.min (slen r) (Z.of_nat N) /\ slen (exp_Values s) = exp_Size s.
Proof. exact exp_count_size. Qed.
Print Assumptions C17_count_and_size.

Theorem C17_never_panics : forall mexp N alpha now h o, (1 <= N)%nat -> few (map xop_event (h ++ [o])) ->
  snd (exp_step mexp (exp_run mexp (NewExpDecaySample N alpha now) h) o) = Ok tt.
Proof. exact exp_no_panic. Qed.
Print Assumptions C17_never_panics.

Theorem C17_size_zero_panics : forall mexp alpha now t v u,
  snd (exp_update mexp (NewExpDecaySample 0 alpha now) t v u) = Panic msg_index.
Proof. exact exp_zero_panics. Qed.
Print Assumptions C17_size_zero_panics.

Example C17_example :
  few (map xop_event ex_xhistory2) /\
  recorded (map xop_event ex_xhistory) = [7; 8; 9; 6] /\
  recorded (map xop_event ex_xhistory2) = [-5] /\
  exp_Values (exp_run toy_exp (NewExpDecaySample 2 alpha015 0) ex_xhistory) = [6; 8].
Proof. split; [apply few_short; reflexivity|]. vm_compute. repeat split; reflexivity. Qed.

(** ** C18 *)
Theorem C18_only_recorded_values : forall mexp N alpha now h, (1 <= N)%nat -> few (map xop_event h) ->
  submultiset (exp_Values (exp_run mexp (NewExpDecaySample N alpha now) h)) (recorded (map xop_event h)).
Proof. exact exp_only_recorded. Qed.
Print Assumptions C18_only_recorded_values.

Theorem C18_newest_is_held : forall mexp N alpha now h t v u, (1 <= N)%nat ->
  few (map xop_event (h ++ [XUpdate t v u])) ->
  In v (exp_Values (exp_run mexp (NewExpDecaySample N alpha now) (h ++ [XUpdate t v u]))).
Proof. exact exp_newest. Qed.
Print Assumptions C18_newest_is_held.

Theorem C18_discards_exactly_one : forall mexp N alpha now h t v u, (1 <= N)%nat -> few (map xop_event h) ->
  let s := exp_run mexp (NewExpDecaySample N alpha now) h in
  let s' := fst (exp_update mexp s t v u) in
  (exp_Size s < Z.of_nat N -> Permutation (exp_Values s') (v :: exp_Values s)) /\
  (exp_Size s = Z.of_nat N -> exists x keep,
     Permutation (exp_Values s) (x :: keep) /\ Permutation (exp_Values s') (v :: keep)).
Proof. exact exp_discards_one. Qed.
Print Assumptions C18_discards_exactly_one.

(* both cases occur: size 2 of 2, and size 2 of 3 *)
Example C18_example :
  exp_Size (exp_run toy_exp (NewExpDecaySample 2 alpha015 0) (firstn 3 ex_xhistory)) = 2 /\
  exp_Size (exp_run toy_exp (NewExpDecaySample 3 alpha015 0) (firstn 3 ex_xhistory)) = 2.
Proof. vm_compute. repeat split; reflexivity. Qed.

(** ** C19: array positions (i-1)/2 and i are parent and child. *)
Theorem C19_min_heap : forall mexp N alpha now h, (1 <= N)%nat -> few (map xop_event h) ->
  mexp_nonneg mexp -> never_nan mexp alpha now h ->
  let l := hvalues (x_heap (exp_run mexp (NewExpDecaySample N alpha now) h)) in
  forall i a b, (0 < i)%nat -> nth_error l i = Some a -> nth_error l ((i - 1) / 2) = Some b ->
  fle (e_k b) (e_k a) = true.
Proof. exact exp_heap_order. Qed.
Print Assumptions C19_min_heap.

Theorem C19_evicts_a_minimum : forall mexp N alpha now h t v u, (1 <= N)%nat -> few (map xop_event h) ->
  mexp_nonneg mexp -> never_nan mexp alpha now h ->
  let s := exp_run mexp (NewExpDecaySample N alpha now) h in
  let s' := fst (exp_update mexp s t v u) in
  exp_Size s = Z.of_nat N ->
  exists gone keep,
    Permutation (hvalues (x_heap s)) (gone :: keep) /\
    (forall e, In e (hvalues (x_heap s)) -> fle (e_k gone) (e_k e) = true) /\
    Permutation (exp_Values s') (v :: map e_v keep).
Proof. exact exp_evicts_min. Qed.
Print Assumptions C19_evicts_a_minimum.

Lemma toy_nonneg : mexp_nonneg toy_exp.
Proof. intros x _. unfold toy_exp. destruct (flt x f_zero); [reflexivity|]. destruct (flt f_zero x); reflexivity. Qed.

Example C19_example : mexp_nonneg toy_exp /\ never_nan toy_exp alpha015 0 ex_xhistory /\
  exp_Size (exp_run toy_exp (NewExpDecaySample 2 alpha015 0) ex_xhistory) = 2.
Proof.
  split; [exact toy_nonneg|]. split; [apply never_nan_check; vm_compute; reflexivity|vm_compute; reflexivity].
Qed.

(** ** C20: the ledger lists every observation since the last clear with its
    priority at the current landmark; of it the sample holds N (or all), and the
    rest has been discarded. *)
Theorem C20_all_but_one_outrank_the_discarded : forall mexp N alpha now h, (1 <= N)%nat -> few (map xop_event h) ->
  mexp_nonneg mexp -> never_nan mexp alpha now h ->
  let held := map pr (hvalues (x_heap (exp_run mexp (NewExpDecaySample N alpha now) h))) in
  exists discarded, Permutation (held ++ discarded) (l_obs (ledger_run mexp alpha now h)) /\
    (discarded = [] \/ exists exempt rest, Permutation held (exempt :: rest) /\
       forall d x, In d discarded -> In x rest -> fle (fst d) (fst x) = true).
Proof. exact exp_top. Qed.
Print Assumptions C20_all_but_one_outrank_the_discarded.

(** without the exemption the claim is false *)
Theorem C20_top_N_refuted : ~ (forall mexp N alpha now h, (1 <= N)%nat -> few (map xop_event h) ->
  mexp_nonneg mexp -> never_nan mexp alpha now h ->
  let held := map pr (hvalues (x_heap (exp_run mexp (NewExpDecaySample N alpha now) h))) in
  exists discarded, Permutation (held ++ discarded) (l_obs (ledger_run mexp alpha now h)) /\
    forall d x, In d discarded -> In x held -> fle (fst d) (fst x) = true).
Proof.
  intro H.
  destruct (H toy_exp 1%nat alpha015 0 [XUpdate 0 1 (f_of_scaled 1 (-4)); XUpdate 0 2 (f_of_scaled 1 (-1))])
    as (D & P & Q).
  - lia.
  - apply few_short. reflexivity.
  - exact toy_nonneg.
  - apply never_nan_check. vm_compute. reflexivity.
  - set (held := map pr _) in *. set (obs := l_obs _) in *.
    assert (Eh : map snd held = [2]) by (vm_compute; reflexivity).
    assert (Eo : map snd obs = [1; 2]) by (vm_compute; reflexivity).
    assert (Ho : forallb (fun d => forallb (fun x => if snd d =? 1 then negb (fle (fst d) (fst x)) else true) held) obs = true)
      by (vm_compute; reflexivity).
    assert (Hd : exists d, In d D /\ snd d = 1).
    { apply (Permutation_map snd) in P. rewrite map_app, Eh, Eo in P.
      assert (I : In 1 ([2] ++ map snd D)) by (apply (Permutation_in _ (Permutation_sym P)); now left).
      destruct I as [I|I]; [discriminate|]. apply in_map_iff in I. destruct I as (d & E & I). now exists d. }
    destruct Hd as (d & Hd & Ed).
    destruct held as [|x held']; [discriminate|].
    specialize (Q d x Hd (or_introl eq_refl)).
    rewrite forallb_forall in Ho.
    assert (Hin : In d obs) by (apply (Permutation_in _ P); apply in_or_app; now right).
    specialize (Ho d Hin). rewrite Ed in Ho. simpl in Ho. rewrite Q in Ho. discriminate.
Qed.
Print Assumptions C20_top_N_refuted.

(* four observations, two held, across one rescaling *)
Example C20_example : few (map xop_event ex_xhistory) /\ never_nan toy_exp alpha015 0 ex_xhistory /\
  map snd (l_obs (ledger_run toy_exp alpha015 0 ex_xhistory)) = [7; 8; 9; 6].
Proof.
  split; [apply few_short; reflexivity|]. split; [apply never_nan_check; vm_compute; reflexivity|vm_compute; reflexivity].
Qed.

(** ** C21 *)
Theorem C21_rescaling : forall mexp N alpha now h t v u, (1 <= N)%nat -> few (map xop_event h) ->
  let s := exp_run mexp (NewExpDecaySample N alpha now) h in
  x_t0 s + one_hour < t ->
  let s' := fst (exp_update mexp s t v u) in
  let s'' := fst (exp_update mexp (without_rescale s t) t v u) in
  let factor := mexp (fmul (fneg alpha) (seconds (time_sub t (x_t0 s)))) in
  x_t0 s' = t /\ x_t1 s' = t + one_hour /\
  Permutation (map pr (hvalues (x_heap s'))) (map (pscale factor) (map pr (hvalues (x_heap s'')))) /\
  exp_Count s' = exp_Count s'' /\ exp_Size s' = exp_Size s''.
Proof. exact exp_rescale. Qed.
Print Assumptions C21_rescaling.

Theorem C21_order_preserved : forall factor a b,
  fis_finite factor = true -> fle f_zero factor = true -> fle (fst a) (fst b) = true ->
  (fis_finite (fst a) = true \/ flt f_zero factor = true) ->
  (fis_finite (fst b) = true \/ flt f_zero factor = true) ->
  fle (fst (pscale factor a)) (fst (pscale factor b)) = true.
Proof. exact pscale_finite_order. Qed.
Print Assumptions C21_order_preserved.

Example C21_example :
  x_t0 (exp_run toy_exp (NewExpDecaySample 2 alpha015 0) (firstn 3 ex_xhistory)) + one_hour < 7200000000000 /\
  x_t0 (exp_run toy_exp (NewExpDecaySample 2 alpha015 0) (firstn 4 ex_xhistory)) = 7200000000000 /\
  fle (f_of_int 3) (f_inf false) = true.
Proof. vm_compute. repeat split; reflexivity. Qed.

(** ** C22.  [poison_history]: reservoir of 4, default alpha 0.015, one update,
    13 h 53 min of silence, four more updates; then a fifth. *)
Theorem C22_long_idle_poisons : forall mexp,
  mexp f_zero = f_of_int 1 -> mexp idle_arg = f_inf false -> mexp idle_arg_neg = f_zero ->
  let s := exp_run mexp (NewExpDecaySample 4 alpha015 0) poison_history in
  let s' := fst (exp_update mexp s idle 6 (f_of_scaled 1 (-5))) in
  (exists e, In e (hvalues (x_heap s)) /\ fis_nan (e_k e) = true) /\
  exists hi lo, In hi (hvalues (x_heap s)) /\ In lo (hvalues (x_heap s)) /\ flt (e_k lo) (e_k hi) = true /\
    In lo (hvalues (x_heap s')) /\ ~ In (e_v hi) (exp_Values s').
Proof.
  intros mexp M0 M1 M2. change (NewExpDecaySample 4 alpha015 0) with pz0.
  cbv zeta. rewrite !(poison_run mexp M0 M1 M2), !(poison_next mexp M0).
  assert (L5 : length (hvalues (x_heap pz5)) = 4%nat) by (vm_compute; reflexivity).
  assert (L6 : length (hvalues (x_heap pz6)) = 4%nat) by (vm_compute; reflexivity).
  split.
  - exists (nth 1 (hvalues (x_heap pz5)) entry0). split; [apply nth_In; rewrite L5; lia|vm_compute; reflexivity].
  - exists (nth 0 (hvalues (x_heap pz5)) entry0), (nth 3 (hvalues (x_heap pz5)) entry0).
    split; [apply nth_In; rewrite L5; lia|]. split; [apply nth_In; rewrite L5; lia|].
    split; [vm_compute; reflexivity|]. split.
    + replace (nth 3 (hvalues (x_heap pz5)) entry0) with (nth 0 (hvalues (x_heap pz6)) entry0).
      * apply nth_In. rewrite L6. lia.
      * assert (E : forall a b : entry, e_v a = e_v b -> float64bits (e_k a) = float64bits (e_k b) -> a = b).
        { intros [ka va] [kb vb]; simpl. intros -> B. f_equal. now apply f64_eq_bits. }
        apply E; vm_compute; reflexivity.
    + vm_compute. intuition discriminate.
Qed.
Print Assumptions C22_long_idle_poisons.

(* a function that overflows and underflows there *)
Example C22_example : exists mexp,
  mexp f_zero = f_of_int 1 /\ mexp idle_arg = f_inf false /\ mexp idle_arg_neg = f_zero.
Proof.
  exists (fun x => if flt x (f_of_int (-745)) then f_zero else if flt (f_of_int 709) x then f_inf false else f_of_int 1).
  repeat split; apply f64_eq_bits; vm_compute; reflexivity.
Qed.
