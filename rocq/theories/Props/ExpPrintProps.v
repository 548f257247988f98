(** Property C64: the response of the expvar handler is JSON.  [number_g x] is
    strconv.FormatFloat(x, 'g', -1, 64), of which is assumed that it is a JSON number when [x]
    is finite; [other k] is the text of a variable that is neither *expvar.Int nor
    *expvar.Float, of which is assumed that it is JSON. *)
From Coq Require Import ZArith List String Ascii Bool Lia Permutation Sorted.
From Verif.Model Require Import GoInt GoFloat GoBase World Fmt Report Json Expvar ExpPrint.
From Verif.Spec Require Import ApiSpec RegistrySpec GetAllSpec TextSpec WriteSpec ReportSpec ExpvarSpec JsonText ExpPrintSpec.
From Verif.Proofs Require Import FloatFacts WorldBase WorldStep GetAllProofs RegistryProofs ReportProofs ExpvarProofs TextProofs JsonProofs JsonTextProofs ExpPrintProofs.
From Verif.Props Require Import SnapshotProps HealthProps GetAllProps ReportProps WriteProps ExpvarProps.
Import ListNotations.
Local Open Scope string_scope.

Lemma print_end number_g other e : exp_print number_g other e = "{" ++ newline ++ print_vars number_g other true (sort_keys (pub e)) ++ the_end.
Proof. reflexivity. Qed.
(** names that are the same in Go and JSON notation, and finite floats: the response is an
    object with one member for each variable, in ascending order, with that variable's value *)
Theorem C64_response : forall number_g other e,
  (forall f, fis_finite f = true -> is_number (number_g f) = true) -> NoDup (map fst (pub e)) ->
  (forall k, In (k, EOther) (pub e) -> exists j, is_json (other k) j) ->
  (forall k x, In (k, x) (pub e) -> plain_name k = true /\ finite_var x = true) ->
  exists l ms, is_json (exp_print number_g other e) (JObj ms) /\ Permutation l (pub e) /\ ascending (map fst l) /\
    Forall2 (fun kx m => fst m = bytes (fst kx) /\ var_says number_g other (fst kx) (snd kx) (snd m)) l ms.
Proof.
  intros number_g other e Hn ND Ho H. rewrite print_end. assert (Sp := sort_perm (pub e)). exists (sort_keys (pub e)). destruct (sort_keys (pub e)) as [|kx l] eqn:El.
  - exists []. split; [exists 1%nat, newline; split; reflexivity|]. split; [exact Sp|]. split; constructor.
  - destruct (members_good number_g other Hn (kx :: l)) as (f & ms & M & F).
    { discriminate. }
    { intros k x Hi. apply (Permutation_in _ Sp) in Hi. destruct (H k x Hi) as (P & Fx). split; [exact P|]. split; [exact Fx|]. intros ->. now apply Ho. }
    exists ms. split.
    + exists (S f), newline. split; [|reflexivity]. rewrite value_object by discriminate. now rewrite M.
    + split; [exact Sp|]. split; [|exact F]. rewrite <- El. now apply sort_sorted.
Qed.
(** otherwise, given ASCII names, it is not JSON *)
Theorem C64_iff : forall number_g other e,
  (forall f, fis_finite f = true -> is_number (number_g f) = true) -> NoDup (map fst (pub e)) ->
  (forall k, In (k, EOther) (pub e) -> exists j, is_json (other k) j) ->
  (forall k x, In (k, x) (pub e) -> ascii_text k = true) ->
  ((exists j, is_json (exp_print number_g other e) j) <-> forall k x, In (k, x) (pub e) -> plain_name k = true /\ finite_var x = true).
Proof.
  intros number_g other e Hn ND Ho A. split.
  - intros (j & f & r & H & _). assert (D : forall kx, {goodb kx = true} + {goodb kx = false}) by (intros kx; destruct (goodb kx); auto).
    destruct (existsb (fun kx => negb (goodb kx)) (pub e)) eqn:X.
    + exfalso. apply existsb_exists in X. destruct X as ((k & x) & Hi & B). apply negb_true_iff in B. unfold goodb in B. cbn [fst snd] in B. rewrite print_end in H.
      assert (Hs : In (k, x) (sort_keys (pub e))) by (apply (Permutation_in _ (Permutation_sym (sort_perm (pub e)))); exact Hi).
      destruct f as [|f]; [discriminate|]. rewrite value_object in H by (intros Z0; rewrite Z0 in Hs; destruct Hs). rewrite (members_bad number_g other Hn) in H; [discriminate| |].
      * intros k' x' Hi'. apply (Permutation_in _ (sort_perm (pub e))) in Hi'. split; [eapply A; eauto|]. intros ->. now apply Ho.
      * exists k, x. split; [exact Hs|]. intros (P & F). rewrite P, F in B. discriminate.
    + intros k x Hi. destruct (goodb (k, x)) eqn:G; [unfold goodb in G; cbn [fst snd] in G; now apply andb_prop in G|].
      assert (Y : existsb (fun kx => negb (goodb kx)) (pub e) = true) by (apply existsb_exists; exists (k, x); split; [exact Hi|now rewrite G]). congruence.
  - intros H. destruct (C64_response number_g other e Hn ND Ho H) as (l & ms & J & _). eauto.
Qed.

(** ** a request *)
Lemma put_keys name x l k : In k (map fst (var_put name x l)) -> k = name \/ In k (map fst l).
Proof. induction l as [|[a y] l IH]; cbn [var_put map fst In]; [intuition|]. destruct (String.eqb_spec a name); cbn [map fst In]; intuition. Qed.
Lemma put_nodup name x l : NoDup (map fst l) -> NoDup (map fst (var_put name x l)).
Proof.
  induction l as [|[a y] l IH]; cbn [var_put map fst]; [repeat constructor; auto|]. intros H. inversion H as [|? ? N ND]; subst. destruct (String.eqb_spec a name) as [->|Na]; cbn [map fst]; constructor; auto.
  intros X. apply put_keys in X. destruct X as [X|X]; [congruence|contradiction].
Qed.
Lemma one_nodup name x e : NoDup (map fst (pub e)) -> NoDup (map fst (pub (fst (publish_one name x e)))).
Proof.
  intros H. destruct x; cbn [publish_one]; auto; unfold get_int, get_float; destruct (locked e); auto; destruct (expvar_get name (lock_ true e)) as [[]|]; cbn [fst pub lock_ expvar_put]; auto using put_nodup.
Qed.
Lemma acts_nodup l : forall e, NoDup (map fst (pub e)) -> NoDup (map fst (pub (fst (acts l e)))).
Proof.
  induction l as [|[name x|] l IH]; intros e H; cbn [acts]; auto. pose proof (one_nodup name x e H) as X. destruct (publish_one name x e) as [e1 []]; cbn [fst] in *; auto.
Qed.
Lemma published_in l k x : NoDup (map fst l) -> (In (k, x) l <-> published l k = Some x).
Proof.
  induction l as [|[a y] l IH]; cbn [published map fst In]; intros ND; [split; [tauto|discriminate]|]. inversion ND as [|? ? N ND']; subst. destruct (String.eqb_spec k a) as [->|Na].
  - split; [|intros H; left; congruence]. intros [H|H]; [congruence|]. exfalso. apply N. apply (in_map fst) in H. exact H.
  - rewrite <- (IH ND'). split; [|auto]. intros [H|H]; [congruence|exact H].
Qed.
Lemma plain_app a b : plain_name (a ++ b) = plain_name a && plain_name b.
Proof. unfold plain_name. induction a as [|c a IH]; [reflexivity|]. cbn [append list_ascii_of_string forallb]. now rewrite IH, andb_assoc. Qed.
Lemma variables_plain x k : Forall (fun f => plain_name (fst (fst f)) = true) (variables x k).
Proof.
  assert (D : Forall (fun f => plain_name (fst (fst f)) = true) (distribution_variables x)) by (unfold distribution_variables; repeat (constructor; [reflexivity|]); constructor).
  assert (R : forall m, plain_name m = true -> Forall (fun f => plain_name (fst (fst f)) = true) (rate_variables x m)) by (intros m M; unfold rate_variables; repeat (constructor; [first [reflexivity|exact M]|]); constructor).
  destruct k; unfold variables; first [exact D|(apply Forall_app; split; [exact D|now apply R])|(constructor; [reflexivity|]; first [now apply R|constructor])|constructor].
Qed.
Lemma bytes_inj a b : bytes a = bytes b -> a = b.
Proof.
  unfold bytes. revert b. induction a as [|c a IH]; intros [|d b] H; try discriminate H; [reflexivity|]. cbn [list_ascii_of_string map] in H. injection H as -> H. f_equal. auto.
Qed.
(** a request that is not answered prints nothing.  Otherwise, when the names and values are as
    above, the response is a JSON object without repeated keys, of which each variable exported is
    a member; its value is what an accessor of a metric that exports it returns. *)
Theorem C64_request : forall mexp p r v b o at_ e number_g other w' e' out txt, let st := reach mexp p in
  nth_error (snd st) r = Some v -> base v = Some b -> prepared mexp st v o standard false ->
  (forall nm i, shown st v nm = Some i -> nth_error (snd st) (at_ nm) = Some i) -> locked e = false -> NoDup (map fst (pub e)) ->
  (forall f, fis_finite f = true -> is_number (number_g f) = true) -> (forall k, In (k, EOther) (pub e) -> exists j, is_json (other k) j) ->
  exp_handler number_g other v o (fst st) e = (w', (e', out), txt) ->
  (out <> Done -> txt = "") /\
  (out = Done -> (forall k x, In (k, x) (pub e) -> plain_name k = true /\ finite_var x = true) -> (forall nm, shown st v nm <> None -> plain_name nm = true) ->
    (forall nm c name t a z, exports st v at_ nm c name t -> answer mexp st o standard (at_ nm) c = Some (Ok a) -> carries a t z -> finite_var z = true) ->
    exists ms, is_json txt (JObj ms) /\ NoDup (map fst ms) /\
      forall nm c name t, exports st v at_ nm c name t -> exists nm' c' a z j, exports st v at_ nm' c' name t /\ answer mexp st o standard (at_ nm') c' = Some (Ok a) /\ carries a t z /\
        In (bytes name, j) ms /\ var_says number_g other name z j).
Proof.
  intros mexp p r v b o at_ e number_g other w' e' out txt st. assert (I : inv st) by exact (reach_inv mexp p). clearbody st. intros E B P At L ND Hn Ho H.
  destruct (sync_acts mexp st r v b o at_ I E B P At) as (l & S0 & M & A & X & _). destruct (S0 e) as (w1 & Es). unfold exp_handler in H. rewrite Es in H.
  pose proof (acts_run l e (fun name x H => proj1 (A name x H)) L) as R. pose proof (acts_nodup l e ND) as ND'. destruct (acts l e) as [e1 out1]. cbn [fst] in ND'. destruct R as (Ty & K & C). unfold vget in *. split.
  - intros N. destruct out1; injection H as <- <- <- <-; [congruence|reflexivity|reflexivity].
  - intros -> Ok0 Pn Fa. destruct out1; [|discriminate H|discriminate H]. injection H as <- <- <-.
    assert (Hother : forall k, In (k, EOther) (pub e1) -> In (k, EOther) (pub e)).
    { intros k Hk. apply (published_in _ _ _ ND') in Hk. destruct (K k) as [Kk|(x & Hx & Ex)]; [apply (published_in _ _ _ ND); congruence|]. exfalso. rewrite Ex in Hk. injection Hk as ->. exact (proj1 (A _ _ Hx)). }
    assert (All : forall k x, In (k, x) (pub e1) -> plain_name k = true /\ finite_var x = true).
    { intros k x Hk. apply (published_in _ _ _ ND') in Hk. destruct (K k) as [Kk|(y & Hy & Ey)]; [apply Ok0, (published_in _ _ _ ND); congruence|].
      rewrite Ey in Hk. injection Hk as ->. destruct (A _ _ Hy) as (_ & nm & c & a & Hex & Ha & Hc). split; [|exact (Fa _ _ _ _ _ _ Hex Ha Hc)].
      destruct Hex as (i & suffix & Si & Hv & ->). rewrite plain_app, Pn by congruence. pose proof (variables_plain (at_ nm) (cls i)) as Fv. rewrite Forall_forall in Fv. exact (Fv _ Hv). }
    destruct (C64_response number_g other e1 Hn ND' (fun k Hk => Ho k (Hother k Hk)) All) as (vs & ms & J & Pm & As & F). exists ms. split; [exact J|]. split.
    + assert (Em : map fst ms = map bytes (map fst vs)). { clear - F. induction F as [|kx m vs ms (H & _) _ IH]; [reflexivity|]. cbn [map]. now rewrite IH, H. }
      rewrite Em. apply FinFun.Injective_map_NoDup; [intros x y; apply bytes_inj|]. apply (Permutation_NoDup (Permutation_map fst (Permutation_sym Pm)) ND').
    + intros nm c name t Hex. destruct (X _ _ _ _ Hex) as (x & Hx & Tx). destruct C as [(_ & L' & NM & D & T)|[(Q & _)|(Q & _)]]; [|discriminate Q|discriminate Q]. destruct (D name x Hx) as (z & Hz & Pz).
      destruct (A name z Hz) as (_ & nm' & c' & a & H1 & H2 & H3). assert (Tz : type_of z = t) by (rewrite <- Tx; apply (T name x Hx); exact Hz). rewrite Tz in H1, H3.
      apply (published_in _ _ _ ND') in Pz. apply (Permutation_in _ (Permutation_sym Pm)) in Pz.
      assert (G : exists m, In m ms /\ fst m = bytes name /\ var_says number_g other name z (snd m)).
      { clear - F Pz. induction F as [|kx m vs ms H _ IH]; [destruct Pz|]. destruct Pz as [->|Pz]; [exists m; split; [now left|exact H]|]. destruct (IH Pz) as (m' & Hm & Q). exists m'. split; [now right|exact Q]. }
      destruct G as ([key j] & Hm & Ek & Sj). cbn [fst snd] in *. subst key. exists nm', c', a, z, j. auto.
Qed.

(** ** a response that is not JSON: a float gauge at NaN; a name with a control character *)
Definition not_a_number : list (op * orc) := map (fun c => (c, orc_at 0)) [ONew NGaugeF; OUpdateF 1 f_nan; ORegister 0 "a" 1].
Definition bell : string := String (ascii_of_nat 7) "".
Definition rung : list (op * orc) := map (fun c => (c, orc_at 0)) [ONew NCounter; ORegister 0 bell 1].
Definition some_text (k : string) : string := if String.eqb k "cmdline" then "[" ++ dq ++ "a.out" ++ dq ++ "]" else "{}".
Definition answered_with (p : list (op * orc)) : Expvar.outcome * string := let '(_, (_, out), txt) := exp_handler (fun _ => "0") some_text (VReg 0) (orc_at 0) (fst (reach one_exp p)) exp_start in (out, txt).
Lemma some_text_json k : In (k, EOther) (pub exp_start) -> exists j, is_json (some_text k) j.
Proof.
  cbn. intros [H|[H|[]]]; injection H as <-.
  - exists (JArr [JStr (bytes "a.out")]), 5%nat, "". split; reflexivity.
  - exists (JObj []), 5%nat, "". split; reflexivity.
Qed.
Lemma start_nodup : NoDup (map fst (pub exp_start)).
Proof. cbn. repeat constructor; cbn; intuition discriminate. Qed.
(** every request that is answered when [Q] holds is answered with JSON *)
Definition always_json (Q : (f64 -> f64) -> state -> val -> orc -> Prop) : Prop := forall mexp p r v b o e number_g other w' e' txt, let st := reach mexp p in Q mexp st v o ->
  nth_error (snd st) r = Some v -> base v = Some b -> locked e = false -> NoDup (map fst (pub e)) ->
  (forall f, fis_finite f = true -> is_number (number_g f) = true) -> (forall k, In (k, EOther) (pub e) -> exists j, is_json (other k) j) ->
  (forall k x, In (k, x) (pub e) -> plain_name k = true /\ finite_var x = true) ->
  exp_handler number_g other v o (fst st) e = (w', (e', Done), txt) -> exists j, is_json txt j.
Lemma start_plain k x : In (k, x) (pub exp_start) -> plain_name k = true /\ finite_var x = true.
Proof. cbn. intros [H|[H|[]]]; injection H as <- <-; split; reflexivity. Qed.
Lemma always_then Q p txt : always_json Q -> Q one_exp (reach one_exp p) (VReg 0) (orc_at 0) -> nth_error (snd (reach one_exp p)) 0 = Some (VReg 0) -> answered_with p = (Done, txt) -> exists j, is_json txt j.
Proof.
  intros H HQ E A. unfold answered_with in A. destruct (exp_handler (fun _ => "0") some_text (VReg 0) (orc_at 0) (fst (reach one_exp p)) exp_start) as [[w' [e' out]] t] eqn:X. injection A as -> ->.
  exact (H one_exp p 0%nat (VReg 0) 0%nat (orc_at 0) exp_start (fun _ => "0") some_text w' e' txt HQ E eq_refl eq_refl start_nodup (fun _ _ => eq_refl) some_text_json start_plain X).
Qed.
Lemma one_shown p nm0 i : nth_error (heap (fst (reach one_exp p))) 0 = Some (OReg [(nm0, i)]) -> forall nm, shown (reach one_exp p) (VReg 0) nm = if String.eqb nm0 nm then Some i else None.
Proof.
  intros H nm. unfold shown. cbn [base]. change (full (VReg 0) "") with "". assert (P : String.prefix "" nm = true) by (destruct nm; reflexivity). rewrite P. unfold registered. rewrite H. unfold find. cbn [fst snd]. destruct (String.eqb nm0 nm); reflexivity.
Qed.
(** plain names do not suffice, *)
Theorem C64_nan_refuted : ~ always_json (fun mexp st v o => forall nm, shown st v nm <> None -> plain_name nm = true).
Proof.
  intros H. destruct (always_then _ not_a_number ("{" ++ newline ++ dq ++ "a" ++ dq ++ ": NaN," ++ newline ++ dq ++ "cmdline" ++ dq ++ ": [" ++ dq ++ "a.out" ++ dq ++ "]," ++ newline ++ dq ++ "memstats" ++ dq ++ ": {}" ++ newline ++ "}" ++ newline) H) as (j & f & r & V & _).
  - intros nm. rewrite (one_shown not_a_number "a" (VGaugeF 2)) by (vm_compute; reflexivity). destruct (String.eqb_spec "a" nm) as [<-|_]; [reflexivity|congruence].
  - vm_compute. reflexivity.
  - vm_compute. reflexivity.
  - destruct f as [|[|[|f]]]; vm_compute in V; discriminate V.
Qed.
(** nor do finite values *)
Theorem C64_name_refuted : ~ always_json (fun mexp st v o => forall at_ nm c name t a z, exports st v at_ nm c name t -> answer mexp st o standard (at_ nm) c = Some (Ok a) -> carries a t z -> finite_var z = true).
Proof.
  intros H. destruct (always_then _ rung ("{" ++ newline ++ dq ++ "\a" ++ dq ++ ": 0," ++ newline ++ dq ++ "cmdline" ++ dq ++ ": [" ++ dq ++ "a.out" ++ dq ++ "]," ++ newline ++ dq ++ "memstats" ++ dq ++ ": {}" ++ newline ++ "}" ++ newline) H) as (j & f & r & V & _).
  - intros at_ nm c name t a z (i & suffix & Si & Hv & _) _ Hc. rewrite (one_shown rung bell (VCounter 2)) in Si by (vm_compute; reflexivity). destruct (String.eqb bell nm); [|discriminate Si]. injection Si as <-.
    destruct Hv as [Hv|[]]. injection Hv as _ _ <-. destruct a; cbn in Hc; try contradiction. now subst z.
  - vm_compute. reflexivity.
  - vm_compute. reflexivity.
  - destruct f as [|[|f]]; vm_compute in V; discriminate V.
Qed.
Example C64_example : answered_with counted = (Done, "{" ++ newline ++ dq ++ "a" ++ dq ++ ": 3," ++ newline ++ dq ++ "cmdline" ++ dq ++ ": [" ++ dq ++ "a.out" ++ dq ++ "]," ++ newline ++ dq ++ "memstats" ++ dq ++ ": {}" ++ newline ++ "}" ++ newline) /\
  is_json (snd (answered_with counted)) (JObj [(bytes "a", JNum "3"); (bytes "cmdline", JArr [JStr (bytes "a.out")]); (bytes "memstats", JObj [])]) /\
  go_quote ("a" ++ newline ++ dq ++ "\") = dq ++ "a\n\" ++ dq ++ "\\" ++ dq /\ plain_name ("a" ++ newline ++ dq ++ "\") = true /\ plain_name bell = false.
Proof.
  split; [vm_compute; reflexivity|]. split; [|split; [vm_compute; reflexivity|split; vm_compute; reflexivity]].
  replace (snd (answered_with counted)) with ("{" ++ newline ++ dq ++ "a" ++ dq ++ ": 3," ++ newline ++ dq ++ "cmdline" ++ dq ++ ": [" ++ dq ++ "a.out" ++ dq ++ "]," ++ newline ++ dq ++ "memstats" ++ dq ++ ": {}" ++ newline ++ "}" ++ newline) by (vm_compute; reflexivity).
  exists 9%nat, newline. split; vm_compute; reflexivity.
Qed.
