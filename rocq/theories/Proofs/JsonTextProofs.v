(** Proofs about the reader of JSON text: more fuel and more text after a value do not change
    the value that is read. *)
From Coq Require Import ZArith List String Ascii Bool Lia.
From Verif.Model Require Import Fmt.
From Verif.Spec Require Import TextSpec JsonText.
From Verif.Proofs Require Import TextProofs DurationProofs.
Import ListNotations.
Local Open Scope string_scope.

Lemma skip_some s c r t : skip s = String c r -> skip (s ++ t) = String c (r ++ t).
Proof. induction s as [|a s IH]; cbn [skip append]; [discriminate|]. destruct (is_space a); [exact IH|]. intros H. now injection H as <- <-. Qed.
Lemma skip_none s t : skip s = "" -> skip (s ++ t) = skip t.
Proof. induction s as [|a s IH]; cbn [skip append]; [reflexivity|]. destruct (is_space a); [exact IH|discriminate]. Qed.
Lemma cons_char_some x o l r : cons_char x o = Some (l, r) -> exists l', o = Some (l', r) /\ l = x :: l'.
Proof. destruct o as [[l' r']|]; cbn; [|discriminate]. intros H. injection H as <- <-. eauto. Qed.
Lemma str_app : forall n s l r t, (String.length s <= n)%nat -> str s = Some (l, r) -> str (s ++ t) = Some (l, r ++ t).
Proof.
  induction n as [|n IH]; intros s l r t L H; destruct s as [|c s]; try discriminate H; [cbn in L; lia|]. cbn [String.length] in L. cbn [append].
  cbn [str] in *. destruct (is quotation c); [now injection H as <- <-|]. destruct (is backslash c).
  - destruct s as [|e s1]; [discriminate H|]. cbn [append String.length] in *. destruct (is "u" e).
    + destruct s1 as [|h1 [|h2 [|h3 [|h4 s2]]]]; try discriminate H. cbn [append String.length] in *. destruct (hex h1), (hex h2), (hex h3), (hex h4); try discriminate H.
      apply cons_char_some in H. destruct H as (l' & H & ->). rewrite (IH s2 l' r t ltac:(lia) H). reflexivity.
    + destruct (escape e); [|discriminate]. apply cons_char_some in H. destruct H as (l' & H & ->). rewrite (IH s1 l' r t ltac:(lia) H). reflexivity.
  - destruct (Nat.ltb (nat_of_ascii c) 32); [discriminate|]. apply cons_char_some in H. destruct H as (l' & H & ->). rewrite (IH s l' r t ltac:(lia) H). reflexivity.
Qed.
Lemma literal_app p : forall s r t, literal p s = Some r -> literal p (s ++ t) = Some (r ++ t).
Proof. induction p as [|a p IH]; intros s r t H; cbn [literal] in H; [injection H as <-; destruct s; reflexivity|]. destruct s as [|b s]; [discriminate|]. cbn [append literal]. destruct (is a b); [now apply IH|discriminate]. Qed.
Lemma token_app s : forall t r c x, token s = (t, r) -> num_char c = false -> token (s ++ String c x) = (t, r ++ String c x).
Proof.
  induction s as [|a s IH]; intros t r c x H N; cbn [token append] in *.
  - injection H as <- <-. now rewrite N.
  - destruct (num_char a); [|now injection H as <- <-]. destruct (token s) as [t' r'] eqn:E. injection H as <- <-. now rewrite (IH t' r' c x eq_refl N).
Qed.

(** ** numbers consist of characters of numbers *)
Fixpoint numeric (s : string) : bool := match s with "" => true | String c r => num_char c && numeric r end.
Lemma num_dec c : is_dec c = true -> num_char c = true. Proof. unfold num_char. now intros ->. Qed.
Lemma is_eq a c : is a c = true -> c = a. Proof. unfold is. intros H. symmetry. now apply Ascii.eqb_eq. Qed.
Lemma numeric_skip s : numeric (skip_digits s) = true -> numeric s = true.
Proof. induction s as [|c s IH]; cbn [skip_digits]; [auto|]. destruct (is_dec c) eqn:E; [|auto]. intros H. cbn [numeric]. now rewrite (num_dec c E), IH. Qed.
Lemma numeric_some s r : some_digits s = Some r -> numeric r = true -> numeric s = true.
Proof. unfold some_digits. destruct s as [|c s]; [discriminate|]. destruct (is_dec c) eqn:E; [|discriminate]. intros H N. injection H as <-. cbn [numeric]. now rewrite (num_dec c E), numeric_skip. Qed.
Lemma numeric_opt p s : (forall c, p c = true -> num_char c = true) -> numeric (opt_char p s) = true -> numeric s = true.
Proof. intros P. unfold opt_char. destruct s as [|c s]; [auto|]. destruct (p c) eqn:E; [|auto]. intros H. cbn [numeric]. now rewrite (P c E), H. Qed.
Lemma numeric_exp s r : exp_part s = Some r -> numeric r = true -> numeric s = true.
Proof.
  unfold exp_part. destruct s as [|c s]; [now intros H; injection H as <-|]. destruct (is "e" c || is "E" c) eqn:E.
  - intros H N. cbn [numeric]. apply andb_true_intro. split; [apply orb_prop in E; destruct E as [E|E]; apply is_eq in E; subst c; reflexivity|].
    eapply numeric_opt; [|eapply numeric_some; eauto]. cbn beta. intros a Ha. apply orb_prop in Ha. destruct Ha as [Ha|Ha]; apply is_eq in Ha; subst a; reflexivity.
  - intros H. now injection H as <-.
Qed.
Lemma numeric_frac s r : frac_part s = Some r -> numeric r = true -> numeric s = true.
Proof.
  unfold frac_part. destruct s as [|c s]; [now intros H; injection H as <-|]. destruct (is "." c) eqn:E.
  - intros H N. cbn [numeric]. apply is_eq in E. subst c. rewrite (numeric_some _ _ H N). reflexivity.
  - intros H. now injection H as <-.
Qed.
Lemma numeric_int s r : int_part s = Some r -> numeric r = true -> numeric s = true /\ exists c x, s = String c x /\ (c = "-"%char \/ is_dec c = true).
Proof.
  unfold int_part, opt_char. intros H N. destruct s as [|c s]; [discriminate|].
  assert (G : forall a t, (if is "0" a then Some t else if is_dec a then Some (skip_digits t) else None) = Some r -> numeric (String a t) = true /\ is_dec a = true).
  { intros a t X. destruct (is "0" a) eqn:E0; [injection X as ->; apply is_eq in E0; subst a; cbn [numeric]; now rewrite N|]. destruct (is_dec a) eqn:Ed; [|discriminate]. injection X as <-. cbn [numeric]. now rewrite (num_dec a Ed), numeric_skip. }
  destruct (is "-" c) eqn:E.
  - destruct s as [|a t]; [discriminate|]. destruct (G a t H) as (X & _). apply is_eq in E. subst c. split; [exact X|]. exists "-"%char, (String a t). auto.
  - destruct (G c s H) as (X & Y). split; [exact X|]. exists c, s. auto.
Qed.
Lemma number_chars s : is_number s = true -> numeric s = true /\ exists c x, s = String c x /\ (c = "-"%char \/ is_dec c = true).
Proof.
  unfold is_number. destruct (int_part s) as [r|] eqn:E1; [|discriminate]. destruct (frac_part r) as [r'|] eqn:E2; [|discriminate]. destruct (exp_part r') as [[|]|] eqn:E3; try discriminate. intros _.
  apply (numeric_int s r E1). apply (numeric_frac r r' E2). now apply (numeric_exp r' "" E3).
Qed.
Lemma token_number t c x : numeric t = true -> num_char c = false -> token (t ++ String c x) = (t, String c x).
Proof. intros N C. induction t as [|a t IH]; cbn [numeric append token] in *; [now rewrite C|]. apply andb_prop in N. destruct N as [N1 N2]. rewrite N1, (IH N2). reflexivity. Qed.
Lemma first_not_letter c p s : (c = "-"%char \/ is_dec c = true) -> (exists a q, p = String a q /\ num_char a = false) -> literal p (String c s) = None.
Proof.
  intros H (a & q & -> & A). cbn [literal]. destruct (is a c) eqn:E; [|reflexivity]. apply is_eq in E. subst c. destruct H as [H|H]; [subst a; discriminate A|]. rewrite (num_dec _ H) in A. discriminate.
Qed.
Lemma atom_number t c x : is_number t = true -> num_char c = false -> atom (t ++ String c x) = Some (JNum t, String c x).
Proof.
  intros H C. destruct (number_chars t H) as (N & a & s & E & Ha). unfold atom.
  assert (L : forall p, (exists b q, p = String b q /\ num_char b = false) -> literal p (t ++ String c x) = None) by (intros p Hp; rewrite E; cbn [append]; now apply first_not_letter).
  rewrite (L "null"), (L "true"), (L "false") by (do 2 eexists; split; [reflexivity|reflexivity]). rewrite (token_number t c x N C), H. reflexivity.
Qed.
Lemma atom_app s v r c x : atom s = Some (v, r) -> num_char c = false -> atom (s ++ String c x) = Some (v, r ++ String c x).
Proof.
  intros H C. unfold atom in *. destruct (literal "null" s) as [r0|] eqn:E1; [injection H as <- <-; now rewrite (literal_app _ _ _ _ E1)|].
  destruct s as [|a s]; [discriminate H|].
  destruct (literal "true" (String a s)) as [r1|] eqn:E2.
  { injection H as <- <-. rewrite (literal_app _ _ _ _ E2). cbn [literal append] in *. destruct (is "t" a) eqn:Ea; [|discriminate]. apply is_eq in Ea. subst a. reflexivity. }
  destruct (literal "false" (String a s)) as [r2|] eqn:E3.
  { injection H as <- <-. rewrite (literal_app _ _ _ _ E3). cbn [literal append] in *. destruct (is "f" a) eqn:Ea; [|discriminate]. apply is_eq in Ea. subst a. reflexivity. }
  destruct (token (String a s)) as [t r'] eqn:Et. destruct (is_number t) eqn:En; [|discriminate]. injection H as <- <-.
  rewrite (token_app _ _ _ _ x Et C), En. destruct (number_chars t En) as (_ & b & y & -> & Hb).
  assert (b = a). { cbn [token] in Et. destruct (num_char a); [|discriminate]. destruct (token s). now injection Et as -> _ _. } subst b. cbn [append].
  assert (L : forall p, (exists b q, p = String b q /\ num_char b = false) -> literal p (String a (s ++ String c x)) = None) by (intros p Hp; now apply first_not_letter).
  rewrite (L "null"), (L "true"), (L "false") by (do 2 eexists; split; [reflexivity|reflexivity]). reflexivity.
Qed.

(** ** more text *)
Definition more_text (f : nat) : Prop :=
  (forall s v r c x, value f s = Some (v, r) -> num_char c = false -> value f (s ++ String c x) = Some (v, r ++ String c x)) /\
  (forall s v r c x, members f s = Some (v, r) -> num_char c = false -> members f (s ++ String c x) = Some (v, r ++ String c x)) /\
  (forall s v r c x, elements f s = Some (v, r) -> num_char c = false -> elements f (s ++ String c x) = Some (v, r ++ String c x)).
Lemma more_text_all f : more_text f.
Proof.
  induction f as [|f (IV & IM & IE)]; [repeat split; intros; discriminate|]. split; [|split]; intros s v r c x H C.
  - cbn [value] in *. destruct (skip s) as [|a t] eqn:E; [discriminate|]. rewrite (skip_some s a t _ E). destruct (is "{" a).
    { destruct (skip t) as [|d r1] eqn:E1; [discriminate|]. rewrite (skip_some t d r1 _ E1). destruct (is "}" d); [now injection H as <- <-|]. destruct (members f t) as [[ms r2]|] eqn:Em; [|discriminate]. rewrite (IM _ _ _ _ x Em C). now injection H as <- <-. }
    destruct (is "[" a).
    { destruct (skip t) as [|d r1] eqn:E1; [discriminate|]. rewrite (skip_some t d r1 _ E1). destruct (is "]" d); [now injection H as <- <-|]. destruct (elements f t) as [[ms r2]|] eqn:Em; [|discriminate]. rewrite (IE _ _ _ _ x Em C). now injection H as <- <-. }
    destruct (is quotation a).
    { destruct (str t) as [[l r1]|] eqn:Es; [|discriminate]. rewrite (str_app _ _ _ _ _ (le_n _) Es). now injection H as <- <-. }
    exact (atom_app (String a t) v r c x H C).
  - cbn [members] in *. destruct (skip s) as [|a t] eqn:E; [discriminate|]. rewrite (skip_some s a t _ E). destruct (is quotation a); [|discriminate].
    destruct (str t) as [[k r1]|] eqn:Es; [|discriminate]. rewrite (str_app _ _ _ _ _ (le_n _) Es). destruct (skip r1) as [|d r2] eqn:E1; [discriminate|]. rewrite (skip_some r1 d r2 _ E1). destruct (is ":" d); [|discriminate].
    destruct (value f r2) as [[w r3]|] eqn:Ev; [|discriminate]. rewrite (IV _ _ _ _ x Ev C). destruct (skip r3) as [|e r4] eqn:E3; [discriminate|]. rewrite (skip_some r3 e r4 _ E3).
    destruct (is "," e). { destruct (members f r4) as [[ms r5]|] eqn:Em; [|discriminate]. rewrite (IM _ _ _ _ x Em C). now injection H as <- <-. }
    destruct (is "}" e); [|discriminate]. now injection H as <- <-.
  - cbn [elements] in *. destruct (value f s) as [[w r3]|] eqn:Ev; [|discriminate]. rewrite (IV _ _ _ _ x Ev C). destruct (skip r3) as [|e r4] eqn:E3; [discriminate|]. rewrite (skip_some r3 e r4 _ E3).
    destruct (is "," e). { destruct (elements f r4) as [[ms r5]|] eqn:Em; [|discriminate]. rewrite (IE _ _ _ _ x Em C). now injection H as <- <-. }
    destruct (is "]" e); [|discriminate]. now injection H as <- <-.
Qed.

(** ** more fuel *)
Lemma more_fuel f : forall f', (f <= f')%nat ->
  (forall s x, value f s = Some x -> value f' s = Some x) /\ (forall s x, members f s = Some x -> members f' s = Some x) /\ (forall s x, elements f s = Some x -> elements f' s = Some x).
Proof.
  induction f as [|f IH]; intros f' L; [repeat split; intros; discriminate|]. destruct f' as [|f']; [lia|]. destruct (IH f' ltac:(lia)) as (IV & IM & IE). split; [|split]; intros s x H.
  - cbn [value] in *. destruct (skip s) as [|a t]; [discriminate|]. destruct (is "{" a).
    { destruct (skip t) as [|d r1]; [discriminate|]. destruct (is "}" d); [exact H|]. destruct (members f t) as [[ms r2]|] eqn:Em; [|discriminate]. now rewrite (IM _ _ Em). }
    destruct (is "[" a).
    { destruct (skip t) as [|d r1]; [discriminate|]. destruct (is "]" d); [exact H|]. destruct (elements f t) as [[ms r2]|] eqn:Em; [|discriminate]. now rewrite (IE _ _ Em). }
    exact H.
  - cbn [members] in *. destruct (skip s) as [|a t]; [discriminate|]. destruct (is quotation a); [|discriminate].
    destruct (str t) as [[k r1]|]; [|discriminate]. destruct (skip r1) as [|d r2]; [discriminate|]. destruct (is ":" d); [|discriminate].
    destruct (value f r2) as [[w r3]|] eqn:Ev; [|discriminate]. rewrite (IV _ _ Ev). destruct (skip r3) as [|e r4]; [discriminate|].
    destruct (is "," e); [|exact H]. destruct (members f r4) as [[ms r5]|] eqn:Em; [|discriminate]. now rewrite (IM _ _ Em).
  - cbn [elements] in *. destruct (value f s) as [[w r3]|] eqn:Ev; [|discriminate]. rewrite (IV _ _ Ev). destruct (skip r3) as [|e r4]; [discriminate|].
    destruct (is "," e); [|exact H]. destruct (elements f r4) as [[ms r5]|] eqn:Em; [|discriminate]. now rewrite (IE _ _ Em).
Qed.
Lemma value_unique f f' s a b : value f s = Some a -> value f' s = Some b -> a = b.
Proof.
  intros H H'. destruct (Nat.le_ge_cases f f') as [L|L].
  - apply (proj1 (more_fuel f f' L)) in H. congruence.
  - apply (proj1 (more_fuel f' f L)) in H'. congruence.
Qed.
(** a text has one meaning *)
Lemma is_json_unique s a b : is_json s a -> is_json s b -> a = b.
Proof. intros (f & r & H & _) (f' & r' & H' & _). pose proof (value_unique _ _ _ _ _ H H') as X. congruence. Qed.
(** a JSON text followed by something else *)
Lemma value_then s j : is_json s j -> exists f0 w, skip w = "" /\ forall c x, num_char c = false ->
  (forall f, (f0 <= f)%nat -> value f (s ++ String c x) = Some (j, w ++ String c x)) /\
  (forall f y, value f (s ++ String c x) = Some y -> y = (j, w ++ String c x)).
Proof.
  intros (f & r & H & Sk). exists f, r. split; [exact Sk|]. intros c x C. pose proof (proj1 (more_text_all f) _ _ _ _ x H C) as V. split.
  - intros f' L. exact (proj1 (more_fuel f f' L) _ _ V).
  - intros f' y V'. exact (value_unique _ _ _ _ _ V' V).
Qed.
Lemma value_space f c s : is_space c = true -> value f (String c s) = value f s.
Proof. intros H. destruct f as [|f]; [reflexivity|]. cbn [value skip]. now rewrite H. Qed.

(** ** the numbers of fmt *)
Lemma is_dec_value c d : digit_value c = Some d -> is_dec c = true.
Proof.
  unfold digit_value, is_dec, between. destruct ((48 <=? Z.of_nat (nat_of_ascii c))%Z && (Z.of_nat (nat_of_ascii c) <=? 57)%Z) eqn:E; [|discriminate]. intros _.
  apply andb_prop in E. destruct E as [E1 E2]. apply Z.leb_le in E1, E2. apply andb_true_intro. split; apply Nat.leb_le; lia.
Qed.
Lemma skip_decimal t : forall acc z, decimal acc t = Some z -> skip_digits t = "".
Proof. induction t as [|c t IH]; intros acc z H; cbn [decimal skip_digits] in *; [reflexivity|]. destruct (digit_value c) as [d|] eqn:E; [|discriminate]. rewrite (is_dec_value c d E). eapply IH; eauto. Qed.
Lemma digits_int z : (0 <= z)%Z -> exists c r, digits z = String c r /\ is "-" c = false /\ (if is "0" c then Some r else if is_dec c then Some (skip_digits r) else None) = Some "".
Proof.
  intros H. destruct (Z.eq_dec z 0) as [->|N]; [exists "0"%char, ""; repeat split; reflexivity|].
  destruct (leads_digits z ltac:(lia)) as (c & r & v & E & D & V). exists c, r. split; [exact E|]. split.
  - destruct (is "-" c) eqn:X; [|reflexivity]. apply is_eq in X. subst c. discriminate D.
  - destruct (is "0" c) eqn:X; [apply is_eq in X; subst c; injection D as <-; congruence|]. rewrite (is_dec_value c v D). f_equal.
    pose proof (decimal_digits z H) as Dz. rewrite E in Dz. cbn [decimal] in Dz. rewrite D in Dz. exact (skip_decimal r _ _ Dz).
Qed.
Lemma fmt_d_number n : is_number (fmt_d n) = true.
Proof.
  unfold is_number, int_part, fmt_d. destruct (Z.ltb_spec n 0).
  - destruct (digits_int (- n) ltac:(lia)) as (c & r & -> & _ & E). cbn [append opt_char]. replace (is "-" "-") with true by reflexivity. rewrite E. reflexivity.
  - destruct (digits_int n ltac:(lia)) as (c & r & -> & N & E). cbn [opt_char]. rewrite N, E. reflexivity.
Qed.
Lemma number_json t : is_number t = true -> is_json t (JNum t).
Proof.
  intros H. destruct (number_chars t H) as (N & c & x & -> & Hc). exists 1%nat, "". split; [|reflexivity].
  assert (Sp : is_space c = false /\ is "{" c = false /\ is "[" c = false /\ is quotation c = false /\ is "n" c = false /\ is "t" c = false /\ is "f" c = false).
  { destruct Hc as [->|Hc]; [repeat split; reflexivity|]. clear - Hc. destruct c as [[|] [|] [|] [|] [|] [|] [|] [|]]; first [discriminate Hc|repeat split; reflexivity]. }
  destruct Sp as (S1 & S2 & S3 & S4 & S5 & S6 & S7). cbn [value skip]. rewrite S1, S2, S3, S4. unfold atom. cbn [literal]. rewrite S5, S6, S7.
  assert (T : forall s, numeric s = true -> token s = (s, "")). { induction s as [|a s IH]; cbn [numeric token]; [reflexivity|]. intros X. apply andb_prop in X. destruct X as [X1 X2]. now rewrite X1, (IH X2). }
  rewrite (T _ N), H. reflexivity.
Qed.
