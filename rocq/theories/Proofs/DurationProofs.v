(** Proofs about Duration.String: the text reads back as the duration. *)
From Coq Require Import ZArith QArith List String Ascii Bool Lia Lqa.
From Verif.Model Require Import GoInt GoFloat Fmt Duration.
From Verif.Spec Require Import TextSpec DurationSpec.
From Verif.Proofs Require Import TextProofs LineProofs.
Import ListNotations.
Local Open Scope string_scope.
Local Open Scope Z_scope.

(** ** reading *)
(** nothing, or a digit *)
Definition starts (s : string) : Prop := s = "" \/ exists c d r, s = String c r /\ digit_value c = Some d.
Definition stops (s : string) : Prop := match s with "" => True | String c _ => digit_value c = None end.
Lemma starts_digits z r : 0 <= z -> starts (digits z ++ r).
Proof.
  intros H. pose proof (decimal_digits z H) as D. pose proof (digits_nonempty z) as N. destruct (digits z) as [|c t]; [congruence|]. cbn [decimal] in D.
  destruct (digit_value c) as [d|] eqn:E; [|discriminate]. right. exists c, d, (t ++ r). auto.
Qed.
Lemma span_spec t r : stops r -> forall acc n z, decimal acc t = Some z -> span_digits acc n (t ++ r) = (z, (n + String.length t)%nat, r).
Proof.
  intros Sr. induction t as [|c t IH]; intros acc n z D; cbn [decimal append] in *.
  - injection D as <-. rewrite Nat.add_0_r. destruct r as [|c r]; [reflexivity|]. cbn [span_digits]. cbn in Sr. now rewrite Sr.
  - cbn [span_digits]. destruct (digit_value c) as [d|]; [|discriminate]. rewrite (IH _ _ _ D). cbn [String.length]. now rewrite Nat.add_succ_r.
Qed.
Lemma decimal_shift t : forall acc z, decimal 0 t = Some z -> decimal acc t = Some (acc * 10 ^ Z.of_nat (String.length t) + z).
Proof.
  assert (G : forall acc acc' z, decimal acc t = Some z -> decimal acc' t = Some ((acc' - acc) * 10 ^ Z.of_nat (String.length t) + z)).
  { induction t as [|c t IH]; intros acc acc' z D; cbn [decimal String.length] in *.
    - injection D as <-. f_equal. cbn. lia.
    - destruct (digit_value c) as [d|]; [|discriminate]. rewrite (IH _ (10 * acc' + d) _ D). f_equal. rewrite Nat2Z.inj_succ, Z.pow_succ_r by lia. ring. }
  intros acc z D. rewrite (G 0 acc z D). f_equal. ring.
Qed.
Lemma read_unit_spec un k rest : In (un, k) unit_names -> starts rest -> read_unit unit_names (un ++ rest) = Some (k, rest) /\ stops (un ++ rest) /\ (forall c r, un ++ rest = String c r -> Ascii.eqb c "."%char = false).
Proof.
  intros H S0. cbn [unit_names In] in H.
  repeat destruct H as [H|H]; try contradiction; injection H as <- <-; cbn [append stops]; (split; [|split; [reflexivity|intros c r X; injection X as <- _; reflexivity]]); try reflexivity.
  destruct S0 as [->|(c & d & r & -> & D)]; [reflexivity|].
  change (match (if Ascii.eqb "s" c then Some r else None) with Some x => Some (10 ^ 6, x) | None => Some (60 * 10 ^ 9, String c r) end = Some (60 * 10 ^ 9, String c r)).
  destruct (Ascii.eqb_spec "s" c) as [<-|_]; [discriminate D|reflexivity].
Qed.
(** digits after a point, or neither *)
Definition fraction (f : string) (j : nat) (y : Z) : Prop := (f = "" /\ j = O /\ y = 0) \/ exists t, f = "." ++ t /\ decimal 0 t = Some y /\ String.length t = j.
Lemma component_spec t a f j y un k rest : t <> "" -> decimal 0 t = Some a -> fraction f j y -> In (un, k) unit_names -> starts rest ->
  read_component (t ++ f ++ un ++ rest) = Some ((inject_Z ((a * 10 ^ Z.of_nat j + y) * k) / inject_Z (10 ^ Z.of_nat j))%Q, rest).
Proof.
  intros N D F Hu S0. destruct (read_unit_spec un k rest Hu S0) as (Ru & Su & Pu). unfold read_component.
  assert (L : forall n, Nat.eqb (0 + String.length t) 0 = false \/ n = 0%nat). { intros n. left. destruct t; [congruence|reflexivity]. }
  destruct F as [(-> & -> & ->)|(ft & -> & Df & <-)].
  - cbn [append]. rewrite (span_spec t (un ++ rest) Su 0 0 a D). destruct (L 1%nat) as [->|X]; [|discriminate X].
    replace (read_fraction a (un ++ rest)) with (a, O, un ++ rest). { rewrite Ru. f_equal. f_equal. f_equal. cbn [Z.of_nat]. f_equal. ring. }
    unfold read_fraction. destruct (un ++ rest) as [|c r]; [reflexivity|]. now rewrite (Pu c r eq_refl).
  - change (("." ++ ft) ++ un ++ rest) with (String "."%char (ft ++ un ++ rest)). rewrite (span_spec t (String "."%char (ft ++ un ++ rest)) eq_refl 0 0 a D).
    destruct (L 1%nat) as [->|X]; [|discriminate X]. cbn [read_fraction Ascii.eqb Bool.eqb].
    replace (Ascii.eqb "." ".") with true by reflexivity. rewrite (span_spec ft (un ++ rest) Su a 0 _ (decimal_shift ft a y Df)), Ru. reflexivity.
Qed.
Lemma components_more f : forall f' s q, read_components f s = Some q -> (f <= f')%nat -> read_components f' s = Some q.
Proof.
  induction f as [|f IH]; intros f' s q H L.
  - destruct s; [|discriminate H]. destruct f'; exact H.
  - destruct f' as [|f']; [lia|]. destruct s as [|c s]; [exact H|]. cbn [read_components] in *. destruct (read_component (String c s)) as [[x rest]|]; [|discriminate].
    destruct (read_components f rest) as [y|] eqn:E; [|discriminate]. rewrite (IH f' rest y E) by lia. exact H.
Qed.
Definition reads (s : string) (q : Q) : Prop := exists x, read_components (String.length s) s = Some x /\ (q == x)%Q.
Lemma reads_nil : reads "" 0. Proof. exists 0%Q. split; reflexivity. Qed.
Lemma reads_ext s q q' : (q == q')%Q -> reads s q -> reads s q'.
Proof. intros E (x & H & X). exists x. split; [exact H|]. now rewrite <- E. Qed.
Lemma reads_component t a f j y un k rest q : t <> "" -> decimal 0 t = Some a -> fraction f j y -> In (un, k) unit_names -> starts rest -> reads rest q ->
  reads (t ++ f ++ un ++ rest) (inject_Z ((a * 10 ^ Z.of_nat j + y) * k) / inject_Z (10 ^ Z.of_nat j) + q)%Q.
Proof.
  intros N D F Hu S0 (x & H & E). pose proof (component_spec t a f j y un k rest N D F Hu S0) as C.
  destruct t as [|c t]; [congruence|]. cbn [append] in *. unfold reads. cbn [String.length read_components]. rewrite C.
  rewrite (components_more (String.length rest) _ rest x H). 2:{ rewrite !length_app. lia. }
  cbn [option_map]. eexists. split; [reflexivity|]. now rewrite E.
Qed.

(** ** printing *)
Lemma digit_cons d acc : digit d ++ acc = String (ascii_of_nat (48 + Z.to_nat d)) acc. Proof. reflexivity. Qed.
Lemma frac_true prec : forall v acc A, 0 <= v -> decimal 0 acc = Some A ->
  exists t, frac_loop prec v true acc = ("." ++ t, v / 10 ^ Z.of_nat prec) /\ String.length t = (prec + String.length acc)%nat /\
    decimal 0 t = Some ((v mod 10 ^ Z.of_nat prec) * 10 ^ Z.of_nat (String.length acc) + A).
Proof.
  induction prec as [|k IH]; intros v acc A V D; cbn [frac_loop].
  - exists acc. cbn [Z.of_nat]. rewrite Z.pow_0_r, Z.div_1_r, Z.mod_1_r. split; [reflexivity|]. split; [reflexivity|]. rewrite D. f_equal.
  - cbn [orb]. assert (M : 0 <= v mod 10 < 10) by (apply Z.mod_pos_bound; lia).
    assert (D' : decimal 0 (digit (v mod 10) ++ acc) = Some ((v mod 10) * 10 ^ Z.of_nat (String.length acc) + A)).
    { rewrite decimal_app, (decimal_digit 0 (v mod 10) M). rewrite Z.mul_0_r, Z.add_0_l. now apply decimal_shift. }
    destruct (IH (v / 10) _ _ ltac:(apply Z.div_pos; lia) D') as (t & -> & L & Dt). exists t.
    rewrite Nat2Z.inj_succ, Z.pow_succ_r by lia. split; [|split].
    + now rewrite Z.div_div by (try apply Z.pow_pos_nonneg; lia).
    + rewrite L. cbn [String.length append digit]. lia.
    + rewrite Dt. f_equal. cbn [append digit String.length]. rewrite Nat2Z.inj_succ, Z.pow_succ_r by lia.
      rewrite Z.rem_mul_r by (try apply Z.pow_pos_nonneg; lia). ring.
Qed.
Lemma frac_false prec : forall v, 0 <= v -> exists f j y, frac_loop prec v false "" = (f, v / 10 ^ Z.of_nat prec) /\ fraction f j y /\ (j <= prec)%nat /\
  y * 10 ^ Z.of_nat (prec - j) = v mod 10 ^ Z.of_nat prec /\ (f = "" <-> v mod 10 ^ Z.of_nat prec = 0).
Proof.
  induction prec as [|k IH]; intros v V; cbn [frac_loop].
  - exists "", O, 0. cbn [Z.of_nat]. rewrite Z.pow_0_r, Z.div_1_r, Z.mod_1_r. split; [reflexivity|]. split; [left; auto|]. split; [lia|]. split; [reflexivity|tauto].
  - cbn [orb]. assert (M : 0 <= v mod 10 < 10) by (apply Z.mod_pos_bound; lia). assert (T : 0 < 10 ^ Z.of_nat k) by (apply Z.pow_pos_nonneg; lia).
    assert (E : v mod 10 ^ Z.of_nat (S k) = v mod 10 + 10 * ((v / 10) mod 10 ^ Z.of_nat k)). { rewrite Nat2Z.inj_succ, Z.pow_succ_r by lia. apply Z.rem_mul_r; lia. }
    assert (M2 : 0 <= (v / 10) mod 10 ^ Z.of_nat k) by (apply Z.mod_pos_bound; lia).
    assert (E2 : v / 10 ^ Z.of_nat (S k) = v / 10 / 10 ^ Z.of_nat k). { rewrite Nat2Z.inj_succ, Z.pow_succ_r by lia. rewrite Z.div_div by lia. reflexivity. }
    destruct (Z.eqb_spec (v mod 10) 0) as [Z0|N0]; cbn [negb].
    + destruct (IH (v / 10) ltac:(apply Z.div_pos; lia)) as (f & j & y & -> & F & L & Y & X). exists f, j, y. rewrite E2, E, Z0. split; [reflexivity|]. split; [exact F|]. split; [lia|]. split.
      * replace (S k - j)%nat with (S (k - j)) by lia. rewrite Nat2Z.inj_succ, Z.pow_succ_r by lia. rewrite <- Y. ring.
      * rewrite X. lia.
    + assert (D' : decimal 0 (digit (v mod 10) ++ "") = Some (v mod 10)). { rewrite app_nil_r', (decimal_digit 0 (v mod 10) M). f_equal. }
      destruct (frac_true k (v / 10) _ _ ltac:(apply Z.div_pos; lia) D') as (t & -> & Lt & Dt). exists ("." ++ t), (S k), (v mod 10 ^ Z.of_nat (S k)). rewrite E2. split; [reflexivity|]. split.
      * right. exists t. split; [reflexivity|]. split; [|rewrite Lt; cbn; lia]. rewrite Dt, E. f_equal. cbn [append digit String.length]. change (10 ^ Z.of_nat 1) with 10. ring.
      * split; [lia|]. split; [rewrite Nat.sub_diag; cbn [Z.of_nat]; rewrite Z.pow_0_r; ring|]. split; [discriminate|]. rewrite E. lia.
Qed.
Lemma inject_pos z : 0 < z -> ~ (inject_Z z == 0)%Q.
Proof. intros H C. unfold Qeq in C. cbn in C. lia. Qed.
Lemma whole a k : (inject_Z ((a * 10 ^ Z.of_nat 0 + 0) * k) / inject_Z (10 ^ Z.of_nat 0) == inject_Z (a * k))%Q.
Proof. cbn [Z.of_nat]. rewrite Z.pow_0_r, Z.mul_1_r, Z.add_0_r. field. Qed.
(** the quotient a component stands for *)
Lemma quotient v prec j y k : 0 <= v -> (j <= prec)%nat -> y * 10 ^ Z.of_nat (prec - j) = v mod 10 ^ Z.of_nat prec -> k = 10 ^ Z.of_nat prec ->
  (inject_Z ((v / 10 ^ Z.of_nat prec * 10 ^ Z.of_nat j + y) * k) / inject_Z (10 ^ Z.of_nat j) == inject_Z v)%Q.
Proof.
  intros V L Y ->. assert (Tj : 0 < 10 ^ Z.of_nat j) by (apply Z.pow_pos_nonneg; lia). assert (T : 0 < 10 ^ Z.of_nat prec) by (apply Z.pow_pos_nonneg; lia).
  assert (X : (v / 10 ^ Z.of_nat prec * 10 ^ Z.of_nat j + y) * 10 ^ Z.of_nat prec = v * 10 ^ Z.of_nat j).
  { assert (E : 10 ^ Z.of_nat prec = 10 ^ Z.of_nat j * 10 ^ Z.of_nat (prec - j)) by (rewrite <- Z.pow_add_r by lia; f_equal; lia).
    pose proof (Z.div_mod v (10 ^ Z.of_nat prec) ltac:(lia)) as Dv. rewrite <- Y in Dv.
    transitivity (10 ^ Z.of_nat j * (10 ^ Z.of_nat prec * (v / 10 ^ Z.of_nat prec) + y * 10 ^ Z.of_nat (prec - j))); [|rewrite <- Dv; ring].
    generalize (v / 10 ^ Z.of_nat prec). intros q. rewrite E. ring. }
  rewrite X, inject_Z_mult. field. apply inject_pos. exact Tj.
Qed.
(** the parts of the text of a positive duration: the first number [a], perhaps a fraction,
    its unit [k], and the rest, which is [q] nanoseconds *)
Lemma duration_parts u : 0 < u -> exists a f j y un k rest q, duration_abs u = digits a ++ f ++ un ++ rest /\ 0 < a /\ fraction f j y /\ In (un, k) unit_names /\ starts rest /\ reads rest q /\
  (inject_Z ((a * 10 ^ Z.of_nat j + y) * k) / inject_Z (10 ^ Z.of_nat j) + q == inject_Z u)%Q.
Proof.
  intros U. unfold duration_abs, fmt_frac. destruct (Z.ltb_spec u (10 ^ 9)) as [L9|L9].
  - destruct (Z.eqb_spec u 0) as [Z0|_]; [lia|].
    assert (G : forall prec un, In (un, 10 ^ Z.of_nat prec) unit_names -> 10 ^ Z.of_nat prec <= u ->
      exists a f j y un' k rest q, (let '(s, u') := let '(s, v') := frac_loop prec u false "" in (s ++ un, v') in digits u' ++ s) = digits a ++ f ++ un' ++ rest /\ 0 < a /\ fraction f j y /\ In (un', k) unit_names /\ starts rest /\ reads rest q /\
      (inject_Z ((a * 10 ^ Z.of_nat j + y) * k) / inject_Z (10 ^ Z.of_nat j) + q == inject_Z u)%Q).
    { intros prec un Hu Lu. destruct (frac_false prec u ltac:(lia)) as (f & j & y & -> & F & L & Y & _).
      exists (u / 10 ^ Z.of_nat prec), f, j, y, un, (10 ^ Z.of_nat prec), "", 0%Q. rewrite app_nil_r'. split; [reflexivity|].
      split; [apply Z.div_str_pos; split; [apply Z.pow_pos_nonneg; lia|exact Lu]|]. split; [exact F|]. split; [exact Hu|]. split; [now left|]. split; [exact reads_nil|].
      rewrite (quotient u prec j y _ ltac:(lia) L Y eq_refl). ring. }
    destruct (Z.ltb_spec u (10 ^ 3)) as [L3|L3]; [apply (G 0%nat "ns"); [now left|cbn; lia]|].
    destruct (Z.ltb_spec u (10 ^ 6)) as [L6|L6]; [apply (G 3%nat (micro ++ "s")); [right; now left|exact L3]|].
    apply (G 6%nat "ms"); [right; right; now left|exact L6].
  - destruct (frac_false 9 u ltac:(lia)) as (f & j & y & -> & F & L & Y & _). change (Z.of_nat 9) with 9 in *. set (s := u / 10 ^ 9).
    assert (Sp : 0 < s) by (apply Z.div_str_pos; lia). assert (Q9 := quotient u 9 j y (10 ^ 9) ltac:(lia) L Y eq_refl). change (Z.of_nat 9) with 9 in Q9. fold s in Q9.
    assert (Tj : ~ (inject_Z (10 ^ Z.of_nat j) == 0)%Q). { apply inject_pos, Z.pow_pos_nonneg; lia. }
    assert (Hs : In ("s", 10 ^ 9) unit_names) by (do 3 right; now left). assert (Hm : In ("m", 60 * 10 ^ 9) unit_names) by (do 4 right; now left). assert (Hh : In ("h", 3600 * 10 ^ 9) unit_names) by (do 5 right; now left).
    rewrite Z.gtb_ltb. destruct (Z.ltb_spec 0 (s / 60)) as [M|M].
    + assert (B : 0 <= s mod 60) by (apply Z.mod_pos_bound; lia). assert (Dm := Z.div_mod s 60 ltac:(lia)).
      assert (Rs : reads (digits (s mod 60) ++ f ++ "s") (inject_Z ((s mod 60 * 10 ^ Z.of_nat j + y) * 10 ^ 9) / inject_Z (10 ^ Z.of_nat j) + 0)%Q).
      { rewrite <- (app_nil_r' "s"). apply reads_component; auto using digits_nonempty, decimal_digits, reads_nil. now left. }
      assert (St : starts (digits (s mod 60) ++ f ++ "s")).
      { now apply starts_digits. }
      assert (Al : (inject_Z (60 * (s / 60) * 10 ^ 9) + (inject_Z ((s mod 60 * 10 ^ Z.of_nat j + y) * 10 ^ 9) / inject_Z (10 ^ Z.of_nat j) + 0) == inject_Z u)%Q).
      { rewrite <- Q9. revert Dm. generalize (s / 60), (s mod 60), (10 ^ 9). clear - Tj. intros a b k ->. rewrite !inject_Z_mult, !inject_Z_plus, !inject_Z_mult, !inject_Z_plus, !inject_Z_mult. field. exact Tj. }
      rewrite Z.gtb_ltb. destruct (Z.ltb_spec 0 (s / 60 / 60)) as [H|H].
      * assert (Bm : 0 <= s / 60 mod 60) by (apply Z.mod_pos_bound; lia). assert (Dh := Z.div_mod (s / 60) 60 ltac:(lia)).
        exists (s / 60 / 60), "", O, 0, "h", (3600 * 10 ^ 9), (digits (s / 60 mod 60) ++ "" ++ "m" ++ digits (s mod 60) ++ f ++ "s"). eexists.
        split; [reflexivity|]. split; [exact H|]. split; [left; auto|]. split; [exact Hh|]. split; [|split].
        -- now apply starts_digits.
        -- apply (reads_component _ (s / 60 mod 60) "" 0 0 "m" (60 * 10 ^ 9)); auto using digits_nonempty, decimal_digits; [left; auto|exact Rs].
        -- rewrite !whole, Qplus_assoc, <- inject_Z_plus, <- Al. apply Qplus_comp; [|reflexivity]. apply inject_Z_injective. lia.
      * exists (s / 60), "", O, 0, "m", (60 * 10 ^ 9), (digits (s mod 60) ++ f ++ "s"). eexists. replace (s / 60 mod 60) with (s / 60) by (symmetry; apply Z.mod_small; pose proof (Z.div_small_iff (s / 60) 60 ltac:(lia)); pose proof (Z.div_pos (s / 60) 60); lia).
        split; [reflexivity|]. split; [exact M|]. split; [left; auto|]. split; [exact Hm|]. split; [exact St|]. split; [exact Rs|].
        rewrite whole, <- Al. apply Qplus_comp; [|reflexivity]. apply inject_Z_injective. lia.
    + exists s, f, j, y, "s", (10 ^ 9), "", 0%Q. rewrite app_nil_r'. replace (s mod 60) with s by (symmetry; apply Z.mod_small; pose proof (Z.div_small_iff s 60 ltac:(lia)); pose proof (Z.div_pos s 60); lia).
      split; [reflexivity|]. split; [exact Sp|]. split; [exact F|]. split; [exact Hs|]. split; [now left|]. split; [exact reads_nil|]. rewrite Q9. ring.
Qed.
Lemma abs_reads u : 0 < u -> reads (duration_abs u) (inject_Z u) /\ starts (duration_abs u) /\ duration_abs u <> "".
Proof.
  intros U. destruct (duration_parts u U) as (a & f & j & y & un & k & rest & q & -> & A & F & Hu & S0 & R & E). split; [|split].
  - apply (reads_ext _ _ _ E). apply reads_component; auto using digits_nonempty. apply decimal_digits. lia.
  - apply starts_digits. lia.
  - pose proof (digits_nonempty a). destruct (digits a); [congruence|discriminate].
Qed.
Lemma reads_duration s q : starts s -> s <> "" -> reads s q -> is_duration s q.
Proof.
  intros S0 N (x & H & E). destruct s as [|c s]; [congruence|]. destruct S0 as [X|(c' & d & r & X & D)]; [discriminate X|]. injection X as <- <-.
  assert (G : is_duration (String c s) q = exists y, read_abs (String c s) = Some y /\ (q == y)%Q).
  { unfold is_duration. destruct c as [[|] [|] [|] [|] [|] [|] [|] [|]]; try reflexivity. discriminate D. }
  rewrite G. exists x. split; [exact H|exact E].
Qed.
Lemma is_duration_ext s q q' : (q == q')%Q -> is_duration s q -> is_duration s q'.
Proof.
  intros E. assert (G : forall r, (exists x, read_abs r = Some x /\ (q == x)%Q) -> exists x, read_abs r = Some x /\ (q' == x)%Q) by (intros r (x & H & X); exists x; split; [exact H|now rewrite <- E]).
  unfold is_duration. destruct s as [|[[|] [|] [|] [|] [|] [|] [|] [|]] s]; try apply G. intros (x & H & X). exists x. split; [exact H|now rewrite <- E].
Qed.
Lemma duration_reads d : is_duration (duration_string d) (inject_Z d).
Proof.
  unfold duration_string. destruct (Z.ltb_spec d 0) as [L|L].
  - destruct (abs_reads (- d) ltac:(lia)) as ((x & H & E) & _ & N). cbn [append is_duration]. exists x. split.
    + unfold read_abs. destruct (duration_abs (- d)); [congruence|exact H].
    + rewrite <- E, <- inject_Z_opp, Z.opp_involutive. reflexivity.
  - destruct (Z.eq_dec d 0) as [->|N]; [exists (inject_Z 0 / inject_Z 1 + 0)%Q; split; reflexivity|].
    destruct (abs_reads d ltac:(lia)) as (R & S0 & Ne). now apply reads_duration.
Qed.

(** ** a number before a unit *)
Lemma decimal_bound t : forall acc z, 0 <= acc -> decimal acc t = Some z -> acc * 10 ^ Z.of_nat (String.length t) <= z < (acc + 1) * 10 ^ Z.of_nat (String.length t).
Proof.
  induction t as [|c t IH]; intros acc z A D; cbn [decimal String.length] in *.
  - injection D as <-. cbn. lia.
  - destruct (digit_value c) as [d|] eqn:E; [|discriminate]. rewrite Nat2Z.inj_succ, Z.pow_succ_r by lia. unfold digit_value in E. destruct ((48 <=? Z.of_nat (nat_of_ascii c)) && (Z.of_nat (nat_of_ascii c) <=? 57)) eqn:B; [|discriminate].
    apply andb_prop in B. destruct B as [B1 B2]. apply Z.leb_le in B1, B2. injection E as E.
    pose proof (IH (10 * acc + d) z ltac:(lia) D) as X. pose proof (Z.pow_pos_nonneg 10 (Z.of_nat (String.length t)) ltac:(lia) ltac:(lia)). nia.
Qed.
Lemma split_join c : forall s a b, split c s = [a; b] -> s = a ++ String c b.
Proof.
  intros s. induction s as [|x s IH]; intros a b H; cbn [split] in H; [discriminate|]. destruct (Ascii.eqb_spec x c) as [->|N].
  - injection H as <- H. cbn [append]. f_equal. now apply (split_one c).
  - destruct (split c s) as [|p ps] eqn:E; [discriminate|]. injection H as <- ->. cbn [append]. f_equal. now apply IH.
Qed.
Lemma units_parts k t n : parse_units (S k) t = Some n -> exists x f a y, t = x ++ f /\ x <> "" /\ decimal 0 x = Some a /\ fraction f (S k) y /\ n = a * 10 ^ Z.of_nat (S k) + y.
Proof.
  intros H. unfold parse_units in H. destruct (split "."%char t) as [|a [|b [|]]] eqn:E; try discriminate. destruct (parse_nat a) as [x|] eqn:Pa; [|discriminate]. destruct (decimal 0 b) as [y|] eqn:Pb; [|discriminate].
  destruct (Nat.eqb_spec (String.length b) (S k)) as [L|]; [|discriminate]. injection H as <-. apply split_join in E.
  unfold parse_nat in Pa. exists a, ("." ++ b), x, y. split; [exact E|]. split; [now destruct a|]. split; [now destruct a|]. split; [right; now exists b|reflexivity].
Qed.
Lemma starts_decimal x a r : x <> "" -> decimal 0 x = Some a -> starts (x ++ r).
Proof. intros N D. destruct x as [|c x]; [congruence|]. cbn [decimal] in D. destruct (digit_value c) as [d|] eqn:E; [|discriminate]. right. exists c, d, (x ++ r). auto. Qed.
Lemma abs_value k t n un u rest : parse_units (S k) t = Some n -> In (un, u) unit_names -> starts rest -> reads rest 0 ->
  reads (t ++ un ++ rest) (inject_Z (n * u) / inject_Z (10 ^ Z.of_nat (S k))) /\ starts (t ++ un ++ rest) /\ t <> "".
Proof.
  intros P Hu S0 R. destruct (units_parts k t n P) as (x & f & a & y & -> & N & D & F & ->). rewrite app_assoc'. split; [|split].
  - eapply reads_ext; [|exact (reads_component x a f (S k) y un u rest 0 N D F Hu S0 R)]. ring.
  - eapply starts_decimal; eauto.
  - destruct x; [congruence|discriminate].
Qed.
Lemma fixed_value k t n un u rest : parse_fixed (S k) t = Some n -> In (un, u) unit_names -> starts rest -> reads rest 0 ->
  is_duration (t ++ un ++ rest) (inject_Z (n * u) / inject_Z (10 ^ Z.of_nat (S k))).
Proof.
  intros P Hu S0 R. assert (T : ~ (inject_Z (10 ^ Z.of_nat (S k)) == 0)%Q) by (apply inject_pos, Z.pow_pos_nonneg; lia).
  destruct t as [|c t]; [discriminate P|]. unfold parse_fixed, signed in P. destruct (Ascii.eqb_spec c "-"%char) as [->|_].
  - destruct (parse_units (S k) t) as [m|] eqn:E; [|discriminate]. cbn [option_map] in P. injection P as <-.
    destruct (abs_value k t m un u rest E Hu S0 R) as ((x & H & X) & _ & N). cbn [append is_duration]. exists x. split.
    + unfold read_abs. destruct t as [|a t]; [congruence|exact H].
    + rewrite <- X, Z.mul_opp_l, inject_Z_opp. field. exact T.
  - destruct (abs_value k _ n un u rest P Hu S0 R) as (X & Y & _). now apply reads_duration.
Qed.
Lemma suffix_units scale : In scale (map snd unit_names) -> exists un rest, In (un, scale) unit_names /\ tail (duration_string scale) = un ++ rest /\ starts rest /\ reads rest 0.
Proof.
  intros H. cbn [unit_names map snd In] in H.
  repeat destruct H as [<-|H]; try contradiction;
    [exists "ns", ""|exists (micro ++ "s"), ""|exists "ms", ""|exists "s", ""|exists "m", "0s"|exists "h", "0m0s"];
    (split; [cbn; tauto|]); (split; [vm_compute; reflexivity|]); (split; [first [now left|right; do 3 eexists; split; [reflexivity|vm_compute; reflexivity]]|]); try exact reads_nil.
Qed.
(** the number with its suffix is in units of [scale] only for the units *)
Lemma one_suffix scale : 0 < scale -> is_duration ("1.00" ++ tail (duration_string scale)) (inject_Z scale) -> is_duration ("2.00" ++ tail (duration_string scale)) (inject_Z (2 * scale)) -> In scale (map snd unit_names).
Proof.
  intros P H1 H2. unfold duration_string in *. destruct (Z.ltb_spec scale 0); [lia|].
  destruct (duration_parts scale P) as (a & f & j & y & un & k & rest & q & E & A & F & Hu & S0 & R & V). rewrite E in H1, H2.
  assert (K : 0 < k) by (cbn [unit_names In] in Hu; repeat destruct Hu as [Hu|Hu]; try contradiction; injection Hu as _ <-; lia).
  pose proof (decimal_digits a ltac:(lia)) as D. pose proof (digits_nonempty a) as N. destruct (digits a) as [|c t] eqn:Ed; [congruence|]. clear N. cbn [append tail] in H1, H2.
  assert (Dt : exists b, decimal 0 t = Some b). { cbn [decimal] in D. destruct (digit_value c) as [d|]; [|discriminate]. clear - D. revert D. generalize (10 * 0 + d). assert (G : forall x z, decimal x t = Some z -> exists b, decimal 0 t = Some b). { generalize 0. induction t as [|c t IH]; intros x0 x z D; cbn [decimal] in *; eauto. destruct (digit_value c); [eapply IH; eauto|discriminate]. } eauto. }
  destruct Dt as (b & Dt).
  assert (Sp : forall h m, decimal 0 (String h "") = Some m -> forall x, is_duration (String h (String "."%char ("00" ++ t ++ f ++ un ++ rest))) x -> f = "" /\ (x == inject_Z ((m * 10 ^ Z.of_nat (2 + String.length t) + b) * k) / inject_Z (10 ^ Z.of_nat (2 + String.length t)) + q)%Q).
  { intros h m Dm x Hx. set (s := String h _) in Hx. assert (St : starts s). { cbn [decimal] in Dm. destruct (digit_value h) as [d|] eqn:Eh; [|discriminate]. right. exists h, d, (String "."%char ("00" ++ t ++ f ++ un ++ rest)). auto. }
    assert (X : exists z, read_components (String.length s) s = Some z /\ (x == z)%Q).
    { unfold s in *. destruct St as [X|(c' & d & r & X & Dd)]; [discriminate X|]. injection X as <- _. clear - Hx Dd. unfold is_duration in Hx. destruct h as [[|] [|] [|] [|] [|] [|] [|] [|]]; try exact Hx. discriminate Dd. }
    destruct X as (z & Hz & Ez). destruct F as [(-> & -> & ->)|(ft & -> & Df & _)].
    - split; [reflexivity|].
      assert (Fr : fraction ("." ++ "00" ++ t) (2 + String.length t) b). { right. exists ("00" ++ t). split; [reflexivity|]. split; [exact Dt|reflexivity]. }
      destruct (reads_component (String h "") m _ _ b un k rest q ltac:(discriminate) Dm Fr Hu S0 R) as (z' & Hz' & Ez').
      unfold s in Hz. cbn [append] in Hz, Hz'. rewrite Hz' in Hz. injection Hz as <-. rewrite Ez. symmetry. exact Ez'.
    - exfalso. unfold s in Hz. cbn [String.length read_components] in Hz. revert Hz. unfold read_component.
      change (String h (String "."%char ("00" ++ t ++ ("." ++ ft) ++ un ++ rest))) with (String h "" ++ String "."%char ("00" ++ t ++ ("." ++ ft) ++ un ++ rest)).
      rewrite (span_spec (String h "") (String "."%char _) eq_refl 0 0 m Dm). cbn [String.length Nat.add Nat.eqb read_fraction]. replace (Ascii.eqb "." ".") with true by reflexivity.
      replace ("00" ++ t ++ ("." ++ ft) ++ un ++ rest) with (("00" ++ t) ++ String "."%char (ft ++ un ++ rest)) by (now rewrite app_assoc').
      rewrite (span_spec ("00" ++ t) (String "."%char _) eq_refl m 0 _ (decimal_shift ("00" ++ t) m b Dt)). discriminate. }
  destruct (Sp "1"%char 1 eq_refl _ H1) as (-> & E1). destruct (Sp "2"%char 2 eq_refl _ H2) as (_ & E2). clear Sp.
  destruct F as [(_ & -> & ->)|(ft & X & _)]; [|discriminate X]. rewrite whole in V.
  set (T := 10 ^ Z.of_nat (2 + String.length t)) in *. assert (Tp : 0 < T) by (apply Z.pow_pos_nonneg; lia). pose proof (inject_pos T Tp) as Tn.
  pose proof (decimal_bound t 0 b ltac:(lia) Dt) as Bb. assert (BT : 0 <= b < T). { subst T. rewrite Nat2Z.inj_add, Z.pow_add_r by lia. change (10 ^ Z.of_nat 2) with 100. lia. }
  assert (A1 : (1 * T + b) * k = a * k * T).
  { apply inject_Z_injective. rewrite <- V in E1. assert (X : (inject_Z (a * k) == inject_Z ((1 * T + b) * k) / inject_Z T)%Q) by (apply (Qplus_inj_r _ _ q); exact E1).
    rewrite (inject_Z_mult (a * k) T), X. field. exact Tn. }
  assert (A2 : 1 * T + b = a * T) by (apply (Z.mul_reg_r _ _ k); lia). assert (Aa : a = 1) by nia. assert (B0 : b = 0) by nia. subst a b.
  assert (Q0 : (q == 0)%Q).
  { rewrite inject_Z_mult, <- V in E2. assert (X : (inject_Z ((2 * T + 0) * k) / inject_Z T == inject_Z (2 * k))%Q). { rewrite Z.add_0_r, !inject_Z_mult. field. exact Tn. }
    rewrite X in E2. rewrite !inject_Z_mult in E2. change (inject_Z 1) with 1%Q in E2. change (inject_Z 2) with 2%Q in E2. lra. }
  rewrite Q0 in V. assert (X : scale = k). { apply inject_Z_injective. rewrite <- V, Z.mul_1_l. ring. }
  subst k. apply (in_map snd) in Hu. exact Hu.
Qed.

(** ** the leading digit *)
Definition leads (s : string) : Prop := exists c r v, s = String c r /\ digit_value c = Some v /\ v <> 0.
Lemma leads_app s r : leads s -> leads (s ++ r).
Proof. intros (c & t & v & -> & D & N). exists c, (t ++ r), v. auto. Qed.
Lemma leads_digit d : 0 < d < 10 -> leads (digit d).
Proof. intros H. unfold digit. eexists _, "", d. split; [reflexivity|]. split; [apply digit_value_digit; lia|lia]. Qed.
Lemma leads_fuel f : forall z, 0 < z < 10 ^ Z.of_nat (S f) -> leads (digits_fuel f z).
Proof.
  induction f as [|f IH]; intros z H; cbn [digits_fuel].
  - change (10 ^ Z.of_nat 1) with 10 in H. rewrite Z.mod_small by lia. now apply leads_digit.
  - destruct (Z.ltb_spec z 10); [apply leads_digit; lia|]. apply leads_app, IH. split; [apply Z.div_str_pos; lia|].
    apply Z.div_lt_upper_bound; [lia|]. rewrite (Nat2Z.inj_succ (S f)), Z.pow_succ_r in H by lia. lia.
Qed.
Lemma leads_digits z : 0 < z -> leads (digits z).
Proof.
  intros H. apply leads_fuel. split; [exact H|]. destruct (Z.log2_spec z H) as (_ & L). apply (Z.lt_le_trans _ _ _ L).
  rewrite Nat2Z.inj_succ, Z2Nat.id by apply Z.log2_nonneg. apply Z.pow_le_mono_l. pose proof (Z.log2_nonneg z). lia.
Qed.
Lemma duration_leads d : 0 < d -> leads (duration_string d).
Proof.
  intros H. unfold duration_string. destruct (Z.ltb_spec d 0); [lia|]. destruct (duration_parts d H) as (a & f & j & y & un & k & rest & q & -> & A & _). apply leads_app, leads_digits, A.
Qed.

(** ** the unit at the end *)
Definition ends (x : string) : Prop := exists x' c d, x = x' ++ String c "" /\ digit_value c = Some d.
Lemma ends_app x y : ends y -> ends (x ++ y).
Proof. intros (y' & c & d & -> & D). exists (x ++ y'), c, d. split; [now rewrite app_assoc'|exact D]. Qed.
Lemma ends_decimal t : forall acc z, t <> "" -> decimal acc t = Some z -> ends t.
Proof.
  induction t as [|c t IH]; intros acc z N D; [congruence|]. cbn [decimal] in D. destruct (digit_value c) as [d|] eqn:E; [|discriminate].
  destruct t as [|c' t]; [exists "", c, d; auto|]. apply (ends_app (String c "")). now apply (IH (10 * acc + d) z).
Qed.
Lemma ends_digits z : 0 <= z -> ends (digits z).
Proof. intros H. exact (ends_decimal _ 0 z (digits_nonempty z) (decimal_digits z H)). Qed.
Lemma ends_fraction x prec v f j y : ends x -> fraction f j y -> y * 10 ^ Z.of_nat (prec - j) = v mod 10 ^ Z.of_nat prec -> (f = "" <-> v mod 10 ^ Z.of_nat prec = 0) -> ends (x ++ f).
Proof.
  intros X F Y Z0. destruct F as [(-> & _)|(t & -> & D & _)]; [now rewrite app_nil_r'|]. apply ends_app, (ends_app "."). destruct t as [|c t].
  - cbn [decimal] in D. injection D as <-. rewrite Z.mul_0_l in Y. destruct Z0 as (_ & Z0). discriminate (Z0 (eq_sym Y)).
  - now apply (ends_decimal _ 0 y).
Qed.
(** in what unit the text of a positive duration ends *)
Definition last_unit (u : Z) : string := if u <? 10 ^ 3 then "ns" else if u <? 10 ^ 6 then micro ++ "s" else if u <? 10 ^ 9 then "ms" else "s".
Lemma duration_ends u : 0 < u -> exists x, duration_string u = x ++ last_unit u /\ ends x.
Proof.
  intros U. unfold duration_string. destruct (Z.ltb_spec u 0); [lia|]. unfold last_unit, duration_abs, fmt_frac. destruct (Z.ltb_spec u (10 ^ 9)) as [L9|L9].
  - destruct (Z.eqb_spec u 0) as [Z0|_]; [lia|].
    assert (G : forall prec un, exists x, (let '(s, u') := let '(s, v') := frac_loop prec u false "" in (s ++ un, v') in digits u' ++ s) = x ++ un /\ ends x).
    { intros prec un. destruct (frac_false prec u ltac:(lia)) as (f & j & y & -> & F & L & Y & Z0). exists (digits (u / 10 ^ Z.of_nat prec) ++ f). split; [now rewrite app_assoc'|].
      refine (ends_fraction _ _ _ _ _ _ _ F Y Z0). apply ends_digits. apply Z.div_pos; [lia|apply Z.pow_pos_nonneg; lia]. }
    destruct (Z.ltb_spec u (10 ^ 3)) as [L3|L3]; [exact (G 0%nat "ns")|]. destruct (Z.ltb_spec u (10 ^ 6)) as [L6|L6]; [exact (G 3%nat (micro ++ "s"))|exact (G 6%nat "ms")].
  - destruct (Z.ltb_spec u (10 ^ 3)) as [L3|L3]; [lia|]. destruct (Z.ltb_spec u (10 ^ 6)) as [L6|L6]; [lia|].
    destruct (frac_false 9 u ltac:(lia)) as (f & j & y & -> & F & L & Y & Z0). set (s := u / 10 ^ Z.of_nat 9).
    assert (X : ends (digits (s mod 60) ++ f)). { refine (ends_fraction _ _ _ _ _ _ _ F Y Z0). apply ends_digits, Z.mod_pos_bound. lia. }
    destruct (s / 60 >? 0); [destruct (s / 60 / 60 >? 0)|].
    + exists (digits (s / 60 / 60) ++ "h" ++ digits ((s / 60) mod 60) ++ "m" ++ digits (s mod 60) ++ f). split; [|apply ends_app, (ends_app "h"), ends_app, (ends_app "m"), X]. now rewrite !app_assoc'.
    + exists (digits ((s / 60) mod 60) ++ "m" ++ digits (s mod 60) ++ f). split; [|apply ends_app, (ends_app "m"), X]. now rewrite !app_assoc'.
    + exists (digits (s mod 60) ++ f). split; [|exact X]. now rewrite !app_assoc'.
Qed.
