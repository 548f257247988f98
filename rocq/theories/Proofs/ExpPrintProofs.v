(** Proofs about the response of the expvar handler. *)
From Coq Require Import ZArith List String Ascii Bool Lia Permutation.
From Verif.Model Require Import GoInt GoFloat GoBase World Fmt Report Json Expvar ExpPrint.
From Verif.Spec Require Import TextSpec WriteSpec JsonText ExpPrintSpec.
From Verif.Proofs Require Import TextProofs DurationProofs JsonProofs JsonTextProofs.
Import ListNotations.
Local Open Scope string_scope.

(** ** quoted names *)
Lemma quote_char_ok c s : shared c = true -> str (quote_char c ++ s) = cons_char (JByte c) (str s).
Proof. destruct c as [[|] [|] [|] [|] [|] [|] [|] [|]]; intros H; first [discriminate H|reflexivity]. Qed.
Lemma quote_char_bad c s : between 0 126 c = true -> shared c = false -> str (quote_char c ++ s) = None.
Proof. destruct c as [[|] [|] [|] [|] [|] [|] [|] [|]]; intros H N; first [discriminate H|discriminate N|reflexivity]. Qed.
Lemma quote_chars_ok k s : plain_name k = true -> str (quote_chars k ++ String quotation s) = Some (bytes k, s).
Proof.
  unfold plain_name. induction k as [|c k IH]; cbn [list_ascii_of_string forallb quote_chars]; [reflexivity|]. intros H. apply andb_prop in H. destruct H as [H1 H2]. rewrite app_assoc', (quote_char_ok c _ H1), (IH H2). reflexivity.
Qed.
Lemma quote_chars_bad k s : ascii_text k = true -> plain_name k = false -> str (quote_chars k ++ s) = None.
Proof.
  unfold plain_name, ascii_text. induction k as [|c k IH]; cbn [list_ascii_of_string forallb quote_chars]; [discriminate|]. intros H N. apply andb_prop in H. destruct H as [H1 H2]. rewrite app_assoc'.
  destruct (shared c) eqn:E; [|now apply quote_char_bad]. rewrite (quote_char_ok c _ E), (IH H2 N). reflexivity.
Qed.

Section Print.
Variables (number_g : f64 -> string) (other : string -> string).
Notation text := (var_text number_g other).
Definition good (kx : string * evar) : Prop := plain_name (fst kx) = true /\ finite_var (snd kx) = true.
Definition goodb (kx : string * evar) : bool := plain_name (fst kx) && finite_var (snd kx).
Lemma var_json k x : (forall f, fis_finite f = true -> is_number (number_g f) = true) -> (x = EOther -> exists j, is_json (other k) j) -> finite_var x = true -> exists j, is_json (text k x) j /\ var_says number_g other k x j.
Proof.
  intros Hn Ho F. destruct x as [n|f|]; cbn [var_text finite_var var_says] in *.
  - exists (JNum (fmt_d n)). split; [apply number_json, fmt_d_number|]. exists (fmt_d n). split; [reflexivity|apply parse_fmt_d].
  - rewrite F. exists (JNum (number_g f)). split; [now apply number_json, Hn|reflexivity].
  - destruct (Ho eq_refl) as (j & Hj). eauto.
Qed.
Lemma var_bad k f s c x : fis_finite f = false -> num_char c = false -> value s (text k (EFloat f) ++ String c x) = None.
Proof.
  intros F C. cbn [var_text]. rewrite F. destruct s as [|s]; [reflexivity|].
  destruct (fis_nan f); [reflexivity|]. destruct (flt f f_zero); reflexivity.
Qed.

(** one member *)
Definition the_end : string := newline ++ "}" ++ newline.
(** what follows the value of a member *)
Definition next (f : nat) (key : list jchar) (v : json) (s : string) : option (list (list jchar * json) * string) :=
  match skip s with
  | "" => None
  | String e r => if is "," e then match members f r with Some (ms, r') => Some ((key, v) :: ms, r') | None => None end else if is "}" e then Some ([(key, v)], r) else None
  end.
Lemma members_one f k x rest : members (S f) (newline ++ go_quote k ++ ": " ++ text k x ++ rest) =
  match str (quote_chars k ++ String quotation (": " ++ text k x ++ rest)) with
  | None => None
  | Some (key, r1) =>
    match skip r1 with
    | "" => None
    | String d r2 => if is ":" d then match value f r2 with None => None | Some (v, r3) => next f key v r3 end else None
    end
  end.
Proof.
  replace (newline ++ go_quote k ++ ": " ++ text k x ++ rest) with (String (ascii_of_nat 10) (String quotation (quote_chars k ++ String quotation (": " ++ text k x ++ rest)))); [reflexivity|].
  unfold go_quote, newline. cbn [append]. rewrite app_assoc'. reflexivity.
Qed.
Lemma members_key f k x rest : plain_name k = true -> members (S f) (newline ++ go_quote k ++ ": " ++ text k x ++ rest) = match value f (text k x ++ rest) with None => None | Some (v, r3) => next f (bytes k) v r3 end.
Proof. intros P. rewrite members_one, (quote_chars_ok k _ P). rewrite <- (value_space f " "%char (text k x ++ rest)) by reflexivity. reflexivity. Qed.
Lemma next_end f key v w : skip w = "" -> next f key v (w ++ the_end) = Some ([(key, v)], newline).
Proof. intros W. unfold next. rewrite (skip_none w _ W). reflexivity. Qed.
Lemma next_comma f key v w y : skip w = "" -> next f key v (w ++ String "," y) = match members f y with Some (ms, r') => Some ((key, v) :: ms, r') | None => None end.
Proof. intros W. unfold next. rewrite (skip_none w _ W). reflexivity. Qed.
Lemma print_cons k x r : newline ++ print_vars number_g other true ((k, x) :: r) ++ the_end =
  newline ++ go_quote k ++ ": " ++ text k x ++ (match r with [] => the_end | _ => "," ++ newline ++ print_vars number_g other true r ++ the_end end).
Proof.
  cbn [print_vars]. change ("" ++ go_quote k ++ ": " ++ text k x ++ print_vars number_g other false r) with (go_quote k ++ ": " ++ text k x ++ print_vars number_g other false r).
  rewrite !app_assoc'. do 4 f_equal. destruct r as [|[k' x'] r]; [reflexivity|]. cbn [print_vars]. rewrite !app_assoc'. reflexivity.
Qed.
Variable Hn : forall f, fis_finite f = true -> is_number (number_g f) = true.
Lemma members_good l : l <> [] -> (forall k x, In (k, x) l -> plain_name k = true /\ finite_var x = true /\ (x = EOther -> exists j, is_json (other k) j)) ->
  exists f ms, members f (newline ++ print_vars number_g other true l ++ the_end) = Some (ms, newline) /\
    Forall2 (fun kx m => fst m = bytes (fst kx) /\ var_says number_g other (fst kx) (snd kx) (snd m)) l ms.
Proof.
  induction l as [|[k x] l IH]; [congruence|]. intros _ H. rewrite print_cons. destruct (H k x (or_introl eq_refl)) as (P & F & O).
  destruct (var_json k x Hn O F) as (j & J & Sj). destruct (value_then _ _ J) as (f0 & w & W & V).
  destruct l as [|kx l].
  - exists (S f0), [(bytes k, j)]. rewrite (members_key _ k x _ P). split; [|constructor; [split; [reflexivity|exact Sj]|constructor]].
    destruct (V (ascii_of_nat 10) (String "}" (String (ascii_of_nat 10) "")) eq_refl) as (V1 & _). change (String (ascii_of_nat 10) (String "}" (String (ascii_of_nat 10) ""))) with the_end in V1. rewrite (V1 f0 (le_n _)). now apply next_end.
  - destruct IH as (f1 & ms & M & Fm); [discriminate|intros; apply H; now right|]. exists (S (Nat.max f0 f1)), ((bytes k, j) :: ms). rewrite (members_key _ k x _ P). split; [|constructor; [split; [reflexivity|exact Sj]|exact Fm]].
    set (y := newline ++ print_vars number_g other true (kx :: l) ++ the_end) in *. change ("," ++ y) with (String "," y).
    destruct (V ","%char y eq_refl) as (V1 & _). rewrite (V1 _ (Nat.le_max_l _ _)), (next_comma _ _ _ w y W).
    rewrite (proj1 (proj2 (more_fuel f1 (Nat.max f0 f1) (Nat.le_max_r _ _))) _ _ M). reflexivity.
Qed.
Lemma members_bad l : (forall k x, In (k, x) l -> ascii_text k = true /\ (x = EOther -> exists j, is_json (other k) j)) -> (exists k x, In (k, x) l /\ ~ (plain_name k = true /\ finite_var x = true)) ->
  forall f, members f (newline ++ print_vars number_g other true l ++ the_end) = None.
Proof.
  induction l as [|[k x] l IH]; intros H (k0 & x0 & Hi & B) f; [destruct Hi|]. rewrite print_cons. destruct f as [|f]; [reflexivity|].
  destruct (H k x (or_introl eq_refl)) as (A & O). destruct (plain_name k) eqn:P; [|rewrite members_one; now rewrite (quote_chars_bad k _ A P)].
  set (y := match l with [] => the_end | _ => "," ++ newline ++ print_vars number_g other true l ++ the_end end). rewrite (members_key _ k x _ P).
  assert (Y : exists c z, y = String c z /\ num_char c = false). { unfold y. destruct l; do 2 eexists; split; reflexivity. }
  destruct Y as (c & z & Ey & C). destruct (finite_var x) eqn:F.
  2:{ destruct x as [n|g|]; try discriminate F. rewrite Ey, (var_bad k g f c z F C). reflexivity. }
  destruct (var_json k x Hn O F) as (j & J & _). destruct (value_then _ _ J) as (f0 & w & W & V). destruct (V c z C) as (_ & V2). rewrite Ey. destruct (value f (text k x ++ String c z)) as [[v r3]|] eqn:Ev; [|reflexivity].
  pose proof (V2 _ _ Ev) as X. injection X as -> ->. rewrite <- Ey. unfold y. destruct Hi as [Hi|Hi].
  - injection Hi as <- <-. destruct B. auto.
  - destruct l as [|kx l]; [destruct Hi|]. change ("," ++ newline ++ print_vars number_g other true (kx :: l) ++ the_end) with (String "," (newline ++ print_vars number_g other true (kx :: l) ++ the_end)).
    rewrite (next_comma _ _ _ w _ W). rewrite IH; [reflexivity|intros; apply H; now right|]. exists k0, x0. auto.
Qed.
Lemma value_object f l : l <> [] -> value (S f) ("{" ++ newline ++ print_vars number_g other true l ++ the_end) = match members f (newline ++ print_vars number_g other true l ++ the_end) with Some (ms, r) => Some (JObj ms, r) | None => None end.
Proof.
  intros N. destruct l as [|[k x] l]; [congruence|]. rewrite print_cons. set (z := match l with [] => the_end | _ => _ end). clearbody z.
  set (y := newline ++ go_quote k ++ ": " ++ text k x ++ z).
  assert (Sk : skip y = go_quote k ++ ": " ++ text k x ++ z) by reflexivity.
  change (value (S f) ("{" ++ y)) with (match skip y with String d r1 => if is "}" d then Some (JObj [], r1) else match members f y with Some (ms, r2) => Some (JObj ms, r2) | None => None end | "" => None end).
  rewrite Sk. unfold go_quote. reflexivity.
Qed.
End Print.
