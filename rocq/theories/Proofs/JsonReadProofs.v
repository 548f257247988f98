(** Objects in the notation of encoding/json are read back. *)
From Coq Require Import ZArith List String Ascii Bool Lia.
From Verif.Model Require Import GoInt GoFloat GoBase World Fmt Report Json.
From Verif.Spec Require Import ApiSpec RegistrySpec GetAllSpec TextSpec ReportSpec WriteSpec JsonSpec JsonText JsonReadSpec.
From Verif.Proofs Require Import TextProofs JsonTextProofs ExpPrintProofs.
Import ListNotations.
Local Open Scope string_scope.

Section Read.
Variables (quote : string -> string) (chars : string -> list jchar).
Hypothesis Hq : forall s, is_json (quote s) (JStr (chars s)).
Notation mtext := (fun kt : string * string => quote (fst kt) ++ ":" ++ snd kt).

Lemma atom_not_str s v r : atom s = Some (v, r) -> forall l, v <> JStr l.
Proof.
  unfold atom. destruct (literal "null" s); [intros H; injection H as <- <-; discriminate|]. destruct (literal "true" s); [intros H; injection H as <- <-; discriminate|]. destruct (literal "false" s); [intros H; injection H as <- <-; discriminate|].
  destruct (token s) as [t x]. destruct (is_number t); [|discriminate]. intros H; injection H as <- <-; discriminate.
Qed.
(** a text that is a JSON string begins, after white space, with a quotation mark *)
Lemma json_str s l : is_json s (JStr l) -> exists r w, skip s = String quotation r /\ str r = Some (l, w) /\ skip w = "".
Proof.
  intros (f & w & H & W). destruct f as [|f]; [discriminate|]. cbn [value] in H. destruct (skip s) as [|c r] eqn:E; [discriminate|].
  destruct (is "{" c). { destruct (skip r) as [|d r1]; [discriminate|]. destruct (is "}" d); [discriminate|]. destruct (members f r) as [[? ?]|]; discriminate. }
  destruct (is "[" c). { destruct (skip r) as [|d r1]; [discriminate|]. destruct (is "]" d); [discriminate|]. destruct (elements f r) as [[? ?]|]; discriminate. }
  destruct (is quotation c) eqn:Q; [|exfalso; eapply atom_not_str; eauto].
  apply is_eq in Q. subst c. destruct (str r) as [[l' r1]|] eqn:Es; [|discriminate]. injection H as <- <-. eauto 6.
Qed.
(** one member: what follows the name and the colon *)
Definition after (f : nat) (k : list jchar) (y : option (json * string)) : option (list (list jchar * json) * string) :=
  match y with
  | None => None
  | Some (v, r3) =>
    match skip r3 with
    | "" => None
    | String e r4 =>
      if is "," e then match members f r4 with Some (ms, r5) => Some ((k, v) :: ms, r5) | None => None end
      else if is "}" e then Some ([(k, v)], r4) else None
    end
  end.
Lemma members_at k f x : members (S f) (quote k ++ ":" ++ x) = after f (chars k) (value f x).
Proof.
  destruct (json_str _ _ (Hq k)) as (r & w & E & Es & W). cbn [members]. rewrite (skip_some _ _ _ _ E). change (is quotation quotation) with true. cbv iota. rewrite (str_app _ _ _ _ (":" ++ x) (le_n _) Es).
  rewrite (skip_none w _ W). reflexivity.
Qed.
Lemma concat_cons kt kt' l : String.concat "," (map mtext (kt :: kt' :: l)) = mtext kt ++ "," ++ String.concat "," (map mtext (kt' :: l)).
Proof. reflexivity. Qed.
Lemma members_text ms : ms <> [] -> forall js, Forall2 (fun kt (kj : string * json) => fst kj = fst kt /\ is_json (snd kt) (snd kj)) ms js -> forall tail,
  exists f, members f (String.concat "," (map mtext ms) ++ "}" ++ tail) = Some (map (fun kj => (chars (fst kj), snd kj)) js, tail).
Proof.
  induction ms as [|[k t] ms IH]; [congruence|]. intros _ js H tail. inversion H as [|? [k' j] ? js' (Hk & J) F]; subst. cbn [fst snd] in Hk, J. subst k'.
  destruct (value_then _ _ J) as (f0 & w & W & V). destruct ms as [|kt ms].
  - inversion F; subst. exists (S f0). cbn [map String.concat fst snd]. rewrite !app_assoc'. rewrite members_at. change (t ++ "}" ++ tail) with (t ++ String "}" tail). destruct (V "}"%char tail eq_refl) as (V1 & _). rewrite (V1 f0 (le_n _)).
    unfold after. rewrite (skip_none w _ W). reflexivity.
  - destruct (IH ltac:(discriminate) js' F tail) as (f1 & M). exists (S (Nat.max f0 f1)). rewrite concat_cons. cbn [fst snd]. rewrite !app_assoc'. rewrite members_at.
    set (y := String.concat "," (map mtext (kt :: ms)) ++ "}" ++ tail) in *. change (t ++ "," ++ y) with (t ++ String "," y). destruct (V ","%char y eq_refl) as (V1 & _). rewrite (V1 _ (Nat.le_max_l _ _)).
    unfold after. rewrite (skip_none w _ W). change (skip (String "," y)) with (String "," y). change (is "," ",") with true. cbv iota.
    rewrite (proj1 (proj2 (more_fuel f1 (Nat.max f0 f1) (Nat.le_max_r _ _))) _ _ M). reflexivity.
Qed.
Lemma object_then ms js tail : Forall2 (fun kt (kj : string * json) => fst kj = fst kt /\ is_json (snd kt) (snd kj)) ms js ->
  exists f, value f (object_text quote ms ++ tail) = Some (json_object chars js, tail).
Proof.
  intros F. unfold object_text. rewrite !app_assoc'. destruct ms as [|[k t] ms].
  - inversion F; subst. exists 1%nat. reflexivity.
  - assert (N : (k, t) :: ms <> []) by discriminate. destruct (members_text _ N js F tail) as (f & M). exists (S f).
    set (y := String.concat "," (map mtext ((k, t) :: ms)) ++ "}" ++ tail) in *.
    assert (Sk : exists r, skip y = String quotation r).
    { destruct (json_str _ _ (Hq k)) as (r & w & E & _). unfold y. destruct ms as [|kt ms]; [cbn [map String.concat fst snd]|rewrite concat_cons; cbn [fst snd]]; rewrite !app_assoc'; rewrite (skip_some _ _ _ _ E); eauto. }
    destruct Sk as (r & Sk).
    change (value (S f) ("{" ++ y)) with (match skip y with String d r1 => if is "}" d then Some (JObj [], r1) else match members f y with Some (ms, r2) => Some (JObj ms, r2) | None => None end | "" => None end).
    rewrite Sk, M. reflexivity.
Qed.
Lemma object_json ms js tail : skip tail = "" -> Forall2 (fun kt (kj : string * json) => fst kj = fst kt /\ is_json (snd kt) (snd kj)) ms js -> is_json (object_text quote ms ++ tail) (json_object chars js).
Proof. intros T F. destruct (object_then ms js tail F) as (f & H). exists f, tail. auto. Qed.
End Read.
