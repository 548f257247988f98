(** Property C56, continued: what is exported can be read as JSON.  Of the notation of strings is
    assumed that [quote s] is a JSON string, with the characters [chars s], and of finite floats
    that [number x] is a JSON number. *)
From Coq Require Import ZArith List String Ascii Bool Lia Permutation Sorted.
From Verif.Model Require Import GoInt GoFloat GoBase World Fmt Report Json JsonQuote.
From Verif.Spec Require Import ApiSpec RegistrySpec HealthSpec GetAllSpec TextSpec ReportSpec WriteSpec JsonSpec JsonText JsonReadSpec.
From Verif.Proofs Require Import WorldBase WorldStep GetAllProofs RegistryProofs TextProofs ReportProofs JsonProofs JsonTextProofs JsonReadProofs.
From Verif.Props Require Import SnapshotProps HealthProps GetAllProps ReportProps WriteProps JsonProps.
Import ListNotations.
Local Open Scope nat_scope.
Local Open Scope string_scope.

Lemma forall2_choice {A B} (R : A -> B -> Prop) l : (forall a, In a l -> exists b, R a b) -> exists m, Forall2 R l m.
Proof. induction l as [|a l IH]; intros H; [exists []; constructor|]. destruct (H a (or_introl eq_refl)) as (b & Hb). destruct IH as (m & Hm); [intros; apply H; now right|]. exists (b :: m). now constructor. Qed.
Lemma forall2_keys2 {A B} (P : string * A -> string * B -> Prop) l m : Forall2 (fun a b => fst b = fst a /\ P a b) l m -> map fst m = map fst l.
Proof. induction 1 as [|a b l m (E & _) _ IH]; cbn [map]; [reflexivity|]. now rewrite E, IH. Qed.
Lemma forall2_in {A B} (R : A -> B -> Prop) l m b : Forall2 R l m -> In b m -> exists a, In a l /\ R a b.
Proof. induction 1 as [|x y l m H _ IH]; intros Hi; [contradiction|]. destruct Hi as [<-|Hi]; [exists x; split; [now left|exact H]|]. destruct (IH Hi) as (a & H1 & H2). exists a. split; [now right|exact H2]. Qed.
Lemma forall2_weaken {A B} (R Q : A -> B -> Prop) l m : (forall a b, R a b -> Q a b) -> Forall2 R l m -> Forall2 Q l m.
Proof. intros H. induction 1; constructor; auto. Qed.

Section Read.
Variables (quote : string -> string) (chars : string -> list jchar) (number : f64 -> string) (error_text : Z -> string).
Hypothesis Hq : forall s, is_json (quote s) (JStr (chars s)).
Hypothesis Hn : forall x, fis_finite x = true -> is_number (number x) = true.
Lemma value_read a t : value_text quote number error_text a t -> exists j, is_json t j /\ value_json chars number error_text a j.
Proof.
  destruct a; try contradiction; cbn [value_text value_json]; [| |destruct e as [e|]].
  - intros (P & N). exists (JNum t). split; [now apply number_json|eauto].
  - intros (F & ->). exists (JNum (number x)). split; [apply number_json, Hn, F|auto].
  - intros ->. eexists. split; [apply Hq|reflexivity].
  - intros ->. exists JNull. split; [exists 1, ""; split; reflexivity|reflexivity].
Qed.
Lemma metric_read mexp st b o i x t : metric_text quote number error_text mexp st b o i x t -> exists j, is_json t j /\ metric_json chars number error_text mexp st b o i x j.
Proof.
  intros (ms & -> & As & Ks & Vs).
  destruct (forall2_choice (fun (kt : string * string) (kj : string * json) => fst kj = fst kt /\ is_json (snd kt) (snd kj) /\ exists c a, In (fst kt, c) (accessors (cls i) x) /\ reported mexp st b o i x c a /\ value_json chars number error_text a (snd kj)) ms) as (js & F).
  { intros (k & s) Hi. destruct (Vs k s Hi) as (c & a & Hc & Ra & Va). destruct (value_read a s Va) as (j & J & Vj). exists (k, j). cbn [fst snd]. eauto 8. }
  exists (json_object chars js). pose proof (forall2_keys2 _ _ _ F) as Ek. split.
  - rewrite <- (app_nil_r' (object_text quote ms)). apply object_json; [exact Hq|reflexivity|]. eapply forall2_weaken; [|exact F]. cbn beta. tauto.
  - exists js. split; [reflexivity|]. rewrite Ek. split; [exact As|]. split; [exact Ks|]. intros k v Hi. destruct (forall2_in _ _ _ _ F Hi) as ((k' & s) & _ & E & _ & c & a & Hc & Ra & Va). cbn [fst snd] in *. subst k'. eauto.
Qed.
End Read.

(** what MarshalJSON returns, and also with white space such as Encode's line feed after it, is
    the JSON text of an object with one member for each registered metric *)
Theorem C56_json : forall mexp p r v b o at_ quote chars number error_text w' s tail, let st := reach mexp p in
  (forall s, is_json (quote s) (JStr (chars s))) -> (forall x, fis_finite x = true -> is_number (number x) = true) ->
  nth_error (snd st) r = Some v -> base v = Some b ->
  (forall nm i, registered (fst st) b nm = Some i -> nth_error (snd st) (at_ nm) = Some i) ->
  marshal_json quote number error_text v o (fst st) = (w', Ok (Some s)) -> skip tail = "" ->
  exists ms, is_json (s ++ tail) (json_object chars ms) /\ ascending (map fst ms) /\ (forall nm, In nm (map fst ms) <-> registered (fst st) b nm <> None) /\
    forall nm j, In (nm, j) ms -> exists i, registered (fst st) b nm = Some i /\ metric_json chars number error_text mexp st b o i (at_ nm) j.
Proof.
  intros mexp p r v b o at_ quote chars number error_text w' s tail st Hq Hn E B At H T.
  destruct (C56_text mexp p r v b o at_ quote number error_text w' s E B At H) as (ms & -> & As & Ks & Vs). fold st in Ks, Vs.
  destruct (forall2_choice (fun (kt : string * string) (kj : string * json) => fst kj = fst kt /\ is_json (snd kt) (snd kj) /\ exists i, registered (fst st) b (fst kt) = Some i /\ metric_json chars number error_text mexp st b o i (at_ (fst kt)) (snd kj)) ms) as (js & F).
  { intros (k & t) Hi. destruct (Vs k t Hi) as (i & Ri & Mt). destruct (metric_read quote chars number error_text Hq Hn mexp st b o i _ t Mt) as (j & J & Mj). exists (k, j). cbn [fst snd]. eauto. }
  exists js. pose proof (forall2_keys2 _ _ _ F) as Ek. rewrite Ek. split; [|split; [exact As|split; [exact Ks|]]].
  - apply object_json; [exact Hq|exact T|]. eapply forall2_weaken; [|exact F]. cbn beta. tauto.
  - intros k v' Hi. destruct (forall2_in _ _ _ _ F Hi) as ((k' & t) & _ & Ek' & _ & i & Ri & Mj). cbn [fst snd] in *. subst k'. eauto.
Qed.

(** ** the notation of strings in encoding/json meets the assumption: it is read back as the
    string *)
Definition jchar_of (c : ascii) : jchar := match json_char c with String _ (String "u"%char _) => JUnit (nat_of_ascii c) | _ => JByte c end.
Definition json_units (s : string) : list jchar := map jchar_of (list_ascii_of_string s).
Lemma json_char_read c s : str (json_char c ++ s) = cons_char (jchar_of c) (str s).
Proof. destruct c as [[|] [|] [|] [|] [|] [|] [|] [|]]; reflexivity. Qed.
Lemma json_chars_read k s : str (json_chars k ++ String quotation s) = Some (json_units k, s).
Proof. induction k as [|c k IH]; cbn [json_chars]; [reflexivity|]. rewrite app_assoc', json_char_read, IH. reflexivity. Qed.
Theorem C56_quote : forall s, is_json (json_quote s) (JStr (json_units s)) /\ map unit_of (json_units s) = units s.
Proof.
  intros s. split.
  - exists 1, "". split; [|reflexivity]. unfold json_quote. change (value 1 (String quotation (json_chars s ++ String quotation "")) = Some (JStr (json_units s), "")).
    change (value 1 (String quotation (json_chars s ++ String quotation ""))) with (match str (json_chars s ++ String quotation "") with Some (l, r1) => Some (JStr l, r1) | None => None end). now rewrite json_chars_read.
  - unfold json_units, units. rewrite map_map. apply map_ext. intros c. destruct c as [[|] [|] [|] [|] [|] [|] [|] [|]]; reflexivity.
Qed.
(** ** the text is one line that can stand inside HTML: no control character, and none of < > & *)
Definition plain_char (c : ascii) : Prop := (32 <= nat_of_ascii c)%nat /\ ~ In c ["<"; ">"; "&"]%char.
Definition plain_text (s : string) : Prop := Forall plain_char (list_ascii_of_string s).
Definition plain_check (c : ascii) : bool := Nat.leb 32 (nat_of_ascii c) && negb (existsb (Ascii.eqb c) ["<"; ">"; "&"]%char).
Lemma plain_check_ok s : forallb plain_check (list_ascii_of_string s) = true -> plain_text s.
Proof.
  intros H. apply Forall_forall. intros c Hc. rewrite forallb_forall in H. specialize (H c Hc). apply andb_prop in H. destruct H as [H1 H2]. split; [now apply Nat.leb_le|].
  intros X. assert (Y : existsb (Ascii.eqb c) ["<"; ">"; "&"]%char = true) by (apply existsb_exists; exists c; split; [exact X|apply Ascii.eqb_refl]). rewrite Y in H2. discriminate H2.
Qed.
Lemma ascii_app s t : list_ascii_of_string (s ++ t) = (list_ascii_of_string s ++ list_ascii_of_string t)%list.
Proof. induction s as [|c s IH]; cbn [append list_ascii_of_string]; [reflexivity|]. now rewrite IH. Qed.
Lemma plain_app s t : plain_text s -> plain_text t -> plain_text (s ++ t).
Proof. unfold plain_text. intros A B. rewrite ascii_app. apply Forall_app; auto. Qed.
Lemma plain_quote s : plain_text (json_quote s).
Proof.
  unfold json_quote. apply plain_app; [now apply plain_check_ok|]. apply plain_app; [|now apply plain_check_ok].
  induction s as [|c s IH]; cbn [json_chars]; [constructor|]. apply plain_app; [|exact IH]. apply plain_check_ok. destruct c as [[|] [|] [|] [|] [|] [|] [|] [|]]; reflexivity.
Qed.
Lemma plain_numeric s : numeric s = true -> plain_text s.
Proof.
  unfold plain_text. induction s as [|c s IH]; cbn [numeric list_ascii_of_string]; intros H; [constructor|]. apply andb_prop in H. destruct H as [H1 H2]. constructor; [|auto].
  assert (X : plain_text (String c "")); [|now inversion X]. apply plain_check_ok. destruct c as [[|] [|] [|] [|] [|] [|] [|] [|]]; try discriminate H1; reflexivity.
Qed.
Lemma plain_concat l : Forall plain_text l -> plain_text (String.concat "," l).
Proof. induction 1 as [|s [|t l] Hs H IH]; cbn [String.concat]; [constructor|exact Hs|]. apply plain_app; [exact Hs|]. apply plain_app; [now apply plain_check_ok|exact IH]. Qed.
Lemma plain_members l ms : (forall k t, In (k, Some t) l -> plain_text t) -> Json.members json_quote l = Some ms -> Forall plain_text ms.
Proof.
  revert ms. induction l as [|[k [t|]] l IH]; intros ms H M; cbn [Json.members] in M; [injection M as <-; constructor| |discriminate M].
  destruct (Json.members json_quote l) as [ms'|]; [|discriminate M]. injection M as <-. constructor; [|apply IH; [intros k1 t1 Hi; apply (H k1); right; exact Hi|reflexivity]].
  apply (plain_app (json_quote k) (":" ++ t)); [apply plain_quote|]. apply (plain_app ":" t); [now apply plain_check_ok|]. apply (H k). now left.
Qed.
Lemma sort_keys_in {A} (l : list (string * A)) x : In x (sort_keys l) -> In x l.
Proof.
  assert (G : forall (kv : string * A) m, In x (insert_key kv m) -> x = kv \/ In x m).
  { intros kv m. induction m as [|y m IH]; cbn [insert_key]; [intros [->|[]]; auto|]. destruct (String.ltb (fst y) (fst kv)); intros [->|H]; [right; now left| |now left|right; exact H]. destruct (IH H); [now left|right; now right]. }
  unfold sort_keys. induction l as [|y l IH]; cbn [fold_right]; [auto|]. intros H. destruct (G _ _ H) as [->|H1]; [now left|right; auto].
Qed.
Lemma plain_object l s : (forall k t, In (k, Some t) l -> plain_text t) -> Json.object json_quote l = Some s -> plain_text s.
Proof.
  intros H. unfold Json.object. destruct (Json.members json_quote (sort_keys l)) as [ms|] eqn:M; [|discriminate]. intros E. injection E as <-.
  change (plain_text ("{" ++ (String.concat "," ms ++ "}"))). apply plain_app; [now apply plain_check_ok|]. apply plain_app; [|now apply plain_check_ok]. apply plain_concat. eapply plain_members; [|exact M]. intros k t Hi. apply sort_keys_in in Hi. eauto.
Qed.
Theorem C56_one_line : forall number error_text v o w w' s,
  (forall x, fis_finite x = true -> is_number (number x) = true) ->
  marshal_json json_quote number error_text v o w = (w', Ok (Some s)) -> plain_text s.
Proof.
  intros number error_text v o w w' s Hn H. unfold marshal_json, bind in H. destruct (reg_get_all v o w) as [w1 [all|m]]; [|discriminate H]. unfold ret in H. injection H as _ H.
  unfold marshal in H. eapply plain_object; [|exact H]. intros k t Hi. apply in_map_iff in Hi. destruct Hi as ((nm & fs) & E & _). cbn [fst snd] in E. injection E as _ E.
  eapply plain_object; [|exact E]. intros k' t' Hi'. apply in_map_iff in Hi'. destruct Hi' as ((nm' & g) & E' & _). cbn [fst snd] in E'. injection E' as _ E'.
  destruct g as [n|x|[e|]]; cbn [json_value] in E'.
  - injection E' as <-. apply plain_numeric, number_chars, fmt_d_number.
  - destruct (fis_finite x) eqn:F; [|discriminate E']. injection E' as <-. apply plain_numeric, number_chars, Hn, F.
  - injection E' as <-. apply plain_quote.
  - injection E' as <-. now apply plain_check_ok.
Qed.
(** the registry of C56_example, with the notation of encoding/json, and a name that is escaped *)
Definition angle : list (op * orc) := map (fun c => (c, hurt)) [ONew (NHealth 7); ORegister 0 "<a" 1; ONew NCounter; OInc 2 (-12); ORegister 0 "b" 2]%Z.
Definition angle_text : string := "{" ++ quoted "\u003ca" ++ ":{" ++ quoted "error" ++ ":" ++ quoted "on fire" ++ "}," ++ quoted "b" ++ ":{" ++ quoted "count" ++ ":-12}}".
Example C56_json_example :
  snd (marshal_json json_quote (fun _ => "0.5") (fun _ => "on fire") (VReg 0) hurt (fst (reach one_exp angle))) = Ok (Some angle_text) /\
  is_json (angle_text ++ newline) (json_object json_units [("<a", JObj [(bytes "error", JStr (bytes "on fire"))]); ("b", JObj [(bytes "count", JNum "-12")])]).
Proof. split; [vm_compute; reflexivity|]. exists 20, newline. split; vm_compute; reflexivity. Qed.
