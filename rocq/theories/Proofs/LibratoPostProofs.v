(** Proofs about LibratoPost.v. *)
From Coq Require Import ZArith List String Ascii Bool Lia Permutation.
From Verif.Model Require Import GoInt GoFloat GoBase World Fmt Report Json Librato LibratoPost.
From Verif.Spec Require Import TextSpec JsonSpec JsonText JsonReadSpec LibratoPostSpec.
From Verif.Proofs Require Import TextProofs JsonProofs JsonTextProofs JsonReadProofs.
Import ListNotations.
Local Open Scope string_scope.

(** ** arrays are read back *)
Lemma elements_text ts : ts <> [] -> forall js, Forall2 is_json ts js -> forall tail, exists f, elements f (String.concat "," ts ++ "]" ++ tail) = Some (js, tail).
Proof.
  induction ts as [|t ts IH]; [congruence|]. intros _ js H tail. inversion H as [|? j ? js' J F]; subst. destruct (value_then _ _ J) as (f0 & w & W & V). destruct ts as [|t' ts].
  - inversion F; subst. exists (S f0). cbn [String.concat elements]. change ("]" ++ tail) with (String "]" tail). destruct (V "]"%char tail eq_refl) as (V1 & _). rewrite (V1 f0 (le_n _)), (skip_none w _ W). reflexivity.
  - destruct (IH ltac:(discriminate) js' F tail) as (f1 & M). exists (S (Nat.max f0 f1)). change (String.concat "," (t :: t' :: ts)) with (t ++ "," ++ String.concat "," (t' :: ts)). rewrite !app_assoc'.
    set (y := String.concat "," (t' :: ts) ++ "]" ++ tail) in *. cbn [elements]. change (t ++ "," ++ y) with (t ++ String "," y). destruct (V ","%char y eq_refl) as (V1 & _). rewrite (V1 _ (Nat.le_max_l _ _)), (skip_none w _ W).
    change (skip (String "," y)) with (String "," y). change (is "," ",") with true. cbv iota. rewrite (proj2 (proj2 (more_fuel f1 (Nat.max f0 f1) (Nat.le_max_r _ _))) _ _ M). reflexivity.
Qed.
(** a JSON text does not begin with a bracket that closes *)
Lemma json_first t j x : is_json t j -> exists c r, skip (t ++ x) = String c r /\ is "]" c = false.
Proof.
  intros (f & w & H & _). destruct f as [|f]; [discriminate|]. cbn [value] in H. destruct (skip t) as [|c r] eqn:E; [discriminate|]. exists c, (r ++ x). split; [now apply skip_some|].
  destruct (is "]" c) eqn:X; [|reflexivity]. apply is_eq in X. subst c. cbn in H. discriminate H.
Qed.
Lemma array_json ts js : ts <> [] -> Forall2 is_json ts js -> is_json ("[" ++ String.concat "," ts ++ "]") (JArr js).
Proof.
  intros N F. destruct (elements_text ts N js F "") as (f & M). exists (S f), "". split; [|reflexivity]. cbn [append] in M.
  set (y := String.concat "," ts ++ "]") in *. assert (Sk : exists c r, skip y = String c r /\ is "]" c = false).
  { destruct ts as [|t ts]; [congruence|]. inversion F as [|? j ? ? J _]; subst. unfold y. destruct ts as [|t' ts]; [apply (json_first t j "]" J)|]. change (String.concat "," (t :: t' :: ts)) with (t ++ "," ++ String.concat "," (t' :: ts)). rewrite !app_assoc'. eapply json_first; eauto. }
  destruct Sk as (c & r & Sk & X). change (value (S f) ("[" ++ y)) with (match skip y with String d r1 => if is "]" d then Some (JArr [], r1) else match elements f y with Some (vs, r2) => Some (JArr vs, r2) | None => None end | "" => None end).
  rewrite Sk, X, M. reflexivity.
Qed.

Lemma forall2_choice' {A B} (R : A -> B -> Prop) l : (forall a, In a l -> exists b, R a b) -> exists m, Forall2 R l m.
Proof. induction l as [|a l IH]; intros H; [exists []; constructor|]. destruct (H a (or_introl eq_refl)) as (b & Hb). destruct IH as (m & Hm); [intros; apply H; now right|]. exists (b :: m). now constructor. Qed.
Lemma perm_map {A B} (f : A -> B) l : forall m, Permutation m (map f l) -> exists l', Permutation l' l /\ m = map f l'.
Proof.
  intros m P. apply Permutation_map_inv in P. destruct P as (l' & -> & P). exists l'. split; [now symmetry|reflexivity].
Qed.

Section Post.
Variables (quote : string -> string) (chars : string -> list jchar) (number : f64 -> string) (unsupported : string).
Hypothesis Hq : forall s, is_json (quote s) (JStr (chars s)).
Hypothesis Hn : forall x, fis_finite x = true -> is_number (number x) = true.

(** ** objects from maps *)
Lemma members_map {A} (enc : A -> option string) (R : A -> json -> Prop) (l : list (string * A)) ms :
  (forall k a t, In (k, a) l -> enc a = Some t -> exists j, is_json t j /\ R a j) ->
  Json.members quote (map (fun ka => (fst ka, enc (snd ka))) l) = Some ms ->
  exists ts js, ms = map (fun kt => quote (fst kt) ++ ":" ++ snd kt) ts /\ Forall2 (fun kt (kj : string * json) => fst kj = fst kt /\ is_json (snd kt) (snd kj)) ts js /\
    Forall2 (fun ka kj => fst kj = fst ka /\ R (snd ka) (snd kj)) l js.
Proof.
  revert ms. induction l as [|[k a] l IH]; intros ms H E; cbn [map Json.members fst snd] in E.
  - injection E as <-. exists [], []. repeat split; constructor.
  - destruct (enc a) as [t|] eqn:Ea; [|discriminate]. destruct (Json.members quote _) as [ms'|] eqn:Em; [|discriminate]. injection E as <-.
    destruct (IH ms' (fun k' a' t' Hi => H k' a' t' (or_intror Hi)) eq_refl) as (ts & js & -> & F1 & F2). destruct (H k a t (or_introl eq_refl) Ea) as (j & J & Rj).
    exists ((k, t) :: ts), ((k, j) :: js). split; [reflexivity|]. split; constructor; auto.
Qed.
Lemma object_map {A} (enc : A -> option string) (R : A -> json -> Prop) (l : list (string * A)) s :
  (forall k a t, In (k, a) l -> enc a = Some t -> exists j, is_json t j /\ R a j) ->
  object quote (map (fun ka => (fst ka, enc (snd ka))) l) = Some s -> exists ms, is_json s (json_object chars ms) /\ same_members R l ms.
Proof.
  intros H E. unfold object in E. destruct (perm_map _ _ _ (sort_perm (map (fun ka : string * A => (fst ka, enc (snd ka))) l))) as (l' & P & El). rewrite El in E.
  destruct (Json.members quote _) as [ms|] eqn:Em; [|discriminate]. injection E as <-.
  destruct (members_map enc R l' ms) as (ts & js & -> & F1 & F2); [|exact Em|].
  { intros k a t Hi. apply (H k a t). eapply Permutation_in; eauto. }
  exists js. split; [|exists l'; auto]. change (is_json (object_text quote ts) (json_object chars js)). rewrite <- (app_nil_r' (object_text quote ts)). apply object_json; auto.
Qed.
Lemma lval_json_reads v t : lval_json quote number v = Some t -> exists j, is_json t j /\ lval_reads chars number v j.
Proof.
  destruct v; cbn [lval_json lval_reads]; intros H.
  - destruct (fis_finite x) eqn:F; [|discriminate]. injection H as <-. eexists. split; [apply number_json, Hn, F|auto].
  - injection H as <-. exists (JNum (fmt_d n)). split; [apply number_json, fmt_d_number|]. exists (fmt_d n). split; [reflexivity|apply parse_fmt_d].
  - injection H as <-. exists (JNum (fmt_d n)). split; [apply number_json, fmt_d_number|]. exists (fmt_d n). split; [reflexivity|apply parse_fmt_d].
  - injection H as <-. eexists. split; [apply Hq|reflexivity].
  - destruct (object_map (fun s => Some (quote s)) (fun s j => j = JStr (chars s)) a t) as (ms & J & S); [|exact H|eauto].
    intros k s t' _ Et. injection Et as <-. eexists. split; [apply Hq|reflexivity].
Qed.
Lemma measurement_json_reads m t : measurement_json quote number m = Some t -> exists j, is_json t j /\ measurement_reads chars number m j.
Proof.
  intros H. destruct (object_map (lval_json quote number) (lval_reads chars number) m t) as (ms & J & S); [|exact H|].
  - intros k v t' _. apply lval_json_reads.
  - exists (json_object chars ms). split; [exact J|]. exists ms. auto.
Qed.
Lemma encoded_some l ts : encoded l = Some ts <-> l = map Some ts.
Proof.
  revert ts. induction l as [|[t|] l IH]; intros ts; cbn [encoded].
  - split; intros H; [now injection H as <-|destruct ts; [reflexivity|discriminate]].
  - destruct (encoded l) as [ts'|] eqn:E; (split; intros H).
    + injection H as <-. cbn [map]. f_equal. now apply IH.
    + destruct ts as [|t' ts0]; [discriminate|]. injection H as -> H. apply IH in H. now injection H as ->.
    + discriminate.
    + destruct ts as [|t' ts0]; [discriminate|]. injection H as -> H. apply IH in H. discriminate.
  - split; intros H; [discriminate|destruct ts; discriminate].
Qed.
Lemma encoded_none l : encoded l = None <-> In None l.
Proof.
  induction l as [|[t|] l IH]; cbn [encoded In]; [split; [discriminate|contradiction]| |split; auto]. destruct (encoded l); split; try discriminate.
  - intros [H|H]; [discriminate|]. apply IH in H. discriminate.
  - intros _. right. now apply IH.
  - reflexivity.
Qed.
Lemma array_reads l t : l <> [] -> array (map (measurement_json quote number) l) = Some t -> exists js, is_json t (JArr js) /\ Forall2 (measurement_reads chars number) l js.
Proof.
  intros N. unfold array. destruct (encoded _) as [ts|] eqn:E; [|discriminate]. intros H. injection H as <-. apply encoded_some in E.
  assert (X : exists js, Forall2 is_json ts js /\ Forall2 (measurement_reads chars number) l js).
  { clear N. revert ts E. induction l as [|m l IH]; intros ts E; cbn [map] in E.
    - destruct ts; [|discriminate]. exists []. split; constructor.
    - destruct ts as [|t ts]; [discriminate|]. injection E as Em E. destruct (IH ts E) as (js & F1 & F2). destruct (measurement_json_reads m t Em) as (j & J & R). exists (j :: js). split; constructor; auto. }
  destruct X as (js & F1 & F2). exists js. split; [|exact F2]. apply array_json; [|exact F1]. intros ->. destruct l; [congruence|discriminate].
Qed.
(** ** the batch *)
Definition mem_ok (kt : string * option string) (kj : string * json) : Prop := fst kj = fst kt /\ exists t, snd kt = Some t /\ is_json t (snd kj).
Lemma members_ok l js ms : Json.members quote l = Some ms -> Forall2 mem_ok l js -> is_json ("{" ++ String.concat "," ms ++ "}") (json_object chars js).
Proof.
  intros E F. destruct (members_some _ _ _ E) as (ts & -> & ->). rewrite <- (app_nil_r' (_ ++ _ ++ "}")). apply (object_json quote chars Hq ts js ""); [reflexivity|].
  clear E. revert js F. induction ts as [|[k t] ts IH]; intros js F; inversion F as [|? ? ? ? (H1 & t' & H2 & H3) F']; subst; constructor; auto. cbn [fst snd] in *. injection H2 as <-. auto.
Qed.
Lemma members_all l ms : Json.members quote l = Some ms -> forall k o, In (k, o) l -> exists t, o = Some t.
Proof. intros E k o Hi. destruct o as [t|]; [eauto|]. assert (Json.members quote l = None) by (apply members_none; eauto). congruence. Qed.
Lemma omit_reads k l : (forall k' o, In (k', o) (omitempty quote number k l) -> exists t, o = Some t) ->
  exists js, list_reads chars number k l js /\ Forall2 mem_ok (omitempty quote number k l) js.
Proof.
  intros H. destruct l as [|m l]; [exists []; split; [now left|constructor]|]. unfold omitempty in *. destruct (H k _ (or_introl eq_refl)) as (t & Et). destruct (array_reads (m :: l) t ltac:(discriminate) Et) as (js & J & F).
  exists [(k, JArr js)]. split; [right; split; [discriminate|eauto]|]. constructor; [|constructor]. split; [reflexivity|]. exists t. split; [exact Et|exact J].
Qed.
Lemma batch_json_reads b t : batch_json quote number b = Some t -> exists j, is_json t j /\ batch_reads chars number b j.
Proof.
  unfold batch_json. destruct (Json.members quote _) as [ms|] eqn:E; [|discriminate]. intros H. injection H as <-. pose proof (members_all _ _ E) as All.
  destruct (omit_reads "gauges" (b_gauges b)) as (gs & G1 & G2); [intros k o Hi; apply (All k o); apply in_or_app; auto|].
  destruct (omit_reads "counters" (b_counters b)) as (cs & C1 & C2); [intros k o Hi; apply (All k o); apply in_or_app; right; apply in_or_app; auto|].
  eexists. split; [eapply members_ok; [exact E|]|exists gs, cs, (JNum (fmt_d (b_time b))); split; [exact G1|split; [exact C1|split; [|reflexivity]]]].
  - apply Forall2_app; [exact G2|]. apply Forall2_app; [exact C2|]. constructor; [split; [reflexivity|]; exists (fmt_d (b_time b)); split; [reflexivity|apply number_json, fmt_d_number]|]. constructor; [|constructor]. split; [reflexivity|]. eexists. split; [reflexivity|apply Hq].
  - exists (fmt_d (b_time b)). split; [reflexivity|apply parse_fmt_d].
Qed.

(** ** when there is a body *)
Lemma lval_none v : lval_json quote number v = None <-> exists x, v = LF x /\ fis_finite x = false.
Proof.
  destruct v; cbn [lval_json]; try (split; [discriminate|intros (y & E & _); discriminate]).
  - destruct (fis_finite x) eqn:F; split; try discriminate; eauto. intros (y & E & X). injection E as <-. congruence.
  - split; [|intros (y & E & _); discriminate]. intros H. apply object_none in H. destruct H as (k & H). apply in_map_iff in H. destruct H as (? & H & _). discriminate.
Qed.
Lemma measurement_none m : measurement_json quote number m = None <-> exists k x, In (k, LF x) m /\ fis_finite x = false.
Proof.
  unfold measurement_json. rewrite object_none. split.
  - intros (k & H). apply in_map_iff in H. destruct H as ((k' & v) & E & Hi). injection E as -> E. apply lval_none in E. destruct E as (x & -> & F). eauto.
  - intros (k & x & Hi & F). exists k. apply in_map_iff. exists (k, LF x). split; [|exact Hi]. cbn [fst snd lval_json]. now rewrite F.
Qed.
Lemma omit_none k l : In None (map snd (omitempty quote number k l)) <-> exists m k' x, In m l /\ In (k', LF x) m /\ fis_finite x = false.
Proof.
  destruct l as [|m0 l0]; [cbn; split; [contradiction|intros (m & k' & x & [] & _)]|]. set (l := m0 :: l0) in *. change (omitempty quote number k l) with [(k, array (map (measurement_json quote number) l))]. cbn [map snd In]. unfold array.
  split.
  - intros [H|[]]. destruct (encoded _) eqn:E; [discriminate|]. apply encoded_none in E. apply in_map_iff in E. destruct E as (m & E & Hi). apply measurement_none in E. destruct E as (k' & x & H1 & H2). eauto 6.
  - intros (m & k' & x & Hi & H1 & H2). left. destruct (encoded _) eqn:E; [|reflexivity]. exfalso. assert (X : encoded (map (measurement_json quote number) l) = None); [|congruence]. apply encoded_none, in_map_iff. exists m. split; [apply measurement_none; eauto|exact Hi].
Qed.
Lemma batch_json_iff b : (exists t, batch_json quote number b = Some t) <-> all_finite b.
Proof.
  unfold batch_json, all_finite. set (l := (_ ++ _)%list).
  assert (X : Json.members quote l = None <-> exists m k x, (In m (b_gauges b) \/ In m (b_counters b)) /\ In (k, LF x) m /\ fis_finite x = false).
  { rewrite members_none. transitivity (In None (map snd l)).
    - split; [intros (k & H); apply in_map_iff; exists (k, None); auto|]. intros H. apply in_map_iff in H. destruct H as ((k & o) & E & H). cbn in E. subst o. eauto.
    - unfold l. rewrite !map_app, !in_app_iff, !omit_none. cbn [map snd In]. split.
      + intros [(m & k & x & H)|[(m & k & x & H)|[H|[H|[]]]]]; try discriminate; exists m, k, x; tauto.
      + intros (m & k & x & [H|H] & H'); [left|right; left]; exists m, k, x; tauto. }
  destruct (Json.members quote l) as [ms|] eqn:E.
  - split; [|eauto]. intros _ m k x Hm Hk. destruct (fis_finite x) eqn:F; [reflexivity|]. assert (Y : Some ms = None) by (apply X; eauto 6). discriminate Y.
  - split; [intros (t & H); discriminate|]. intros H. destruct X as (X & _). destruct (X eq_refl) as (m & k & x & H1 & H2 & H3). rewrite (H m k x H1 H2) in H3. discriminate.
Qed.
End Post.

(** ** the four outcomes of PostMetrics *)
Definition is_empty (b : batch) : Prop := b_counters b = [] /\ b_gauges b = [].
Lemma empty_dec b : is_empty b \/ has_measurement b /\ ~ is_empty b.
Proof.
  unfold is_empty, has_measurement. destruct (b_gauges b) as [|g gs]; [destruct (b_counters b) as [|c cs]|]; [auto|right|right].
  - split; [exists c; cbn; auto|intros (H & _); discriminate].
  - split; [exists g; cbn; auto|intros (_ & H); discriminate].
Qed.
Lemma empty_no b : is_empty b -> ~ has_measurement b.
Proof. unfold is_empty, has_measurement. intros (-> & ->) (m & [[]|[]]). Qed.
Lemma post_cases quote number unsupported email token http b :
  (is_empty b /\ post_metrics quote number unsupported email token http b = ([], None)) \/
  (has_measurement b /\ ~ all_finite b /\ post_metrics quote number unsupported email token http b = ([], Some unsupported)) \/
  (has_measurement b /\ all_finite b /\ exists js, batch_json quote number b = Some js /\
    let req := MkHttp "POST" metrics_post_url "application/json" email token js in
    post_metrics quote number unsupported email token http b =
    match http req with
    | NoAnswer e => ([Do req], Some e)
    | Answer code status body =>
      if Z.eqb code 200 then ([Do req], None)
      else ([Do req; ReadAll], Some ("Unable to post to Librato: " ++ fmt_d code ++ " " ++ status ++ " " ++ match body with Body s => s | BodyError e => "(could not fetch response body for error: " ++ e ++ ")" end))
    end).
Proof.
  destruct (empty_dec b) as [E|(M & N)].
  - left. split; [exact E|]. destruct E as (E1 & E2). unfold post_metrics. now rewrite E1, E2.
  - right. assert (P : post_metrics quote number unsupported email token http b =
      match batch_json quote number b with
      | None => ([], Some unsupported)
      | Some js =>
        let req := MkHttp "POST" metrics_post_url "application/json" email token js in
        match http req with
        | NoAnswer e => ([Do req], Some e)
        | Answer code status body =>
          if Z.eqb code 200 then ([Do req], None)
          else
            let text := match body with Body s => s | BodyError e => "(could not fetch response body for error: " ++ e ++ ")" end in
            ([Do req; ReadAll], Some ("Unable to post to Librato: " ++ fmt_d code ++ " " ++ status ++ " " ++ text))
        end
      end).
    { unfold post_metrics. unfold is_empty in N. destruct (b_counters b); [destruct (b_gauges b); [exfalso; auto|]|]; reflexivity. }
    rewrite P. destruct (batch_json quote number b) as [js|] eqn:E.
    + right. split; [exact M|]. split; [apply (batch_json_iff quote number); eauto|]. exists js. split; reflexivity.
    + left. split; [exact M|]. split; [|reflexivity]. intros F. apply (batch_json_iff quote number) in F. destruct F as (t & F). congruence.
Qed.
