(** The lines of the Graphite and OpenTSDB reports. *)
From Coq Require Import ZArith List String Ascii Bool Lia Reals.
From Flocq Require Import Core.
From Verif.Model Require Import GoInt GoFloat GoBase World Fmt Report.
From Verif.Spec Require Import ApiSpec RegistrySpec GetAllSpec TextSpec ReportSpec.
From Verif.Proofs Require Import FloatFacts WorldBase WorldStep WorldReads GetAllProofs HealthProofs RegistryProofs TextProofs ReportProofs.
Import ListNotations.
Local Open Scope string_scope.

(** ** text made of lines *)
Lemma text_cons a l : text (a :: l) = a ++ text l.
Proof. unfold text. destruct l; [cbn; now rewrite app_nil_r'|reflexivity]. Qed.
Lemma lines_text L ls : Forall2 (fun l a => l = a ++ newline /\ free line_feed a = true) L ls -> lines_of (text L) = Some ls.
Proof. induction 1 as [|l a L ls (-> & F) _ IH]; [reflexivity|]. rewrite text_cons, app_assoc', lines_cons, IH by exact F. reflexivity. Qed.
Lemma forall2_choice {A B C} (P : A -> B -> Prop) (R : B -> C -> Prop) l m : Forall2 (fun a c => exists b, P a b /\ R b c) l m -> exists bs, Forall2 P l bs /\ Forall2 R bs m.
Proof. induction 1 as [|a c l m (b & H1 & H2) _ (bs & I1 & I2)]; [exists []; auto|]. exists (b :: bs). auto. Qed.
Lemma forall2_flat {A B C} (R : B -> C -> Prop) (f : A -> list C) l outs : Forall2 (fun a o => Forall2 R o (f a)) l outs -> Forall2 R (List.concat outs) (flat_map f l).
Proof. induction 1; cbn; [constructor|]. apply Forall2_app; auto. Qed.
Lemma forall2_map {A B C D} (f : A -> B) (g : C -> D) (R : B -> D -> Prop) l m : Forall2 (fun a c => R (f a) (g c)) l m -> Forall2 R (map f l) (map g m).
Proof. induction 1; cbn; constructor; auto. Qed.

(** ** keys, hosts *)
Lemma split_some c s : exists p ps, split c s = p :: ps.
Proof. destruct (split c s) as [|p ps] eqn:E; [now apply split_nonempty in E|eauto]. Qed.
Lemma concat_one a l : String.concat "" (a :: l) = a ++ String.concat "" l.
Proof. destruct l; cbn; [now rewrite app_nil_r'|reflexivity]. Qed.
Lemma drop_point_spec s : (List.length (split "."%char s) <= 2)%nat -> drop_point s = without_point s.
Proof.
  unfold without_point. induction s as [|c s IH]; intros H; [reflexivity|]. cbn [drop_point split] in *. destruct (Ascii.eqb c "."%char).
  - destruct (split_some "."%char s) as (p & [|q ps] & E); rewrite E in *; [|cbn in H; lia]. rewrite concat_one. cbn [append]. clear IH H.
    revert p E. induction s as [|d s IH]; intros p E; [injection E as <-; reflexivity|]. cbn [split] in E. destruct (Ascii.eqb d "."%char); [destruct (split_some "."%char s) as (x & y & Es); rewrite Es in E; discriminate|].
    destruct (split_some "."%char s) as (x & y & Es). rewrite Es in *. injection E as <- ->. cbn [String.concat]. now rewrite (IH _ eq_refl).
  - destruct (split_some "."%char s) as (p & ps & E). rewrite E in *. rewrite concat_one in *. cbn [append]. rewrite <- IH; [reflexivity|exact H].
Qed.
Lemma before_dot_spec s : before_dot s = match split "."%char s with a :: _ :: _ => Some a | _ => None end.
Proof.
  induction s as [|c s IH]; [reflexivity|]. cbn [before_dot split]. destruct (split_some "."%char s) as (p & ps & E). rewrite E in *. destruct (Ascii.eqb c "."%char); [reflexivity|].
  rewrite IH. destruct ps; reflexivity.
Qed.
Lemma split_one c s a : split c s = [a] -> s = a.
Proof.
  revert a. induction s as [|d s IH]; intros a E; [injection E as <-; reflexivity|]. cbn [split] in E. destruct (split_some c s) as (p & ps & Es). rewrite Es in *.
  destruct (Ascii.eqb d c); [discriminate|]. injection E as <- ->. now rewrite (IH _ eq_refl).
Qed.
Lemma short_hostname_spec s : short_hostname s = first_label s.
Proof.
  unfold short_hostname, first_label. rewrite before_dot_spec. destruct (split_some "."%char s) as (p & [|q ps] & E); rewrite E; [|destruct p; reflexivity].
  rewrite (split_one _ _ _ E). destruct p; reflexivity.
Qed.
Lemma free_split c d s : free c s = true -> Forall (fun p => free c p = true) (split d s).
Proof.
  induction s as [|a s IH]; intros H; cbn [split]; [auto|]. cbn [free] in H. apply andb_true_iff in H. destruct H as [H1 H2]. specialize (IH H2).
  destruct (Ascii.eqb a d); [constructor; auto|]. destruct (split_some d s) as (p & ps & E). rewrite E in *. inversion IH; subst. constructor; auto. cbn [free]. now rewrite H1.
Qed.
Lemma free_concat c l : Forall (fun p => free c p = true) l -> free c (String.concat "" l) = true.
Proof. induction 1 as [|a l H _ IH]; [reflexivity|]. now rewrite concat_one, free_app, H. Qed.
Lemma clean_key s : clean s = true -> clean (without_point s) = true.
Proof. intros H. apply clean_free in H. destruct H. unfold clean. apply andb_true_iff. split; apply free_concat, free_split; auto. Qed.
Lemma clean_label s : clean s = true -> clean (first_label s) = true.
Proof.
  intros H. unfold first_label. destruct (split_some "."%char s) as (p & ps & E). pose proof (clean_free _ H) as [H1 H2]. apply (free_split _ "."%char) in H1, H2. rewrite E in *. inversion H1; inversion H2; subst.
  destruct p; [exact H|]. unfold clean. apply andb_true_iff. auto.
Qed.

(** ** numbers *)
Lemma unit_back u : (Z.abs u <= 2 ^ 53)%Z -> int_of_f (f_of_int u) = u.
Proof.
  intros H. rewrite int_of_f_correct; rewrite ?f_of_int_exact by exact H.
  - apply Ztrunc_IZR.
  - apply f_of_int_finite. assert (2 ^ 53 <= 2 ^ 1000)%Z by (apply Z.pow_le_mono_r; lia). lia.
  - rewrite <- abs_IZR. apply IZR_le. assert (2 ^ 53 <= 2 ^ 62)%Z by (apply Z.pow_le_mono_r; lia). lia.
Qed.
Lemma go_div_ok n u m : (Z.abs u <= 2 ^ 53)%Z -> go_div n (int_of_f (f_of_int u)) = Ok m -> parse_int (fmt_d m) = Some (wrap64 (Z.quot n u)).
Proof. intros H E. rewrite unit_back in E by exact H. unfold go_div in E. destruct (Z.eqb u 0); [discriminate|]. injection E as <-. apply parse_fmt_d. Qed.
Lemma clean_num n : clean (fmt_num n) = true.
Proof. destruct n; [apply clean_fmt_d|apply clean_fmt_f]. Qed.

(** ** the fields of a reading *)
Definition agrees (u : Z) (Q : op -> rv -> Prop) (g : string * num) (f : field) : Prop :=
  fst g = fst (fst f) /\ clean (fst g) = true /\ exists a, Q (snd (fst f)) a /\ prints u (snd f) a (fmt_num (snd g)).
Lemma agrees_z u (Q : op -> rv -> Prop) s c n : Q c (RZ n) -> clean s = true -> agrees u Q (s, NInt n) (s, c, Whole).
Proof. intros H C. repeat split; auto. exists (RZ n). split; auto. apply parse_fmt_d. Qed.
Lemma agrees_f u (Q : op -> rv -> Prop) s c k x : Q c (RF x) -> clean s = true -> agrees u Q (s, NFix k x) (s, c, Fixed k).
Proof. intros H C. repeat split; auto. exists (RF x). split; auto. apply shows_fmt_f. Qed.
Lemma agrees_zp u (Q : op -> rv -> Prop) s c n m : Q c (RZ n) -> clean s = true -> (Z.abs u <= 2 ^ 53)%Z -> go_div n (int_of_f (f_of_int u)) = Ok m -> agrees u Q (s, NInt m) (s, c, WholePer).
Proof. intros H C U E. repeat split; auto. exists (RZ n). split; auto. eapply go_div_ok; eauto. Qed.
Lemma agrees_fp u (Q : op -> rv -> Prop) s c k x : Q c (RF x) -> clean s = true -> agrees u Q (s, NFix k (fdiv x (f_of_int u))) (s, c, FixedPer k).
Proof. intros H C. repeat split; auto. exists (RF x). split; auto. apply shows_fmt_f. Qed.
Ltac agree := first [apply agrees_z | apply agrees_f | eapply agrees_zp | apply agrees_fp]; solve [eauto].

Section Graphite.
Variable ff : f64 -> string.
Hypothesis ff_clean : forall x, clean (ff x) = true.
Hypothesis ff_point : forall x, (List.length (split "."%char (ff x)) <= 2)%nat.
Lemma key_spec p : percentile_key ff p = key_of ff p.
Proof. unfold percentile_key, key_of. apply drop_point_spec, ff_point. Qed.
Lemma percentiles_agree u (Q : op -> rv -> Prop) x ps q : Forall2 (fun p s => Q (OPercentile x p) (RF s)) ps q ->
  Forall2 (agrees u Q) (percentile_fields ff ps q) (map (fun p => (key_of ff p ++ "-percentile", OPercentile x p, Fixed 2)) ps).
Proof.
  induction 1 as [|p s ps q H _ IH]; cbn [percentile_fields map]; constructor; auto. rewrite key_spec. apply agrees_f; auto. rewrite clean_app. apply andb_true_iff. split; [|reflexivity]. apply clean_key, ff_clean.
Qed.
Lemma graphite_agree u (Q : op -> rv -> Prop) x ps rd fs : (Z.abs u <= 2 ^ 53)%Z -> answered Q x ps rd -> graphite_fields ff u ps rd = Ok fs ->
  Forall2 (agrees u Q) fs (graphite_table x (key_of ff) ps (kind_rd rd)).
Proof.
  intros U A E. destruct rd; cbn [graphite_fields graphite_table scalar_table kind_rd answered] in *.
  - injection E as <-. constructor; [agree|constructor].
  - injection E as <-. constructor; [agree|constructor].
  - injection E as <-. constructor; [agree|constructor].
  - injection E as <-. constructor.
  - injection E as <-. destruct A as (A1 & A2 & A3 & A4 & A5 & A6). unfold summary. cbn [app]. do 5 (constructor; [agree|]). now apply percentiles_agree.
  - injection E as <-. destruct A as (A1 & A2 & A3 & A4 & A5). unfold rate_table. do 5 (constructor; [agree|]). constructor.
  - destruct A as ((A1 & A2 & A3 & A4 & A5 & A6) & R1 & R2 & R3 & R4).
    destruct (go_div mn _) as [a|] eqn:E1; [|discriminate]. destruct (go_div mx _) as [b|] eqn:E2; [|discriminate]. cbn [res_bind] in E. injection E as <-. unfold summary. cbn [app].
    do 5 (constructor; [agree|]). apply Forall2_app; [now apply percentiles_agree|]. unfold rate_table. do 4 (constructor; [agree|]). constructor.
Qed.
End Graphite.
Lemma five_scores (P : f64 -> f64 -> Prop) q : Forall2 P ps5 q -> exists a b c d e, q = [a; b; c; d; e] /\ P (ratio 1 2) a /\ P (ratio 3 4) b /\ P (ratio 95 100) c /\ P (ratio 99 100) d /\ P (ratio 999 1000) e.
Proof.
  intros H. unfold ps5 in H. inversion H as [|? a ? q1 Pa H1]; subst. inversion H1 as [|? b ? q2 Pb H2]; subst. inversion H2 as [|? c ? q3 Pc H3]; subst.
  inversion H3 as [|? d ? q4 Pd H4]; subst. inversion H4 as [|? e ? q5 Pe H5]; subst. inversion H5; subst. exists a, b, c, d, e. auto 8.
Qed.
Lemma opentsdb_agree u (Q : op -> rv -> Prop) x rd fs : (Z.abs u <= 2 ^ 53)%Z -> answered Q x ps5 rd -> opentsdb_fields u rd = Ok fs ->
  Forall2 (agrees u Q) fs (opentsdb_table x (kind_rd rd)).
Proof.
  intros U A E. destruct rd; cbn [opentsdb_fields opentsdb_table scalar_table kind_rd answered] in *.
  - injection E as <-. constructor; [agree|constructor].
  - injection E as <-. constructor; [agree|constructor].
  - injection E as <-. constructor; [agree|constructor].
  - injection E as <-. constructor.
  - injection E as <-. destruct A as (A1 & A2 & A3 & A4 & A5 & A6). apply five_scores in A6. destruct A6 as (a & b & c & d & e & -> & P1 & P2 & P3 & P4 & P5). unfold summary, five. cbn [app nth_f nth].
    do 10 (constructor; [agree|]). constructor.
  - injection E as <-. destruct A as (A1 & A2 & A3 & A4 & A5). unfold rate_table. do 5 (constructor; [agree|]). constructor.
  - destruct A as ((A1 & A2 & A3 & A4 & A5 & A6) & R1 & R2 & R3 & R4). apply five_scores in A6. destruct A6 as (a0 & b0 & c & d & e & -> & P1 & P2 & P3 & P4 & P5).
    destruct (go_div mn _) as [a|] eqn:E1; [|discriminate]. destruct (go_div mx _) as [b|] eqn:E2; [|discriminate]. cbn [res_bind] in E. injection E as <-. unfold summary, five, rate_table. cbn [app nth_f nth].
    do 14 (constructor; [agree|]). constructor.
Qed.

(** ** the report as lines *)
Lemma told_lines mexp (st : state) o ps v at_ u (render : reading -> res (list (string * num))) (line : string -> string * num -> string) (table : nat -> class -> list field)
  (S : string -> string * field -> Prop) names outs :
  (forall x, table x CHealth = []) ->
  (forall (Q : op -> rv -> Prop) x rd fs, answered Q x ps rd -> render rd = Ok fs -> Forall2 (agrees u Q) fs (table x (kind_rd rd))) ->
  (forall nm i g f, shown st v nm = Some i -> agrees u (fun c a => answer mexp st o ps (at_ nm) c = Some (Ok a)) g f ->
     exists a, (line nm g = a ++ newline /\ free line_feed a = true) /\ S a (nm, f)) ->
  Forall2 (told mexp st o ps false (fun name d => res_bind (render d) (fun fs => Ok (map (line name) fs))) v at_) names outs ->
  exists ls, lines_of (text (List.concat outs)) = Some ls /\ Forall2 S ls (fields st v at_ table names).
Proof.
  intros TH A L T. assert (F : Forall2 (fun l nf => exists a, (l = a ++ newline /\ free line_feed a = true) /\ S a nf) (List.concat outs) (fields st v at_ table names)).
  { unfold fields. apply forall2_flat. eapply forall2_impl; [|exact T]. cbv beta. intros nm a (i & Si & Mt & H). rewrite Si. destruct (class_eqb (cls i) CHealth) eqn:Ch.
    - subst a. assert (C : cls i = CHealth) by (destruct (cls i); try discriminate Ch; reflexivity). rewrite C, TH. constructor.
    - destruct H as (rd & K & An & E). destruct (render rd) as [fs|] eqn:Er; [|discriminate]. cbn [res_bind] in E. injection E as <-. rewrite <- K.
      apply forall2_map. eapply forall2_impl; [|exact (A _ _ _ _ An Er)]. cbv beta. intros g f Ag. eapply L; eauto. }
  apply forall2_choice in F. destruct F as (ls & F1 & F2). exists ls. split; [now apply lines_text|exact F2].
Qed.
Lemma split_words a b : free space a = true -> split space (a ++ " " ++ b) = a :: split space b.
Proof. exact (split_app space a b). Qed.
Lemma clean_path prefix nm f : clean prefix = true -> clean nm = true -> clean f = true -> clean (prefix ++ "." ++ nm ++ "." ++ f) = true.
Proof. intros A B C. rewrite !clean_app, A, B, C. reflexivity. Qed.
