(** Delivery of reports: what reaches a connection that may fail. *)
From Coq Require Import ZArith List String Bool Lia Arith.
From Verif.Model Require Import GoInt GoFloat GoBase World Fmt Report Send.
From Verif.Spec Require Import SendSpec.
From Verif.Proofs Require Import TextProofs HealthProofs.
Import ListNotations.
Local Open Scope string_scope.
Local Open Scope nat_scope.

Local Opaque buf_size.
Lemma take_drop n s : take n s ++ drop n s = s.
Proof. revert n. induction s as [|c s IH]; destruct n; cbn; auto. now rewrite IH. Qed.
Lemma drop_length n s : String.length (drop n s) = String.length s - n.
Proof. revert n. induction s as [|c s IH]; destruct n; cbn; auto. Qed.
Lemma take_all s : take (String.length s) s = s.
Proof. induction s as [|c s IH]; cbn; auto. now rewrite IH. Qed.
Lemma drop_all s : drop (String.length s) s = "".
Proof. induction s as [|c s IH]; cbn; auto. Qed.
Lemma length_app s t : String.length (s ++ t) = String.length s + String.length t.
Proof. induction s as [|c s IH]; cbn; auto. Qed.
Lemma length0 s : String.length s = 0 -> s = "". Proof. destruct s; [auto|discriminate]. Qed.

Lemma prefix_refl s : prefix_of s s. Proof. exists "". now rewrite app_nil_r'. Qed.
Lemma prefix_trans a b c : prefix_of a b -> prefix_of b c -> prefix_of a c.
Proof. intros [r ->] [q ->]. exists (r ++ q). now rewrite app_assoc'. Qed.
Lemma prefix_app a b : prefix_of a (a ++ b). Proof. now exists b. Qed.

(** ** one call *)
(** a connection whose calls so far all succeeded, or failed only at the last *)
Definition fine (c : conn) : Prop := Forall (fun x => snd x = false) (c_calls c).
Definition once (c : conn) : Prop := exists l x, c_calls c = (l ++ [x])%list /\ Forall (fun x => snd x = false) l.
Lemma conn_write_spec c p : let '(c', n, failed) := conn_write c p in
  c_calls c' = (c_calls c ++ [(p, failed)])%list /\ c_accepted c' = c_accepted c ++ take n p /\ n <= String.length p /\ (failed = false -> n = String.length p) /\
  (works (c_fate c) -> failed = false /\ works (c_fate c')).
Proof.
  unfold conn_write. destruct (c_fate c) as [|[k|] f] eqn:E; cbn [c_calls c_accepted c_fate List.tl].
  - rewrite take_all. repeat split; auto.
  - repeat split; auto; try lia; try discriminate; inversion H; discriminate.
  - rewrite take_all. repeat split; auto. now inversion H.
Qed.

(** the state [b] over any connection beside the state [p] over one that works *)
Definition beside (b p : bufw) : Prop :=
  b_err p = false /\ works (c_fate (b_conn p)) /\ String.length (b_buf p) <= buf_size /\
  (b_err b = false /\ b_buf b = b_buf p /\ c_accepted (b_conn b) = c_accepted (b_conn p) /\ fine (b_conn b) \/
   b_err b = true /\ prefix_of (c_accepted (b_conn b)) (c_accepted (b_conn p)) /\ once (b_conn b)).
(** over a working connection nothing is lost *)
Definition whole (p : bufw) : string := c_accepted (b_conn p) ++ b_buf p.
Definition sound (p : bufw) : Prop := b_err p = false /\ works (c_fate (b_conn p)) /\ String.length (b_buf p) <= buf_size.

Lemma flush_sound p : sound p -> sound (flush p) /\ whole (flush p) = whole p /\ b_buf (flush p) = "" /\ prefix_of (c_accepted (b_conn p)) (c_accepted (b_conn (flush p))).
Proof.
  intros (E & F & L). unfold flush. rewrite E. destruct (String.length (b_buf p) =? 0) eqn:Z.
  - apply Nat.eqb_eq, length0 in Z. repeat split; auto using prefix_refl.
  - pose proof (conn_write_spec (b_conn p) (b_buf p)) as S0. destruct (conn_write (b_conn p) (b_buf p)) as [[c n] failed]. destruct S0 as (Sc & Sa & Sn & Sf & Sp).
    destruct (Sp F) as (-> & Fc). specialize (Sf eq_refl). subst n. rewrite Nat.ltb_irrefl. cbn [orb]. rewrite take_all in Sa. unfold sound, whole. cbn [b_err b_buf b_conn]. rewrite Sa, app_nil_r'. repeat split; auto; cbn; auto using prefix_app. apply Nat.le_0_l.
Qed.
Lemma loop_sound k : forall p b, sound b -> let '(p', b') := write_loop k p b in
  sound b' /\ whole b' ++ p' = whole b ++ p /\ prefix_of (c_accepted (b_conn b)) (c_accepted (b_conn b')).
Proof.
  induction k as [|k IH]; intros p b S; cbn [write_loop]; [auto using prefix_refl|].
  destruct ((available b <? String.length p) && negb (b_err b)) eqn:C; [|auto using prefix_refl].
  destruct (String.length (b_buf b) =? 0) eqn:Z.
  - apply Nat.eqb_eq, length0 in Z. destruct S as (E & F & L). pose proof (conn_write_spec (b_conn b) p) as S0. destruct (conn_write (b_conn b) p) as [[c n] failed]. destruct S0 as (Sc & Sa & Sn & Sf & Sp).
    destruct (Sp F) as (-> & Fc). specialize (Sf eq_refl). subst n. rewrite take_all in Sa. specialize (IH (drop (String.length p) p) (MkBufw (b_buf b) false c)). destruct (write_loop k _ _) as [p' b']. destruct IH as (A & B & D).
    + repeat split; auto.
    + split; [auto|]. cbn [b_conn b_buf] in *. rewrite B. unfold whole. cbn [b_conn b_buf]. rewrite Z, Sa, drop_all, !app_nil_r'. split; auto. eapply prefix_trans; [|exact D]. rewrite Sa. apply prefix_app.
  - set (n := Nat.min (available b) (String.length p)). assert (S1 : sound (MkBufw (b_buf b ++ take n p) (b_err b) (b_conn b))).
    { destruct S as (E & F & L). repeat split; auto. cbn [b_buf]. rewrite length_app. assert (T : String.length (take n p) = n). { pose proof (f_equal String.length (take_drop n p)) as T. rewrite length_app, drop_length in T. unfold n in *. lia. } rewrite T. unfold n, available. lia. }
    destruct (flush_sound _ S1) as (S2 & W2 & B2 & P2). specialize (IH (drop n p) _ S2). destruct (write_loop k _ _) as [p' b']. destruct IH as (A & B & D). split; auto. rewrite B, W2. unfold whole. cbn [b_conn b_buf]. split; [now rewrite !app_assoc', take_drop|]. eapply prefix_trans; [exact P2|exact D].
Qed.
(** the loop ends because the rest fits or an error occurred *)
Lemma write_loop_done p b : String.length (b_buf b) <= buf_size -> let '(p', b') := write_loop 3 p b in String.length p' <= available b' \/ b_err b' = true.
Proof.
  intros L.
  assert (One : forall k p b, String.length (b_buf b) = 0 -> let '(p', b') := write_loop (S k) p b in String.length p' <= available b' \/ b_err b' = true).
  { intros k q a Z. cbn [write_loop]. destruct (available a <? String.length q) eqn:C; cbn [andb]; [|left; now apply Nat.ltb_ge].
    destruct (b_err a) eqn:E; cbn [negb]; [auto|]. rewrite Z. cbn [Nat.eqb]. pose proof (conn_write_spec (b_conn a) q) as S. destruct (conn_write (b_conn a) q) as [[c n] failed]. destruct S as (_ & _ & _ & Sf & _). destruct failed.
    - destruct k; cbn [write_loop]; [right; reflexivity|]. cbn [b_err negb]. rewrite andb_false_r. right. reflexivity.
    - rewrite (Sf eq_refl), drop_all. destruct k; cbn [write_loop]; [left; cbn; apply Nat.le_0_l|]. cbn [String.length Nat.ltb Nat.leb andb]. left. cbn; apply Nat.le_0_l. }
  destruct (String.length (b_buf b) =? 0) eqn:Z; [apply One; now apply Nat.eqb_eq|].
  change (write_loop 3 p b) with (if (available b <? String.length p) && negb (b_err b) then if String.length (b_buf b) =? 0 then let '(c, n, failed) := conn_write (b_conn b) p in write_loop 2 (drop n p) (MkBufw (b_buf b) failed c) else let n := Nat.min (available b) (String.length p) in write_loop 2 (drop n p) (flush (MkBufw (b_buf b ++ take n p) (b_err b) (b_conn b))) else (p, b)).
  destruct (available b <? String.length p) eqn:C; cbn [andb]; [|left; now apply Nat.ltb_ge]. destruct (b_err b) eqn:E; cbn [negb]; [auto|]. rewrite Z. cbn zeta. set (n := Nat.min (available b) (String.length p)).
  destruct (b_err (flush (MkBufw (b_buf b ++ take n p) false (b_conn b)))) eqn:E2.
  - cbn [write_loop]. rewrite E2. cbn [negb]. rewrite andb_false_r. auto.
  - apply One. unfold flush in *. cbn [b_err b_buf b_conn] in *. destruct (String.length (b_buf b ++ take n p) =? 0) eqn:Z2; [now apply Nat.eqb_eq|]. destruct (conn_write _ _) as [[c m] failed]. destruct (failed || _); [discriminate E2|reflexivity].
Qed.
Lemma write_sound p s : sound p -> sound (write p s) /\ whole (write p s) = whole p ++ s /\ prefix_of (c_accepted (b_conn p)) (c_accepted (b_conn (write p s))).
Proof.
  intros S. unfold write. pose proof (loop_sound 3 s p S) as H. pose proof (write_loop_done s p (proj2 (proj2 S))) as D. destruct (write_loop 3 s p) as [p' b']. destruct H as (S1 & W & P). destruct S1 as (E & F & L). rewrite E. destruct D as [D|D]; [|congruence].
  split; [|split; [|exact P]].
  - repeat split; auto. cbn [b_buf]. rewrite length_app. unfold available in D. lia.
  - rewrite <- W. unfold whole. cbn [b_buf b_conn]. now rewrite app_assoc'.
Qed.

(** ** beside *)
Lemma beside_sound b p : beside b p -> sound p. Proof. intros (A & B & C & _). repeat split; auto. Qed.
Lemma fine_app c c' x : fine c -> c_calls c' = (c_calls c ++ [(x, false)])%list -> fine c'.
Proof. unfold fine. intros F ->. apply Forall_app. split; auto. Qed.
Lemma once_app c c' x : fine c -> c_calls c' = (c_calls c ++ [x])%list -> once c'.
Proof. intros F E. exists (c_calls c), x. auto. Qed.
Lemma broken b p p' : b_err b = true -> beside b p -> sound p' -> prefix_of (c_accepted (b_conn p)) (c_accepted (b_conn p')) -> beside b p'.
Proof.
  intros E (_ & _ & _ & [(Z & _)|(_ & P & O)]) (A & B & C) Q; [congruence|]. repeat split; auto. right. repeat split; auto. eapply prefix_trans; eauto.
Qed.
Lemma flush_beside b p : beside b p -> beside (flush b) (flush p).
Proof.
  intros H. pose proof (beside_sound _ _ H) as S. destruct (flush_sound p S) as (S' & _ & _ & P'). destruct (b_err b) eqn:E.
  - unfold flush at 1. rewrite E. eapply broken; eauto.
  - destruct H as (_ & _ & _ & [(_ & Bu & Ac & Fi)|(Z & _)]); [|congruence]. destruct S as (Ep & Fp & Lp). unfold flush in *. rewrite E, Ep in *. rewrite Bu. destruct (String.length (b_buf p) =? 0) eqn:Z.
    + repeat split; auto.
    + pose proof (conn_write_spec (b_conn b) (b_buf p)) as Sb. pose proof (conn_write_spec (b_conn p) (b_buf p)) as Sp. destruct (conn_write (b_conn b) (b_buf p)) as [[c n] failed]. destruct (conn_write (b_conn p) (b_buf p)) as [[c' n'] failed'].
      destruct Sb as (Bc & Ba & Bn & Bf & _), Sp as (Pc & Pa & Pn & Pf & Pp). destruct (Pp Fp) as (-> & Fc). rewrite (Pf eq_refl) in *. rewrite Nat.ltb_irrefl in *. cbn [orb] in *. rewrite take_all in Pa. destruct S' as (S1 & S2 & S3). unfold beside. repeat split; auto. destruct failed; cbn [orb].
      * right. cbn [b_err b_conn]. rewrite Ba, Ac, Pa. split; [reflexivity|]. split; [|eapply once_app; eauto]. exists (drop n (b_buf p)). now rewrite app_assoc', take_drop.
      * rewrite (Bf eq_refl), Nat.ltb_irrefl. left. cbn [b_err b_conn b_buf]. rewrite Ba, Pa, Ac, (Bf eq_refl), take_all. repeat split; auto. eapply fine_app; eauto.
Qed.
Lemma loop_err k s b : b_err b = true -> write_loop k s b = (s, b).
Proof. intros E. destruct k; cbn [write_loop]; [reflexivity|]. rewrite E. cbn [negb]. now rewrite andb_false_r. Qed.
Lemma loop_beside k : forall s b p, beside b p -> let '(s1, b1) := write_loop k s b in let '(s2, p2) := write_loop k s p in beside b1 p2 /\ (b_err b1 = false -> s1 = s2).
Proof.
  induction k as [|k IH]; intros s b p H; [cbn; auto|]. destruct (b_err b) eqn:E.
  - pose proof (beside_sound _ _ H) as Sp. pose proof (loop_sound (S k) s p Sp) as L. rewrite (loop_err (S k) s b E). destruct (write_loop (S k) s p) as [s2 p2]. destruct L as (S2 & _ & P2). split; [eapply broken; eauto|congruence].
  - pose proof H as H0. destruct H0 as (Ep & Fp & Lp & [(_ & Bu & Ac & Fi)|(Z & _)]); [|congruence]. cbn [write_loop]. assert (Av : available b = available p) by (unfold available; now rewrite Bu). rewrite E, Ep, Av, Bu. destruct ((available p <? String.length s) && negb false); [|auto].
    destruct (String.length (b_buf p) =? 0) eqn:Z.
    + pose proof (conn_write_spec (b_conn b) s) as Sb. pose proof (conn_write_spec (b_conn p) s) as Sp. destruct (conn_write (b_conn b) s) as [[c n] failed]. destruct (conn_write (b_conn p) s) as [[c' n'] failed'].
      destruct Sb as (Bc & Ba & Bn & Bf & _), Sp as (Pc & Pa & Pn & Pf & Pp). destruct (Pp Fp) as (-> & Fc). rewrite (Pf eq_refl) in *. rewrite take_all in Pa. destruct failed.
      * assert (S1 : sound (MkBufw (b_buf p) false c')) by (repeat split; auto). pose proof (loop_sound k (drop (String.length s) s) _ S1) as L. destruct (write_loop k (drop (String.length s) s) _) as [s2 p2]. destruct L as ((S2 & S3 & S4) & _ & P2).
        rewrite (loop_err k (drop n s) (MkBufw (b_buf p) true c) eq_refl). split; [|discriminate]. repeat split; auto. right. cbn [b_err b_conn] in *. split; [reflexivity|]. split; [|eapply once_app; eauto]. eapply prefix_trans; [|exact P2]. rewrite Ba, Pa, Ac. exists (drop n s). now rewrite app_assoc', take_drop.
      * rewrite (Bf eq_refl). apply IH. repeat split; auto. left. cbn [b_err b_buf b_conn]. rewrite Ba, (Bf eq_refl), take_all, Pa, Ac. repeat split; auto. eapply fine_app; eauto.
    + apply IH. apply flush_beside. split; [auto|]. split; [auto|]. cbn [b_buf b_err b_conn]. split; [|left; auto]. rewrite length_app. set (n := Nat.min (available p) (String.length s)). assert (T : String.length (take n s) = n). { pose proof (f_equal String.length (take_drop n s)) as T. rewrite length_app, drop_length in T. unfold n in *. lia. } rewrite T. unfold n, available. lia.
Qed.
Lemma write_beside b p s : beside b p -> beside (write b s) (write p s).
Proof.
  intros H. pose proof (beside_sound _ _ H) as S. destruct (write_sound p s S) as (S' & _ & _). unfold write in *. pose proof (loop_beside 3 s b p H) as L. destruct (write_loop 3 s b) as [s1 b1], (write_loop 3 s p) as [s2 p2]. destruct L as ((Ep & Fp & Lp & L) & Q). rewrite Ep in *. destruct S' as (S1 & S2 & S3). destruct L as [(E & Bu & Ac & Fi)|(E & P & O)]; rewrite E.
  - rewrite (Q E), Bu. repeat split; auto.
  - repeat split; auto.
Qed.
Lemma writes_beside ls : forall b p, beside b p -> beside (fold_left write ls b) (fold_left write ls p).
Proof. induction ls as [|s ls IH]; cbn [fold_left]; auto using write_beside. Qed.
Lemma text_cons s ls : text (s :: ls) = s ++ text ls.
Proof. unfold text. destruct ls; cbn [String.concat]; [now rewrite app_nil_r'|reflexivity]. Qed.
Lemma text_app a b : text (a ++ b)%list = text a ++ text b.
Proof. induction a as [|s a IH]; [reflexivity|]. cbn [app]. now rewrite !text_cons, IH, app_assoc'. Qed.
Lemma writes_sound ls : forall p, sound p -> sound (fold_left write ls p) /\ whole (fold_left write ls p) = whole p ++ text ls /\ prefix_of (c_accepted (b_conn p)) (c_accepted (b_conn (fold_left write ls p))).
Proof.
  induction ls as [|s ls IH]; intros p S; cbn [fold_left]; [rewrite app_nil_r'; auto using prefix_refl|]. destruct (write_sound p s S) as (S1 & W & P). destruct (IH _ S1) as (S2 & W2 & P2). split; [auto|]. rewrite W2, W. split; [|eapply prefix_trans; eauto].
  now rewrite app_assoc', text_cons.
Qed.

(** ** a report *)
Lemma send_beside ps render es o : forall w b p, beside b p ->
  let '(w1, b1, r1) := send_each ps render es o w b in let '(w2, p2, r2) := send_each ps render es o w p in w1 = w2 /\ r1 = r2 /\ beside b1 p2.
Proof.
  induction es as [|[nm v] es IH]; intros w b p H; cbn [send_each]; [auto|]. destruct (read_metric false ps v o w) as [w1 [[d|]|m]]; [|apply IH; now apply flush_beside|auto].
  destruct (render nm d) as [ls [[]|m]]; [apply IH, flush_beside, writes_beside; auto|]. auto using writes_beside.
Qed.
Definition rendered {A B} (render : A -> B -> list string * res unit) (a : A) (b : B) : res (list string) :=
  match render a b with (ls, Ok _) => Ok ls | (_, Panic m) => Panic m end.
Lemma send_sound ps render es o : forall w p, sound p -> b_buf p = "" ->
  match report_each false ps (rendered render) es o w with
  | (w', Ok ls) => exists p', send_each ps render es o w p = (w', p', Ok tt) /\ sound p' /\ b_buf p' = "" /\ c_accepted (b_conn p') = c_accepted (b_conn p) ++ text ls
  | (w', Panic m) => exists p', send_each ps render es o w p = (w', p', Panic m)
  end.
Proof.
  induction es as [|[nm v] es IH]; intros w p S B; cbn [send_each report_each].
  - exists p. unfold text. cbn. rewrite app_nil_r'. auto.
  - unfold bind at 1. destruct (read_metric false ps v o w) as [w1 [[d|]|m]]; [| |eauto].
    + unfold bind at 1, lift, rendered. destruct (render nm d) as [ls [[]|m]]; [|eauto].
      destruct (writes_sound ls p S) as (S1 & W1 & P1). destruct (flush_sound _ S1) as (S2 & W2 & B2 & _). specialize (IH w1 _ S2 B2). fold (rendered render) in *. unfold bind, ret. destruct (report_each false ps (rendered render) es o w1) as [w2 [rest|m]]; [|exact IH].
      destruct IH as (p' & E & S' & B' & A'). exists p'. repeat split; auto; try apply S'. rewrite A'. unfold whole in *. rewrite B in W1. rewrite B2 in W2. rewrite app_nil_r' in W1. rewrite app_nil_r' in W2. rewrite W2, W1, app_assoc'. f_equal.
      now rewrite text_app.
    + unfold bind at 1, ret at 1. destruct (flush_sound p S) as (S2 & W2 & B2 & _). specialize (IH w1 _ S2 B2). unfold bind, ret. destruct (report_each false ps (rendered render) es o w1) as [w2 [rest|m]]; [|exact IH].
      destruct IH as (p' & E & S' & B' & A'). exists p'. repeat split; auto; try apply S'. rewrite A'. unfold whole in W2. rewrite B, B2, !app_nil_r' in W2. now rewrite W2.
Qed.

Lemma report_each_ext {A} runs ps (f g : string -> reading -> res (list A)) es : (forall nm d, f nm d = g nm d) -> forall o w, report_each runs ps f es o w = report_each runs ps g es o w.
Proof.
  intros H. induction es as [|[nm v] es IH]; intros o w; cbn [report_each]; [reflexivity|]. unfold bind at 1. unfold bind at 3. destruct (read_metric runs ps v o w) as [w1 [[d|]|m]]; [| |reflexivity].
  - rewrite H. unfold bind. destruct (lift (g nm d) o w1) as [w2 [l|m]]; [|reflexivity]. now rewrite IH.
  - unfold bind, ret. now rewrite IH.
Qed.
Lemma new_sound f : works f -> sound (new_writer (MkConn "" [] f)).
Proof. intros H. split; [reflexivity|]. split; [exact H|]. cbn [b_buf new_writer String.length]. apply Nat.le_0_l. Qed.
Lemma new_beside f : beside (new_writer (MkConn "" [] f)) (new_writer (MkConn "" [] [])).
Proof. destruct (new_sound [] (Forall_nil _)) as (A & B & C). repeat split; auto. left. repeat split; auto. constructor. Qed.
(** a report over any connection beside one over a working connection *)
Lemma send_any ps render v f o w : let r := send ps render v true f o w in let r0 := send ps render v true [] o w in
  s_world r = s_world r0 /\ s_err r = s_err r0 /\ prefix_of (received r) (received r0) /\ stops_at_failure (calls r).
Proof.
  unfold send. cbn [negb]. destruct (reg_each v o w) as [w1 [es|m]].
  - pose proof (send_beside ps render es o w1 _ _ (new_beside f)) as H. destruct (send_each ps render es o w1 (new_writer (MkConn "" [] f))) as [[w2 b] e]. destruct (send_each ps render es o w1 (new_writer (MkConn "" [] []))) as [[w3 p] e']. destruct H as (<- & <- & B).
    unfold received, calls. cbn [s_world s_err s_conn]. repeat split; auto.
    + destruct B as (_ & _ & _ & [(_ & _ & E & _)|(_ & P & _)]); [rewrite E; apply prefix_refl|exact P].
    + intros i s E. destruct B as (_ & _ & _ & [(_ & _ & _ & F)|(_ & _ & (l & x & C & F))]).
      * unfold fine in F. rewrite Forall_forall in F. apply nth_error_In in E. apply F in E. discriminate E.
      * rewrite C in *. rewrite app_length. cbn. destruct (Nat.lt_ge_cases i (List.length l)) as [L|L].
        -- rewrite nth_error_app1 in E by exact L. rewrite Forall_forall in F. apply nth_error_In in E. apply F in E. discriminate E.
        -- assert (i < List.length (l ++ [x])) by (apply nth_error_Some; congruence). rewrite app_length in *. cbn in *. lia.
  - unfold received, calls. cbn [s_world s_err s_conn c_accepted c_calls]. repeat split; auto using prefix_refl. intros [] s E; discriminate E.
Qed.
Lemma send_whole ps render g v f o w : works f -> (forall nm d, rendered render nm d = g nm d) ->
  match Report.report false ps g v o w with
  | (w', Ok ls) => let r := send ps render v true f o w in s_world r = w' /\ s_err r = Ok false /\ received r = text ls
  | (w', Panic m) => let r := send ps render v true f o w in s_world r = w' /\ s_err r = Panic m
  end.
Proof.
  intros F H. unfold Report.report, send. cbn [negb]. unfold bind. destruct (reg_each v o w) as [w1 [es|m]]; [|cbn; auto]. rewrite <- (report_each_ext false ps (rendered render) g es H).
  pose proof (send_sound ps render es o w1 _ (new_sound f F) eq_refl) as S. destruct (report_each false ps (rendered render) es o w1) as [w2 [ls|m]].
  - destruct S as (p' & -> & _ & _ & A). cbn zeta. unfold received. cbn [s_world s_err s_conn]. auto.
  - destruct S as (p' & ->). cbn. auto.
Qed.
(** what has arrived when it panics: every metric before is complete, and the lines of the one
    that fails are in the buffer, or were too long for it *)
Lemma write_empty p s : sound p -> b_buf p = "" -> c_accepted (b_conn (write p s)) = c_accepted (b_conn p) ++ (if buf_size <? String.length s then s else "").
Proof.
  intros (E & F & _) B. unfold write.
  change (write_loop 3 s p) with (if (available p <? String.length s) && negb (b_err p) then if String.length (b_buf p) =? 0 then let '(c, n, failed) := conn_write (b_conn p) s in write_loop 2 (drop n s) (MkBufw (b_buf p) failed c) else let n := Nat.min (available p) (String.length s) in write_loop 2 (drop n s) (flush (MkBufw (b_buf p ++ take n s) (b_err p) (b_conn p))) else (s, p)).
  rewrite E. unfold available. rewrite B. cbn [String.length Nat.eqb negb]. rewrite Nat.sub_0_r, andb_true_r. destruct (buf_size <? String.length s).
  - pose proof (conn_write_spec (b_conn p) s) as C. destruct (conn_write (b_conn p) s) as [[c n] failed]. destruct C as (_ & Ca & _ & Cf & Cp). destruct (Cp F) as (-> & _). specialize (Cf eq_refl). subst n. rewrite drop_all. rewrite take_all in Ca. cbn [write_loop]. cbn [String.length]. unfold available. cbn [b_buf b_err String.length]. cbn [Nat.ltb Nat.leb]. replace (buf_size - 0 <? 0) with false by (symmetry; apply Nat.ltb_ge; lia). cbn [andb b_err b_conn]. exact Ca.
  - rewrite E. cbn [b_conn]. now rewrite app_nil_r'.
Qed.
Lemma send_stops ps render es o m w' : forall w p, sound p -> b_buf p = "" -> report_each false ps (rendered render) es o w = (w', Panic m) ->
  exists es1 nm v es2 w1 ls p1 p', es = (es1 ++ (nm, v) :: es2)%list /\ report_each false ps (rendered render) es1 o w = (w1, Ok ls) /\
    send_each ps render es o w p = (w', p', Panic m) /\ sound p1 /\ b_buf p1 = "" /\ c_accepted (b_conn p1) = c_accepted (b_conn p) ++ text ls /\
    (read_metric false ps v o w1 = (w', Panic m) /\ p' = p1 \/
     exists d, read_metric false ps v o w1 = (w', Ok (Some d)) /\ snd (render nm d) = Panic m /\ p' = fold_left write (fst (render nm d)) p1).
Proof.
  induction es as [|[nm v] es IH]; intros w p S B H; cbn [send_each report_each] in *; [discriminate H|].
  assert (Z : c_accepted (b_conn p) ++ text [] = c_accepted (b_conn p)) by (unfold text; cbn; apply app_nil_r').
  unfold bind in H at 1. destruct (read_metric false ps v o w) as [w1 [[d|]|m']] eqn:R.
  - unfold bind in H at 1. unfold lift in H. unfold rendered in H at 1. destruct (render nm d) as [ls [[]|m']] eqn:D.
    + destruct (writes_sound ls p S) as (S1 & W1 & _). destruct (flush_sound _ S1) as (S2 & W2 & B2 & _). unfold bind in H.
      destruct (report_each false ps (rendered render) es o w1) as [w2 [rest|m']] eqn:E; [discriminate H|]. injection H as -> ->.
      destruct (IH w1 _ S2 B2 E) as (es1 & nm1 & v1 & es2 & w3 & ls1 & p1 & p' & -> & R1 & Se & S3 & B3 & A3 & L).
      exists ((nm, v) :: es1)%list, nm1, v1, es2, w3, (ls ++ ls1)%list, p1, p'. split; [reflexivity|]. split.
      { cbn [report_each]. unfold bind at 1. rewrite R. unfold bind at 1, lift. unfold rendered at 1. rewrite D. unfold bind. rewrite R1. reflexivity. }
      split; [exact Se|]. split; [exact S3|]. split; [exact B3|]. split; [|exact L]. rewrite A3. unfold whole in *. rewrite B in W1. rewrite B2 in W2. rewrite app_nil_r' in W1. rewrite app_nil_r' in W2. rewrite W2, W1, app_assoc', text_app. reflexivity.
    + injection H as -> ->. exists [], nm, v, es, w, [], p, (fold_left write ls p). split; [reflexivity|]. split; [reflexivity|]. split; [reflexivity|]. split; [exact S|]. split; [exact B|]. split; [now rewrite Z|]. right. exists d. rewrite D. auto.
  - destruct (flush_sound _ S) as (S2 & W2 & B2 & _). unfold bind, ret in H.
    destruct (report_each false ps (rendered render) es o w1) as [w2 [rest|m']] eqn:E; [discriminate H|]. injection H as -> ->.
    destruct (IH w1 _ S2 B2 E) as (es1 & nm1 & v1 & es2 & w3 & ls1 & p1 & p' & -> & R1 & Se & S3 & B3 & A3 & L).
    exists ((nm, v) :: es1)%list, nm1, v1, es2, w3, ls1, p1, p'. split; [reflexivity|]. split.
    { cbn [report_each]. unfold bind at 1. rewrite R. unfold bind, ret. rewrite R1. reflexivity. }
    split; [exact Se|]. split; [exact S3|]. split; [exact B3|]. split; [|exact L]. rewrite A3. unfold whole in W2. rewrite B, B2, !app_nil_r' in W2. now rewrite W2.
  - injection H as -> ->. exists [], nm, v, es, w, [], p, p. split; [reflexivity|]. split; [reflexivity|]. split; [reflexivity|]. split; [exact S|]. split; [exact B|]. split; [now rewrite Z|]. left. auto.
Qed.
(** ** Write *)
Lemma prints_calls ls : forall c, map fst (c_calls (fold_left print ls c)) = (map fst (c_calls c) ++ ls)%list /\ (works (c_fate c) -> works (c_fate (fold_left print ls c)) /\ c_accepted (fold_left print ls c) = c_accepted c ++ text ls).
Proof.
  induction ls as [|s ls IH]; intros c; cbn [fold_left].
  - rewrite app_nil_r. unfold text. cbn. rewrite app_nil_r'. auto.
  - destruct (IH (print c s)) as (A & B). unfold print in *. pose proof (conn_write_spec c s) as S. destruct (conn_write c s) as [[c' n] failed]. cbn [fst] in *. destruct S as (Sc & Sa & Sn & Sf & Sp). rewrite A, Sc, map_app, <- app_assoc. split; [reflexivity|].
    intros W. destruct (Sp W) as (-> & W'). destruct (B W') as (B1 & B2). split; auto. rewrite B2, Sa, (Sf eq_refl), take_all, text_cons, app_assoc'. reflexivity.
Qed.
Lemma print_each_spec et es o : forall w c,
  match report_each true ps5 (write_lines et) es o w with
  | (w', Ok ls) => exists c', print_each et es o w c = (w', c', Ok tt) /\ map fst (c_calls c') = (map fst (c_calls c) ++ ls)%list /\ (works (c_fate c) -> c_accepted c' = c_accepted c ++ text ls)
  | (w', Panic m) => exists c', print_each et es o w c = (w', c', Panic m)
  end.
Proof.
  induction es as [|[nm v] es IH]; intros w c; cbn [print_each report_each].
  - exists c. unfold text. cbn. rewrite app_nil_r', app_nil_r. auto.
  - unfold bind at 1. destruct (read_metric true ps5 v o w) as [w1 [[d|]|m]]; [| |eauto].
    + unfold bind at 1, lift. destruct (write_lines et nm d) as [ls|m]; [|eauto]. specialize (IH w1 (fold_left print ls c)). destruct (prints_calls ls c) as (A & B). unfold bind, ret. destruct (report_each true ps5 (write_lines et) es o w1) as [w2 [rest|m]]; [|exact IH].
      destruct IH as (c' & E & C & D). exists c'. split; auto. split; [now rewrite C, A, app_assoc|]. intros W. destruct (B W) as (W1 & W2). now rewrite (D W1), W2, text_app, app_assoc'.
    + unfold bind at 1, ret at 1. specialize (IH w1 c). unfold bind, ret. destruct (report_each true ps5 (write_lines et) es o w1) as [w2 [rest|m]]; exact IH.
Qed.
