(** What a live run of syncToExpvar does. *)
From Coq Require Import ZArith List String Bool Lia Permutation.
From Verif.Model Require Import GoInt GoFloat GoBase World Report Expvar.
From Verif.Spec Require Import ApiSpec RegistrySpec GetAllSpec ReportSpec ReadOnlySpec ExpvarSpec LiveExpSpec.
From Verif.Proofs Require Import WorldBase WorldStep GetAllProofs HealthProofs RegistryProofs ReportProofs LineProofs ExpvarProofs LiveProofs.
From Verif.Model Require Import Live LiveExp.
From Verif.Spec Require Import LiveSpec.
Import ListNotations.
Local Open Scope list_scope.

(** ** setting variables *)
Lemma publish_app l m e : publish (l ++ m) e = match publish l e with (e1, Done) => publish m e1 | r => r end.
Proof. revert e. induction l as [|[n z] l IH]; intros e; cbn [app publish]; [reflexivity|]. destruct (publish_one n z e) as [e1 []]; auto. Qed.
Lemma publish_one_done n z e e' : numeric z -> publish_one n z e = (e', Done) -> locked e' = false /\ forall k, vget e' k = if String.eqb k n then Some z else vget e k.
Proof.
  intros N H. destruct (locked e) eqn:L; [exfalso; destruct z; cbn in H; unfold get_int, get_float in H; rewrite ?L in H; try discriminate; contradiction|].
  destruct (fits e n z) eqn:F.
  - destruct (one_fits e n z N L F) as (e1 & E & L1 & K). rewrite E in H. injection H as <-. auto.
  - destruct (one_clashes e n z N L F) as (E & _). rewrite E in H. discriminate.
Qed.
Lemma publish_done l : forall e e', Forall (fun nz => numeric (snd nz)) l -> publish l e = (e', Done) ->
  forall k, published (pub e') k = match last_set k l with Some z => Some z | None => published (pub e) k end.
Proof.
  induction l as [|[n z] l IH]; intros e e' F H k; cbn [publish last_set] in *; [now injection H as <-|]. inversion F as [|? ? N Fr]; subst. cbn [snd] in N.
  destruct (publish_one n z e) as [e1 []] eqn:E; try discriminate. rewrite (IH e1 e' Fr H k). destruct (publish_one_done n z e e1 N E) as (_ & K). specialize (K k). unfold vget in K. rewrite K.
  destruct (last_set k l); auto. destruct (String.eqb k n); auto.
Qed.
Lemma publish_locked l : forall e e', Forall (fun nz => numeric (snd nz)) l -> publish l e = (e', Done) -> locked e' = locked e.
Proof.
  induction l as [|[n z] l IH]; intros e e' F H; cbn [publish] in *; [now injection H as <-|]. inversion F as [|? ? N Fr]; subst. cbn [snd] in N.
  destruct (locked e) eqn:L; [exfalso; destruct z; cbn in H; unfold get_int, get_float in H; rewrite ?L in H; try discriminate; contradiction|].
  destruct (publish_one n z e) as [e1 []] eqn:E; try discriminate. rewrite (IH e1 e' Fr H). apply (publish_one_done n z e e1 N E).
Qed.

(** ** the request as a report *)
Section Request.
Variable mexp : f64 -> f64.
Definition exp_visit (name : string) (x : nat) : L (list (string * evar)) :=
  lbind (live_read mexp false ps5 x) (fun d => match d with Some d => lret (exp_vars name d) | None => lres (Panic msg_unsupported) end).
Ltac peel H a g ss st1 H1 := let T := fresh in pose proof (ends_bind _ _ _ _ _ _ _ _ H) as T; clear H; destruct T as (a & ss & g & st1 & ? & H1 & H & ->); cbv beta zeta in H.
Lemma ends_join {A B} (m : L A) (f : A -> L B) g st a ss1 g1 st1 b ss2 g' st' : ends m g st a ss1 g1 st1 -> ends (f a) g1 st1 b ss2 g' st' -> ends (lbind m f) g st b (ss1 ++ ss2) g' st'.
Proof. unfold ends, lbind. intros -> H. cbn. rewrite H. reflexivity. Qed.
Lemma sync_visits es : forall e e' g st ss g' st', ends (live_sync_each mexp es e) g st (e', Done) ss g' st' ->
  exists out, ends (live_each exp_visit es) g st out ss g' st' /\ publish out e = (e', Done).
Proof.
  induction es as [|[name x] es IH]; intros e e' g st ss g' st' H; cbn [live_sync_each live_each] in *.
  - destruct (ends_ret _ _ _ _ _ _ _ H) as (E & -> & -> & ->). injection E as ->. exists []. split; reflexivity.
  - peel H d g1 ss1 st1 H1. destruct d as [d|].
    + destruct (publish (exp_vars name d) e) as [e1 oc] eqn:P. destruct oc.
      * destruct (IH _ _ _ _ _ _ _ H) as (out & E & Q). exists (exp_vars name d ++ out). split; [|rewrite publish_app, P; exact Q].
        eapply ends_join.
        -- rewrite <- (app_nil_r ss1). unfold exp_visit. eapply ends_join; [exact H1|reflexivity].
        -- rewrite <- (app_nil_r x0). eapply ends_join; [exact E|reflexivity].
      * destruct (ends_ret _ _ _ _ _ _ _ H) as (E & _). discriminate E.
      * destruct (ends_ret _ _ _ _ _ _ _ H) as (E & _). discriminate E.
    + destruct (ends_ret _ _ _ _ _ _ _ H) as (E & _). discriminate E.
Qed.
Lemma sync_visit r e e' g st ss g' st' : ends (live_sync mexp r e) g st (e', Done) ss g' st' ->
  exists out, ends (live_visit mexp exp_visit as_it_is r) g st out ss g' st' /\ publish out e = (e', Done).
Proof.
  intros H. unfold live_sync in H. peel H es g1 ss1 st1 H1. destruct (sync_visits _ _ _ _ _ _ _ _ H) as (out & E & Q). exists out. split; [|exact Q]. unfold live_visit. eapply ends_join; [exact H1|exact E].
Qed.
Lemma exp_visiting : visiting mexp exp_visit (copied mexp).
Proof.
  split.
  - exists false. intros nm x. apply weaves_bind; [apply weaves_read|]. intros [d|]; [apply weaves_ret|apply weaves_res].
  - intros nm x i g st out ss g' st' F C Ex Mt H. unfold exp_visit in H. peel H d g1 ss1 st1 H1. pose proof (live_reading _ _ _ _ _ _ _ _ _ _ _ F C Ex Mt H1) as R. cbn [negb] in R. rewrite andb_true_r in R. destruct (class_eqb (cls i) CHealth) eqn:Ch.
    + destruct R as (-> & _). destruct (ends_res _ _ _ _ _ _ _ H) as (E & _). discriminate E.
    + destruct R as (rd & -> & (Ab & Fd)). destruct (ends_ret _ _ _ _ _ _ _ H) as (-> & -> & _). rewrite app_nil_r. split; [intros K; rewrite K in Ch; discriminate Ch|].
      assert (Fd' : exists y s o, In s ss1 /\ nth_error (snd s) y = Some i /\ tells (fun c a => answer mexp s o ps5 y c = Some (Ok a)) y ps5 rd) by (destruct (cls i); try discriminate Ch; exact Fd).
      destruct Fd' as (y & s & o & Hs & Ey & T). exists y, s, o. split; [exact Hs|]. split; [exact Ey|]. rewrite <- Ab, about_kind.
      assert (Ta : ReportProofs.answered (fun c a => answer mexp s o ps5 y c = Some (Ok a)) y ps5 rd) by (destruct rd; cbn in T |- *; auto).
      eapply forall2_impl; [|exact (vars_of _ y nm rd Ta)]. intros [n z] [[suffix c] t] (a & H2 & H3 & H4 & _). split; [exact H2|]. exists a. split; [exact H3|exact H4].
Qed.
Lemma copied_numeric nm i seg sets : copied mexp nm i seg sets -> Forall (fun nz => numeric (snd nz)) sets.
Proof.
  intros (_ & x & s & o & _ & _ & F). induction F as [|nz [[suffix c] t] sets vs (_ & a & _ & K) _ IH]; constructor; auto. destruct t, a, (snd nz); cbn in K |- *; auto; try contradiction; discriminate.
Qed.
Lemma weaves_sync r e : weaves mexp (ReadOnlySpec.reading_call false) (live_sync mexp r e).
Proof.
  unfold live_sync. apply weaves_bind; [now apply weaves_call|]. intros es. generalize (places (fst es) (rv_pairs (snd es))). intros l. revert e. induction l as [|[nm x] l IH]; intros e; cbn [live_sync_each]; [apply weaves_ret|].
  apply weaves_bind; [apply weaves_read|]. intros [d|]; [|apply weaves_ret]. destruct (publish (exp_vars nm d) e) as [e1 []]; [apply IH|apply weaves_ret|apply weaves_ret].
Qed.
End Request.
