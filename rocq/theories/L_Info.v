(* Lemmas for the text report of the info command. *)
From Coq Require Import String List.
From Verif Require Import Base M_Reader M_Packet M_Cli M_Main M_Write M_Json M_Stdout M_Text M_Info
  S_Json S_Packet S_Group S_Cli S_Text S_Info L_Json L_Text.
Open Scope N_scope.

Definition special : list N := [34; 38; 39; 60; 61; 62; 96].
Lemma html_char_ordinary : forall c, ~ In c special -> html_char c = [c].
Proof.
  intros c H. unfold html_char.
  repeat (rewrite (proj2 (N.eqb_neq _ _)) by (intros ->; apply H; unfold special; cbn; tauto)). reflexivity.
Qed.
Lemma html_char_special : forall c, In c special -> (1 < length (html_char c))%nat.
Proof. intros c H. unfold special in H. cbn in H. repeat (destruct H as [<-|H]; [cbn; lia|]). destruct H. Qed.
Lemma special_dec : forall c, In c special \/ ~ In c special.
Proof. intros c. destruct (in_dec N.eq_dec c special); auto. Qed.
Lemma html_ordinary : forall s, (forall c, In c s -> ~ In c special) -> html s = s.
Proof.
  induction s as [|c s IH]; intros H; [reflexivity|]. unfold html in *. cbn [flat_map].
  rewrite html_char_ordinary by (apply H; left; reflexivity). rewrite IH by (intros; apply H; right; assumption). reflexivity.
Qed.
Lemma plain_ordinary : forall s, plain s -> forall c, In c s -> ~ In c special.
Proof. intros s H c I J. unfold plain in H. rewrite Forall_forall in H. apply (H c I). right. exact J. Qed.
Lemma html_plain : forall s, plain s -> html s = s.
Proof. intros s H. apply html_ordinary. intros c. apply plain_ordinary. exact H. Qed.
Lemma plain_clean : forall s, plain s -> clean s.
Proof. intros s H I. unfold plain in H. rewrite Forall_forall in H. apply (H 10 I). left. reflexivity. Qed.
Lemma html_longer : forall s, (length s <= length (html s))%nat /\
  ((exists c, In c s /\ In c special) -> (length s < length (html s))%nat).
Proof.
  induction s as [|c s [L IH]]; [split; [cbn; lia|intros (c & [] & _)]|]. unfold html in *. cbn [flat_map length]. rewrite app_length.
  destruct (special_dec c) as [D|D].
  - pose proof (html_char_special c D). split; intros; lia.
  - rewrite (html_char_ordinary c D). cbn [length]. split; [lia|]. intros (d & [->|I] & J); [contradiction|].
    assert (length s < length (flat_map html_char s))%nat by (apply IH; eauto). lia.
Qed.
Lemma html_same : forall s, html s = s <-> forall c, In c s -> ~ In c special.
Proof.
  intros s. split; [|apply html_ordinary]. intros E c I J. destruct (html_longer s) as [_ H].
  assert (length s < length (html s))%nat by (apply H; eauto). rewrite E in *. lia.
Qed.
Lemma html_clean : forall s, clean s -> clean (html s).
Proof.
  intros s H I. unfold html in I. apply in_flat_map in I. destruct I as (c & I & J).
  destruct (special_dec c) as [D|D].
  - unfold special in D. cbn in D. repeat (destruct D as [<-|D]; [cbn in J; repeat (destruct J as [J|J]; [discriminate|]); destruct J|]). destruct D.
  - rewrite (html_char_ordinary c D) in J. destruct J as [->|[]]. contradiction.
Qed.
(* what html makes of different texts is different *)
Lemma html_char_code : forall c d s t, html_char c ++ s = html_char d ++ t -> c = d /\ s = t.
Proof.
  intros c d s t.
  destruct (special_dec c) as [C|C]; destruct (special_dec d) as [D|D].
  - unfold special in C, D. cbn in C, D.
    repeat (destruct C as [<-|C]; [repeat (destruct D as [<-|D]; [intros E; try (cbn in E; injection E; intros; subst; split; reflexivity); cbn in E; discriminate E|]); destruct D|]). destruct C.
  - rewrite (html_char_ordinary d D). unfold special in C. cbn in C. intros E.
    repeat (destruct C as [<-|C]; [cbn in E; injection E as <- _; exfalso; apply D; unfold special; cbn; tauto|]). destruct C.
  - rewrite (html_char_ordinary c C). unfold special in D. cbn in D. intros E.
    repeat (destruct D as [<-|D]; [cbn in E; injection E as -> _; exfalso; apply C; unfold special; cbn; tauto|]). destruct D.
  - rewrite (html_char_ordinary c C), (html_char_ordinary d D). intros E. injection E as <- <-. auto.
Qed.
Lemma html_char_some : forall c, html_char c <> [].
Proof.
  intros c. destruct (special_dec c) as [D|D]; [|rewrite (html_char_ordinary c D); discriminate].
  pose proof (html_char_special c D). destruct (html_char c); [cbn in *; lia|discriminate].
Qed.
Lemma html_injective : forall s t, html s = html t -> s = t.
Proof.
  unfold html. induction s as [|c s IH]; intros [|d t] E; cbn [flat_map] in E; [reflexivity| | |].
  - symmetry in E. apply app_eq_nil in E. destruct E as [E _]. destruct (html_char_some _ E).
  - apply app_eq_nil in E. destruct E as [E _]. destruct (html_char_some _ E).
  - apply html_char_code in E. destruct E as [-> E]. f_equal. apply IH. exact E.
Qed.

(* ---- words and commas ---- *)
Lemma words_from_app : forall x cur y, words_from cur (x ++ 32 :: y) = words_from cur x ++ words_of y.
Proof.
  induction x as [|c x IH]; intros cur y; cbn [app words_from].
  - cbn. destruct cur; reflexivity.
  - destruct (c =? 32); [destruct cur; [apply IH|cbn [app]; f_equal; apply IH]|apply IH].
Qed.
Lemma words_app : forall x y, words_of (x ++ 32 :: y) = words_of x ++ words_of y.
Proof. intros. apply words_from_app. Qed.
Lemma commas_cur : forall s cur rest, ~ In 44 s -> commas_from cur (s ++ rest) = commas_from (rev s ++ cur) rest.
Proof.
  induction s as [|c s IH]; intros cur rest H; [reflexivity|]. cbn [app commas_from rev].
  replace (c =? 44) with false by (symmetry; apply N.eqb_neq; intros ->; apply H; left; reflexivity).
  rewrite IH by (intro; apply H; right; assumption). rewrite <- app_assoc. reflexivity.
Qed.
Lemma dec_no_comma : forall n, ~ In 44 (dec n).
Proof. intros n H. pose proof (dec_range n) as F. rewrite Forall_forall in F. apply F in H. lia. Qed.
Lemma dec_some : forall n, dec n <> [].
Proof. intros n. apply (proj1 (dec_wordy n)). Qed.
Lemma shows_dec : forall n, shows (dec n) n.
Proof. intros n. exact (shows_pad 0 n). Qed.
Lemma shows_blank : forall n, shows (32 :: dec n) n.
Proof. intros n. exists (dec n). split; [|apply dec_number]. rewrite words_skip. exact (words_pad_last 0 (dec n) (dec_wordy n)). Qed.
Lemma apid_list_commas : forall apids cur, (forall n, shows (rev cur ++ dec n) n) -> ~ In 44 cur -> apids <> [] ->
  Forall2 shows (commas_from cur (apid_list apids)) apids.
Proof.
  induction apids as [|a apids IH]; intros cur P Q NE; [congruence|]. destruct apids as [|b apids].
  - cbn [apid_list]. rewrite <- (app_nil_r (dec a)), commas_cur by apply dec_no_comma. cbn [commas_from].
    rewrite rev_app_distr, rev_involutive. constructor; [apply P|constructor].
  - change (apid_list (a :: b :: apids)) with (dec a ++ [44; 32] ++ apid_list (b :: apids)).
    rewrite commas_cur by apply dec_no_comma. cbn [app commas_from]. change (44 =? 44) with true. change (32 =? 44) with false. cbn iota.
    rewrite rev_app_distr, rev_involutive. constructor; [apply P|]. apply IH; [intros n; apply shows_blank|intros [H|[]]; discriminate|discriminate].
Qed.
Lemma apid_list_shows : forall apids, Forall2 shows (between_commas (apid_list apids)) apids.
Proof.
  intros [|a apids]; [constructor|]. unfold between_commas. destruct (apid_list (a :: apids)) eqn:E.
  - exfalso. destruct apids; cbn [apid_list] in E; [exact (dec_some _ E)|]. apply app_eq_nil in E. destruct E as [E _]. exact (dec_some _ E).
  - rewrite <- E. apply apid_list_commas; [intros k; apply shows_dec|intros []|discriminate].
Qed.
Lemma apid_list_clean : forall apids, clean (apid_list apids).
Proof.
  induction apids as [|a [|b apids] IH]; [intros []|apply dec_clean|].
  change (apid_list (a :: b :: apids)) with (dec a ++ [44; 32] ++ apid_list (b :: apids)).
  apply app_clean; [apply dec_clean|]. apply app_clean; [apply clean_b; reflexivity|exact IH].
Qed.
