(** The extension of a path. *)

From Coq Require Import String Ascii ZArith List Bool Lia ZifyBool.
From Verif.Model Require Import Py Persistence.
From Verif.Proofs Require Import PyFacts.
From Verif.Spec Require Import PersistenceSpec.
Import ListNotations.
Open Scope list_scope.
Open Scope Z_scope.

Lemma rfind_spec c l :
  (rfind c l = -1 /\ ~ In c l)
  \/ exists a b, l = a ++ c :: b /\ ~ In c b /\ rfind c l = zlen a.
Proof.
  induction l as [| x t IH].
  - left. split; [reflexivity | intros []].
  - cbn [rfind]. destruct IH as [[E N] | (a & b & -> & N & E)].
    + rewrite E. destruct (0 <=? -1) eqn:H0; [discriminate |].
      destruct (Ascii.eqb x c) eqn:X.
      * apply Ascii.eqb_eq in X. subst x. right. exists [], t. repeat split; auto.
      * left. split; auto. intros [-> | I]; [| exact (N I)].
        rewrite Ascii.eqb_refl in X. discriminate.
    + right. exists (x :: a), b. rewrite E.
      assert (0 <= zlen a) by (unfold zlen; lia).
      replace (0 <=? zlen a) with true by lia.
      repeat split; auto. unfold zlen. cbn [List.length]. lia.
Qed.

Lemma string_app a b : string_of_list_ascii (a ++ b) = (string_of_list_ascii a ++ string_of_list_ascii b)%string.
Proof. induction a as [| x t IH]; cbn; [reflexivity | now rewrite IH]. Qed.

Lemma occurs_in c l : occurs c (string_of_list_ascii l) <-> In c l.
Proof. induction l as [| x t IH]; cbn; [tauto | rewrite IH; tauto]. Qed.

Lemma occurs_in' c s : occurs c s <-> In c (list_ascii_of_string s).
Proof. rewrite <- occurs_in, string_of_list_ascii_of_string. tauto. Qed.

Lemma ztake_app {A} (a b : list A) : ztake (zlen a) (a ++ b) = a.
Proof.
  unfold ztake, zlen. rewrite Nat2Z.id, firstn_app, Nat.sub_diag, firstn_all. cbn. apply app_nil_r.
Qed.
Lemma zdrop_app {A} (a b : list A) : zdrop (zlen a) (a ++ b) = b.
Proof.
  unfold zdrop, zlen. rewrite Nat2Z.id, skipn_app, Nat.sub_diag, skipn_all. reflexivity.
Qed.

Lemma zlen_app' {A} (a b : list A) : zlen (a ++ b) = zlen a + zlen b.
Proof. unfold zlen. rewrite app_length. lia. Qed.
Lemma zlen_nonneg' {A} (a : list A) : 0 <= zlen a.
Proof. unfold zlen. lia. Qed.

Lemma subseq_middle {A} (a b c : list A) : subseq (between (zlen a) (zlen a + zlen b)) (a ++ b ++ c) = b.
Proof.
  pose proof (zlen_nonneg' a); pose proof (zlen_nonneg' b); pose proof (zlen_nonneg' c).
  unfold subseq, between, upper, lower, slice_first, slice_last, slice_step, adjust_bound.
  cbn [fst snd sl_start sl_stop sl_step]. rewrite !zlen_app'.
  replace (zlen a <? 0) with false by lia.
  replace (zlen a + zlen b <? 0) with false by lia.
  change (1 <? 0) with false.
  cbn match.
  assert (E : (if zlen a + (zlen b + zlen c) <=? zlen a then zlen a + (zlen b + zlen c) else zlen a) = zlen a).
  { destruct (zlen a + (zlen b + zlen c) <=? zlen a) eqn:X; lia. }
  rewrite E.
  assert (E2 : (if zlen a + (zlen b + zlen c) <=? zlen a + zlen b then zlen a + (zlen b + zlen c) else zlen a + zlen b) = zlen a + zlen b).
  { destruct (zlen a + (zlen b + zlen c) <=? zlen a + zlen b) eqn:X; lia. }
  rewrite E2. rewrite zdrop_app.
  replace (Z.max (zlen a) (zlen a + zlen b) - zlen a) with (zlen b) by lia.
  apply ztake_app.
Qed.

Lemma all_dots l : existsb (fun a => negb (Ascii.eqb a ".")) l = false -> forall c, In c l -> c = "."%char.
Proof.
  intros H c I. destruct (Ascii.eqb c ".") eqn:E; [now apply Ascii.eqb_eq |].
  assert (existsb (fun a => negb (Ascii.eqb a ".")) l = true); [| congruence].
  apply existsb_exists. exists c. rewrite E. auto.
Qed.

(** The last component of a path *)
Lemma last_component p :
  exists d n, p = d ++ n /\ ~ In "/"%char n /\ zlen d = rfind "/" p + 1
              /\ (d = [] \/ exists d', d = d' ++ ["/"%char]).
Proof.
  destruct (rfind_spec "/" p) as [[E N] | (a & b & -> & N & E)].
  - exists [], p. rewrite E. repeat split; auto.
  - exists (a ++ ["/"%char]), b. rewrite E, zlen_app'. rewrite <- app_assoc. repeat split; eauto.
Qed.

Lemma directory_string d : (d = [] \/ exists d', d = d' ++ ["/"%char]) ->
  string_of_list_ascii d = ""%string \/ exists d', string_of_list_ascii d = (d' ++ "/")%string.
Proof.
  intros [-> | [d' ->]]; [now left | right]. exists (string_of_list_ascii d'). now rewrite string_app.
Qed.

Lemma in_unique {A} (eq : forall x y : A, {x = y} + {x <> y}) (c : A) a b a' b' :
  a ++ c :: b = a' ++ c :: b' -> ~ In c b -> ~ In c b' -> a = a' /\ b = b'.
Proof.
  revert a'. induction a as [| x a IH]; intros [| y a'] E N N'; cbn in E; injection E.
  - auto.
  - intros -> <-. destruct N. rewrite in_app_iff. right. now left.
  - intros <- ->. destruct N'. rewrite in_app_iff. right. now left.
  - intros E' ->. destruct (IH a' E' N N') as [-> ->]. auto.
Qed.

Theorem splitext_extension path :
  is_extension path (snd (splitext path)) /\ path = (fst (splitext path) ++ snd (splitext path))%string.
Proof.
  unfold splitext. set (p := list_ascii_of_string path).
  assert (P : path = string_of_list_ascii p) by (symmetry; apply string_of_list_ascii_of_string).
  destruct (last_component p) as (d & n & En & Nn & Ed & Dd).
  destruct ((rfind "/" p <? rfind "." p) && existsb (fun a => negb (Ascii.eqb a ".")) (subseq (between (rfind "/" p + 1) (rfind "." p)) p)) eqn:T;
    cbn [fst snd].
  - apply andb_true_iff in T. destruct T as [T1 T2].
    destruct (rfind_spec "." p) as [[E N] | (a & b & Ep & N & E)].
    { exfalso. rewrite E in T1. destruct (rfind_spec "/" p) as [[E' _] | (? & ? & _ & _ & E')]; rewrite E' in T1.
      - lia. - pose proof (zlen_nonneg' x). lia. }
    (* the dot is in the last component *)
    assert (X : exists r, n = r ++ "."%char :: b /\ a = d ++ r).
    { assert (zlen d <= zlen a) by lia.
      exists (zdrop (zlen d) a).
      assert (Ea : a = d ++ zdrop (zlen d) a).
      { assert (ztake (zlen d) (a ++ "."%char :: b) = ztake (zlen d) (d ++ n)) by congruence.
        rewrite ztake_app in H0.
        unfold ztake, zlen in H0. rewrite Nat2Z.id in H0. rewrite firstn_app in H0.
        unfold zlen in H. replace (List.length d - List.length a)%nat with 0%nat in H0 by lia.
        rewrite firstn_O, app_nil_r in H0.
        rewrite <- (firstn_skipn (List.length d) a) at 1. rewrite H0. unfold zdrop, zlen. now rewrite Nat2Z.id. }
      split; [| exact Ea].
      assert (d ++ n = d ++ zdrop (zlen d) a ++ "."%char :: b).
      { rewrite app_assoc, <- Ea. congruence. }
      now apply app_inv_head in H0. }
    destruct X as (r & Er & Ea).
    assert (Et : ztake (rfind "." p) p = d ++ r).
    { rewrite E, Ep, Ea. apply ztake_app. }
    assert (Ex : zdrop (rfind "." p) p = "."%char :: b).
    { rewrite E, Ep. apply zdrop_app. }
    rewrite Et, Ex.
    assert (Es : subseq (between (rfind "/" p + 1) (rfind "." p)) p = r).
    { rewrite <- Ed, E, Ep, Ea, zlen_app', <- app_assoc. apply subseq_middle. }
    rewrite Es in T2.
    split.
    + exists (string_of_list_ascii d), (string_of_list_ascii r).
      split; [| split; [| split]].
      * rewrite P, Ep, Ea, <- !string_app, <- app_assoc. reflexivity.
      * now apply directory_string.
      * rewrite <- string_app, occurs_in. now rewrite <- Er.
      * left. exists (string_of_list_ascii b). split; [reflexivity |]. split; [now rewrite occurs_in |].
        apply existsb_exists in T2. destruct T2 as (c & Ic & Hc). exists c. rewrite occurs_in. split; auto.
        intros ->. discriminate.
    + rewrite P, Ep, Ea, <- string_app, <- app_assoc. reflexivity.
  - split; [| clear; induction path; cbn; congruence].
    exists (string_of_list_ascii d), (string_of_list_ascii n).
    split; [| split; [| split]].
    + rewrite P, En, <- (app_nil_r n) at 1. now rewrite !string_app.
    + now apply directory_string.
    + change ""%string with (string_of_list_ascii []). rewrite <- string_app, occurs_in, app_nil_r. exact Nn.
    + right. split; [reflexivity |].
      destruct (rfind_spec "." n) as [[E N] | (r & b & Er & N & E)].
      { exists ""%string, (string_of_list_ascii n). rewrite occurs_in. repeat split; auto. intros c []. }
      assert (Ep : p = (d ++ r) ++ "."%char :: b) by (rewrite En, Er, <- app_assoc; reflexivity).
      destruct (rfind_spec "." p) as [[E' N'] | (a' & b' & Ep' & N' & E')].
      { destruct N'. rewrite Ep, in_app_iff. right. now left. }
      rewrite Ep in Ep'. apply in_unique in Ep'; auto using ascii_dec.
      destruct Ep' as [<- <-].
      rewrite E' in T. rewrite zlen_app' in T.
      pose proof (zlen_nonneg' r).
      replace (rfind "/" p <? zlen d + zlen r) with true in T by lia.
      cbn [andb] in T.
      assert (Es : subseq (between (rfind "/" p + 1) (zlen d + zlen r)) p = r).
      { rewrite <- Ed, Ep, <- app_assoc. apply subseq_middle. }
      rewrite Es in T.
      exists (string_of_list_ascii (r ++ ["."%char])), (string_of_list_ascii b).
      split; [| split].
      * rewrite <- string_app, <- app_assoc. now rewrite Er.
      * intros c. rewrite occurs_in, in_app_iff. intros [I | [<- | []]]; auto. now apply (all_dots r).
      * now rewrite occurs_in.
Qed.

(** A path has only one extension. *)
Lemma append_empty s : (s ++ "" = s)%string.
Proof. induction s; cbn; congruence. Qed.

Lemma occurs_app c s t : occurs c (s ++ t) <-> occurs c s \/ occurs c t.
Proof. induction s as [| a s IH]; cbn; [tauto | rewrite IH; tauto]. Qed.

Lemma append_assoc' a b c : ((a ++ b) ++ c = a ++ (b ++ c))%string.
Proof. induction a; cbn; congruence. Qed.

Lemma string_split a b a' b' : (a ++ b = a' ++ b')%string ->
  (exists m, a' = a ++ m /\ b = m ++ b')%string \/ (exists m, a = a' ++ m /\ b' = m ++ b)%string.
Proof.
  revert a'. induction a as [| x a IH]; intros a' E.
  - left. exists a'. auto.
  - destruct a' as [| y a']; cbn in E.
    + right. exists (String x a). auto.
    + injection E as -> E. destruct (IH a' E) as [(m & -> & ->) | (m & -> & ->)]; [left | right]; exists m; auto.
Qed.

Lemma directory_prefix d m d' :
  (d = ""%string \/ exists e, d = (e ++ "/")%string) ->
  (d' = ""%string \/ exists e, d' = (e ++ "/")%string) -> d' = (d ++ m)%string -> m <> ""%string -> occurs "/" m.
Proof.
  intros _ [-> | [e E]] H N.
  - destruct d; [cbn in H; congruence | discriminate].
  - rewrite E in H. destruct (string_split e "/" d m H) as [(k & -> & Ek) | (k & -> & ->)].
    + destruct k as [| x k]; [cbn in Ek; subst m; cbn; auto |].
      cbn in Ek. injection Ek as <- Ek. destruct k; [| discriminate]. cbn in Ek. congruence.
    + rewrite occurs_app. cbn. auto.
Qed.

Lemma extension_unique path e e' : is_extension path e -> is_extension path e' -> e = e'.
Proof.
  intros (d & r & E & D & N & X) (d' & r' & E' & D' & N' & X').
  assert (S : (r ++ e = r' ++ e')%string).
  { rewrite E in E'. destruct (string_split _ _ _ _ E') as [(m & Em & Em') | (m & Em & Em')].
    - destruct m as [| c m]; [exact Em' |].
      exfalso. apply N. rewrite Em', occurs_app. left. apply (directory_prefix d (String c m) d' D D' Em). discriminate.
    - destruct m as [| c m]; [now symmetry |].
      exfalso. apply N'. rewrite Em', occurs_app. left. apply (directory_prefix d' (String c m) d D' D Em). discriminate. }
  clear E E' D D' N N'.
  assert (Mixed : forall r e r' e',
    (r ++ e = r' ++ e')%string ->
    (exists suffix, e = String "." suffix /\ ~ occurs "." suffix /\ exists c, c <> "."%char /\ occurs c r) ->
    e' = ""%string -> (exists dots rest, r' = (dots ++ rest)%string /\ (forall c, occurs c dots -> c = "."%char) /\ ~ occurs "." rest) -> False).
  { clear. intros r e r' e' S (suffix & -> & Ns & c & Nc & Oc) -> (dots & rest & -> & Hd & Hr).
    rewrite append_empty in S.
    destruct (string_split _ _ _ _ S) as [(m & -> & Em) | (m & -> & ->)].
    - apply Nc, Hd. rewrite occurs_app. auto.
    - apply occurs_app in Oc. destruct Oc as [Oc | Oc]; [now apply Nc, Hd |].
      apply Hr. rewrite occurs_app. right. cbn. auto. }
  destruct X as [X | [-> X]], X' as [X' | [-> X']].
  - destruct X as (s & -> & Ns & _), X' as (s' & -> & Ns' & _).
    destruct (string_split _ _ _ _ S) as [(m & -> & Em) | (m & -> & Em)].
    + destruct m as [| c m]; [cbn in Em; congruence |].
      cbn in Em. injection Em as Ec ->. exfalso. apply Ns. rewrite occurs_app. right. cbn. auto.
    + destruct m as [| c m]; [cbn in Em; congruence |].
      cbn in Em. injection Em as Ec ->. exfalso. apply Ns'. rewrite occurs_app. right. cbn. auto.
  - exfalso. exact (Mixed r e r' "" S X eq_refl X')%string.
  - exfalso. exact (Mixed r' e' r "" (eq_sym S) X' eq_refl X)%string.
  - reflexivity.
Qed.

Theorem extension_iff path e : snd (splitext path) = e <-> is_extension path e.
Proof.
  split; [intros <-; apply splitext_extension |].
  intros H. eapply extension_unique; eauto. apply splitext_extension.
Qed.
