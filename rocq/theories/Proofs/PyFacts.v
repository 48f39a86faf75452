(** Lemmas about the sequence primitives of Model/Py.v. *)

From Coq Require Import ZArith List Bool Lia ZifyBool.
From Verif.Model Require Import Py.
Import ListNotations.
Open Scope Z_scope.

(** Case analysis on the Boolean comparisons of integers in the goal and the context. *)
Ltac zcase :=
  match goal with
  | |- context [if ?b then _ else _] =>
      lazymatch b with
      | context [if _ then _ else _] => fail
      | _ => let E := fresh "E" in destruct b eqn:E
      end
  | H : context [if ?b then _ else _] |- _ =>
      lazymatch b with
      | context [if _ then _ else _] => fail
      | _ => let E := fresh "E" in destruct b eqn:E
      end
  end.
Ltac zcases := repeat (zcase; try lia; try reflexivity); try lia; try reflexivity.

Lemma zlen_nonneg {A} (l : list A) : 0 <= zlen l.
Proof. unfold zlen; lia. Qed.

Lemma zlen_nil {A} : zlen (@nil A) = 0.
Proof. reflexivity. Qed.

Lemma zlen_cons {A} (a : A) l : zlen (a :: l) = 1 + zlen l.
Proof. unfold zlen; cbn [List.length]; lia. Qed.

Lemma zlen_app {A} (l m : list A) : zlen (l ++ m) = zlen l + zlen m.
Proof. unfold zlen; rewrite app_length; lia. Qed.

Lemma zlen_map {A B} (f : A -> B) l : zlen (map f l) = zlen l.
Proof. unfold zlen; rewrite map_length; lia. Qed.

Lemma zlen_rev {A} (l : list A) : zlen (rev l) = zlen l.
Proof. unfold zlen; rewrite rev_length; lia. Qed.

Lemma zlen_repeat {A} (a : A) n : zlen (zrepeat a n) = Z.max 0 n.
Proof. unfold zlen, zrepeat; rewrite repeat_length; lia. Qed.

Lemma zlen_seq s n : zlen (zseq s n) = Z.max 0 n.
Proof. unfold zseq; rewrite zlen_map; unfold zlen; rewrite seq_length; lia. Qed.

Lemma zlen_take {A} n (l : list A) : zlen (ztake n l) = Z.max 0 (Z.min n (zlen l)).
Proof. unfold zlen, ztake; rewrite firstn_length; lia. Qed.

Lemma zlen_drop {A} n (l : list A) : zlen (zdrop n l) = zlen l - Z.max 0 (Z.min n (zlen l)).
Proof. unfold zlen, zdrop; rewrite skipn_length; lia. Qed.

Lemma zlen_map2 {A B C} (f : A -> B -> C) l : forall m, zlen (map2 f l m) = Z.min (zlen l) (zlen m).
Proof.
  induction l as [|a l IH]; intros [|b m]; cbn [map2]; try pose proof (zlen_nonneg l); try pose proof (zlen_nonneg m).
  - reflexivity.
  - rewrite zlen_cons; unfold zlen in *; cbn [length]; lia.
  - rewrite zlen_cons; unfold zlen in *; cbn [length]; lia.
  - rewrite !zlen_cons, IH; lia.
Qed.

Lemma zlen_zero {A} (l : list A) : zlen l = 0 -> l = [].
Proof. destruct l; auto; rewrite zlen_cons; pose proof (zlen_nonneg l); lia. Qed.

Lemma zlen_one {A} (l : list A) : zlen l = 1 -> exists a, l = [a].
Proof.
  destruct l as [|a [|b l]]; rewrite ?zlen_cons, ?zlen_nil; try lia.
  - eauto.
  - pose proof (zlen_nonneg l); lia.
Qed.

Global Hint Rewrite @zlen_nil @zlen_cons @zlen_app @zlen_map @zlen_rev @zlen_repeat @zlen_seq @zlen_take @zlen_drop @zlen_map2 : zlen.

(** ** Look-ups *)

Lemma nth_error_skipn {A} n : forall (l : list A) i, nth_error (skipn n l) i = nth_error l (n + i).
Proof.
  induction n; intros l i; cbn; auto. destruct l; cbn; auto. now destruct i.
Qed.

Lemma nth_error_firstn {A} n : forall (l : list A) i,
  nth_error (firstn n l) i = if Nat.ltb i n then nth_error l i else None.
Proof.
  induction n; intros l i; cbn.
  - now destruct i.
  - destruct l; cbn.
    + destruct i; cbn; auto. match goal with |- context [if ?b then _ else _] => destruct b end; reflexivity.
    + destruct i; cbn; auto. apply IHn.
Qed.

Lemma zth_nil {A} i : zth (@nil A) i = None.
Proof. unfold zth; destruct (i <? 0); auto. now destruct (Z.to_nat i). Qed.

Lemma zth_cons {A} (a : A) l i : zth (a :: l) i = if i =? 0 then Some a else zth l (i - 1).
Proof.
  unfold zth. destruct (Z.eqb_spec i 0); [subst; reflexivity|].
  destruct (Z.ltb_spec i 0).
  - destruct (Z.ltb_spec (i - 1) 0); auto; lia.
  - destruct (Z.ltb_spec (i - 1) 0); try lia.
    replace (Z.to_nat i) with (S (Z.to_nat (i - 1))) by lia. reflexivity.
Qed.

Lemma zth_neg {A} (l : list A) i : i < 0 -> zth l i = None.
Proof. intros; unfold zth; destruct (Z.ltb_spec i 0); auto; lia. Qed.

Lemma zth_ge {A} (l : list A) i : zlen l <= i -> zth l i = None.
Proof.
  intros; unfold zth. destruct (Z.ltb_spec i 0); auto.
  apply nth_error_None. unfold zlen in *; lia.
Qed.

Lemma zth_out {A} (l : list A) i : ~ (0 <= i < zlen l) -> zth l i = None.
Proof. intros; destruct (Z.lt_ge_cases i 0); [apply zth_neg | apply zth_ge]; lia. Qed.

Lemma zth_in {A} (l : list A) i : 0 <= i < zlen l -> exists a, zth l i = Some a.
Proof.
  intros; unfold zth. destruct (Z.ltb_spec i 0); try lia.
  destruct (nth_error l (Z.to_nat i)) eqn:E; eauto.
  apply nth_error_None in E. unfold zlen in *; lia.
Qed.

Lemma zth_range {A} (l : list A) i a : zth l i = Some a -> 0 <= i < zlen l.
Proof.
  intros. destruct (Z.lt_ge_cases i 0); [rewrite zth_neg in H by lia; discriminate|].
  destruct (Z.lt_ge_cases i (zlen l)); [lia|rewrite zth_ge in H by lia; discriminate].
Qed.

Lemma zth_none {A} (l : list A) i : zth l i = None -> ~ (0 <= i < zlen l).
Proof. intros H R; destruct (zth_in l i R) as [a E]; congruence. Qed.

Lemma zth_In {A} (l : list A) i a : zth l i = Some a -> In a l.
Proof. unfold zth; destruct (i <? 0); [discriminate|apply nth_error_In]. Qed.

Lemma In_zth {A} (l : list A) a : In a l -> exists i, zth l i = Some a.
Proof.
  intros H; apply In_nth_error in H as [n H]. exists (Z.of_nat n). unfold zth.
  destruct (Z.ltb_spec (Z.of_nat n) 0); try lia. now rewrite Nat2Z.id.
Qed.

Lemma zth_app {A} (l m : list A) i :
  zth (l ++ m) i = if i <? zlen l then zth l i else zth m (i - zlen l).
Proof.
  unfold zth, zlen. destruct (Z.ltb_spec i 0).
  - destruct (Z.ltb_spec i (Z.of_nat (length l))); [reflexivity|lia].
  - destruct (Z.ltb_spec i (Z.of_nat (length l))).
    + apply nth_error_app1; lia.
    + destruct (Z.ltb_spec (i - Z.of_nat (length l)) 0); try lia.
      rewrite nth_error_app2 by lia. f_equal; lia.
Qed.

Lemma zth_take {A} n (l : list A) i : zth (ztake n l) i = if i <? n then zth l i else None.
Proof.
  unfold zth, ztake. destruct (Z.ltb_spec i 0).
  - destruct (Z.ltb_spec i n); auto.
  - rewrite nth_error_firstn.
    destruct (Z.ltb_spec i n); destruct (Nat.ltb_spec (Z.to_nat i) (Z.to_nat n)); auto; lia.
Qed.

Lemma zth_drop {A} n (l : list A) i :
  zth (zdrop n l) i = if i <? 0 then None else zth l (i + Z.max 0 n).
Proof.
  unfold zth, zdrop. destruct (Z.ltb_spec i 0); auto.
  destruct (Z.ltb_spec (i + Z.max 0 n) 0); try lia.
  rewrite nth_error_skipn. f_equal. lia.
Qed.

Lemma zth_map {A B} (f : A -> B) l i : zth (map f l) i = option_map f (zth l i).
Proof.
  unfold zth. destruct (i <? 0); auto. apply nth_error_map.
Qed.

Lemma zth_repeat {A} (a : A) n i : zth (zrepeat a n) i = if (0 <=? i) && (i <? n) then Some a else None.
Proof.
  destruct (Z.leb_spec 0 i); cbn [andb].
  - destruct (Z.ltb_spec i n).
    + unfold zth, zrepeat. destruct (Z.ltb_spec i 0); try lia.
      rewrite nth_error_repeat; auto. lia.
    + apply zth_ge. rewrite zlen_repeat. lia.
  - apply zth_neg; lia.
Qed.

Lemma zth_seq s n i : zth (zseq s n) i = if (0 <=? i) && (i <? n) then Some (s + i) else None.
Proof.
  unfold zseq. rewrite zth_map.
  destruct (Z.leb_spec 0 i); cbn [andb]; [|rewrite zth_neg by lia; reflexivity].
  destruct (Z.ltb_spec i n).
  - unfold zth. destruct (Z.ltb_spec i 0); try lia.
    replace (nth_error (seq 0 (Z.to_nat n)) (Z.to_nat i)) with (Some (Z.to_nat i)).
    + cbn. f_equal. lia.
    + symmetry. rewrite (nth_error_nth' _ 0%nat) by (rewrite seq_length; lia).
      rewrite seq_nth by lia. reflexivity.
  - rewrite zth_ge; auto. unfold zlen; rewrite seq_length; lia.
Qed.

Lemma zth_map2 {A B C} (f : A -> B -> C) l : forall m i,
  zth (map2 f l m) i =
  match zth l i, zth m i with Some a, Some b => Some (f a b) | _, _ => None end.
Proof.
  induction l as [|a l IH]; intros [|b m] i; cbn [map2]; rewrite ?zth_nil; auto.
  - destruct (zth (a :: l) i); auto.
  - rewrite !zth_cons. destruct (Z.eqb_spec i 0); auto.
Qed.

Lemma zth_rev {A} (l : list A) i : zth (rev l) i = zth l (zlen l - 1 - i).
Proof.
  revert i. induction l as [|a l IH]; intros i; cbn [rev]; [now rewrite !zth_nil|].
  rewrite zth_app, zlen_rev, !zth_cons, zlen_cons, zth_nil, IH.
  pose proof (zlen_nonneg l). zcases.
  - f_equal; lia.
  - symmetry; apply zth_neg; lia.
Qed.

Lemma zth_ext {A} (l m : list A) : (forall i, zth l i = zth m i) -> l = m.
Proof.
  revert m. induction l as [|a l IH]; intros [|b m] H; auto.
  - specialize (H 0). rewrite zth_nil, zth_cons in H. discriminate.
  - specialize (H 0). rewrite zth_nil, zth_cons in H. discriminate.
  - f_equal.
    + specialize (H 0). rewrite !zth_cons in H. cbn in H. congruence.
    + apply IH. intros i. destruct (Z.lt_ge_cases i 0); [now rewrite !zth_neg by lia|].
      specialize (H (i + 1)). rewrite !zth_cons in H.
      destruct (Z.eqb_spec (i + 1) 0); try lia.
      replace (i + 1 - 1) with i in H by lia. auto.
Qed.

Lemma zth_ext_in {A} (l m : list A) :
  zlen l = zlen m -> (forall i, 0 <= i < zlen l -> zth l i = zth m i) -> l = m.
Proof.
  intros L H. apply zth_ext. intros i.
  destruct (Z.lt_ge_cases i 0); [now rewrite !zth_neg by lia|].
  destruct (Z.lt_ge_cases i (zlen l)); [apply H; lia|now rewrite !zth_ge by lia].
Qed.

Lemma zth_some_of_len {A B} (l : list A) (m : list B) i a :
  zlen l = zlen m -> zth l i = Some a -> exists b, zth m i = Some b.
Proof. intros L H. apply zth_in. rewrite <- L. eapply zth_range; eauto. Qed.

Lemma Forall_zth {A} (P : A -> Prop) l : Forall P l <-> (forall i a, zth l i = Some a -> P a).
Proof.
  rewrite Forall_forall. split.
  - intros H i a E. apply H. eapply zth_In; eauto.
  - intros H a I. apply In_zth in I as [i E]. eauto.
Qed.

Global Hint Rewrite @zth_nil @zth_cons @zth_app @zth_take @zth_drop @zth_map @zth_repeat @zth_seq @zth_map2 @zth_rev : zth.

(** ** Slices with step one *)

Ltac unfold_bounds :=
  unfold upper, lower, slice_last, slice_first, slice_step, adjust_bound, between, from, everything in *;
  cbn [fst snd sl_start sl_stop sl_step] in *; change (1 <? 0) with false in *; cbv beta iota in *.

Lemma lower_range r len : 0 <= len -> 0 <= lower r len <= len.
Proof. destruct r as [[a|] [b|]]; unfold_bounds; intros; zcases. Qed.

Lemma upper_range r len : 0 <= len -> lower r len <= upper r len <= len.
Proof.
  intros H. pose proof (lower_range r len H). unfold upper.
  destruct r as [[a|] [b|]]; unfold_bounds; zcases.
Qed.

Lemma lower_between a b len : 0 <= a <= len -> lower (between a b) len = a.
Proof. unfold_bounds; intros; zcases. Qed.

Lemma upper_between a b len : 0 <= a <= b -> b <= len -> upper (between a b) len = b.
Proof. unfold_bounds; intros; zcases. Qed.

Lemma lower_everything len : lower everything len = 0.
Proof. reflexivity. Qed.

Lemma upper_everything len : 0 <= len -> upper everything len = len.
Proof. unfold_bounds; intros; zcases. Qed.

Lemma lower_from a len : 0 <= a <= len -> lower (from a) len = a.
Proof. unfold_bounds; intros; zcases. Qed.

Lemma upper_from a len : 0 <= a <= len -> upper (from a) len = len.
Proof. unfold_bounds; intros; zcases. Qed.

Lemma zlen_subseq {A} r (l : list A) : zlen (subseq r l) = upper r (zlen l) - lower r (zlen l).
Proof.
  unfold subseq. rewrite zlen_take, zlen_drop.
  pose proof (zlen_nonneg l). pose proof (lower_range r (zlen l)). pose proof (upper_range r (zlen l)). lia.
Qed.

Lemma zth_subseq {A} r (l : list A) i :
  zth (subseq r l) i =
  if (0 <=? i) && (i <? upper r (zlen l) - lower r (zlen l)) then zth l (i + lower r (zlen l)) else None.
Proof.
  unfold subseq. rewrite zth_take, zth_drop.
  pose proof (zlen_nonneg l). pose proof (lower_range r (zlen l)).
  zcases; cbn; f_equal; lia.
Qed.

Lemma subseq_everything {A} (l : list A) : subseq everything l = l.
Proof.
  apply zth_ext; intros i. rewrite zth_subseq, lower_everything, upper_everything by apply zlen_nonneg.
  destruct ((0 <=? i) && (i <? zlen l - 0)) eqn:E; [f_equal; lia|].
  rewrite zth_out; auto; lia.
Qed.

(** ** [result] *)

Lemma bind_ok {A B} (x : result A) (k : A -> result B) b :
  bind x k = Ok b -> exists a, x = Ok a /\ k a = Ok b.
Proof. destruct x; cbn; [eauto|discriminate]. Qed.

Lemma sequence_ok {A} (l : list (result A)) r :
  sequence l = Ok r -> zlen r = zlen l /\ forall i a, zth l i = Some a -> exists v, a = Ok v /\ zth r i = Some v.
Proof.
  revert r. induction l as [|x l IH]; cbn [sequence]; intros r H.
  - injection H as <-. split; auto. intros i a. rewrite zth_nil. discriminate.
  - apply bind_ok in H as (a & -> & H). apply bind_ok in H as (r' & E & H). injection H as <-.
    specialize (IH _ E) as [L IH]. split; [rewrite zlen_cons, zlen_cons; lia|].
    intros i b. rewrite zth_cons, zth_cons. destruct (i =? 0).
    + intros [= <-]. eauto.
    + intros H. apply IH in H. auto.
Qed.

Global Arguments zlen : simpl never.
Global Arguments zth : simpl never.
Global Arguments ztake : simpl never.
Global Arguments zdrop : simpl never.
Global Arguments zrepeat : simpl never.
Global Arguments zseq : simpl never.
Global Arguments lower : simpl never.
Global Arguments upper : simpl never.
