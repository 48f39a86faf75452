(** Proofs about texts: decimal numbers and ordinal numbers. *)

From Coq Require Import String Ascii ZArith List Bool Lia ZifyBool.
From Verif.Model Require Import Py Text.
From Verif.Spec Require Import TextSpec.
Import ListNotations.
Open Scope list_scope.
Open Scope string_scope.
Open Scope Z_scope.

(** ** Strings *)

Lemma append_assoc (a b c : string) : (a ++ b) ++ c = a ++ (b ++ c).
Proof. induction a; cbn; congruence. Qed.

Lemma append_nil (a : string) : a ++ "" = a.
Proof. induction a; cbn; congruence. Qed.

Lemma length_append (a b : string) : String.length (a ++ b) = (String.length a + String.length b)%nat.
Proof. induction a; cbn; congruence. Qed.

Lemma append_char_inj (p q : string) c d : p ++ String c "" = q ++ String d "" -> p = q /\ c = d.
Proof.
  revert q. induction p as [|x p IH]; intros [|y q]; cbn; intros H; inversion H; subst; auto.
  - destruct q; discriminate.
  - destruct p; discriminate.
  - destruct (IH q) as [-> ->]; auto.
Qed.

Lemma append_inj_l (p a b : string) : p ++ a = p ++ b -> a = b.
Proof. induction p; cbn; intros H; [auto|]. inversion H. auto. Qed.

Lemma substring_split s : forall k, (k <= String.length s)%nat -> s = substring 0 k s ++ substring k (String.length s - k) s.
Proof.
  induction s as [|c s IH]; intros [|k] H; cbn in *; auto; try lia.
  - f_equal. specialize (IH 0%nat). rewrite Nat.sub_0_r in IH. destruct s; cbn in *; auto. apply IH. lia.
  - f_equal. apply IH. lia.
Qed.

Lemma substring_suffix p : forall t, substring (String.length p) (String.length t) (p ++ t) = t.
Proof.
  induction p as [|c p IH]; intros t; cbn; auto. 
  induction t as [|d t IH]; cbn; congruence.
Qed.

Lemma endswith_iff s t : endswith s t = true <-> exists p, s = p ++ t.
Proof.
  unfold endswith. rewrite andb_true_iff, Nat.leb_le, String.eqb_eq. split.
  - intros [L E]. exists (substring 0 (String.length s - String.length t) s).
    rewrite (substring_split s (String.length s - String.length t)) at 1 by lia. f_equal.
    replace (_ - (_ - _))%nat with (String.length t) by lia. exact E.
  - intros [p ->]. rewrite length_append. split; [lia|].
    replace (_ + _ - _)%nat with (String.length p) by lia. apply substring_suffix.
Qed.

Lemma endswith_char p c d : endswith (p ++ String c "") (String d "") = Ascii.eqb c d.
Proof.
  apply eq_true_iff_eq. rewrite endswith_iff, Ascii.eqb_eq. split.
  - intros [q E]. apply append_char_inj in E. tauto.
  - intros ->. eauto.
Qed.

Lemma endswith_two p c d c' d' : endswith ((p ++ String c "") ++ String d "") (String c' (String d' "")) = (Ascii.eqb c c' && Ascii.eqb d d').
Proof.
  apply eq_true_iff_eq. rewrite endswith_iff, andb_true_iff, !Ascii.eqb_eq. split.
  - intros [q E]. change (String c' (String d' "")) with (String c' "" ++ String d' "") in E. rewrite <- append_assoc in E.
    apply append_char_inj in E. destruct E as [E ->]. apply append_char_inj in E. tauto.
  - intros [-> ->]. exists p. rewrite append_assoc. reflexivity.
Qed.

Lemma endswith_one_two c c' d' : endswith (String c "") (String c' (String d' "")) = false.
Proof. reflexivity. Qed.

(** ** Decimal numbers *)

Lemma digits_enough f : forall g n, (1 <= f)%nat -> (1 <= g)%nat -> 0 <= n -> n < 2 ^ Z.of_nat f -> n < 2 ^ Z.of_nat g -> digits f n = digits g n.
Proof.
  induction f as [|f IH]; intros g n F G N H K; [lia|]. destruct g as [|g]; [lia|]. cbn [digits].
  destruct (n <? 10) eqn:E; auto. f_equal.
  rewrite Nat2Z.inj_succ, Z.pow_succ_r in H, K by lia.
  assert (1 <= f)%nat by (destruct f; [cbn in H; lia|lia]). assert (1 <= g)%nat by (destruct g; [cbn in K; lia|lia]).
  apply IH; auto; [apply Z.div_pos; lia| |]; apply Z.div_lt_upper_bound; lia.
Qed.

Definition text (n : Z) : string := digits (S (Z.to_nat (Z.log2 n))) n.

Lemma log2_enough n : 0 <= n -> n < 2 ^ Z.of_nat (S (Z.to_nat (Z.log2 n))).
Proof.
  intros N. rewrite Nat2Z.inj_succ, Z2Nat.id by apply Z.log2_nonneg. destruct (Z.eq_dec n 0) as [->|]; [reflexivity|].
  apply Z.log2_spec. lia.
Qed.

Lemma text_small n : 0 <= n < 10 -> text n = String (digit n) "".
Proof. intros H. unfold text. cbn [digits]. replace (_ <? _) with true by lia. reflexivity. Qed.

Lemma text_large n : 10 <= n -> text n = text (n / 10) ++ String (digit (n mod 10)) "".
Proof.
  intros H. unfold text. cbn [digits]. replace (n <? 10) with false by lia. f_equal.
  change (if n / 10 <? 10 then _ else _) with (digits (S (Z.to_nat (Z.log2 (n / 10)))) (n / 10)).
  assert (0 < n / 10) by (apply Z.div_str_pos; lia).
  assert (L : 3 <= Z.log2 n) by (change 3 with (Z.log2 8); apply Z.log2_le_mono; lia).
  apply digits_enough; try lia; [|apply log2_enough; lia].
  rewrite Z2Nat.id by lia. apply Z.div_lt_upper_bound; [lia|].
  pose proof (Z.log2_spec n). rewrite Z.pow_succ_r in *; lia.
Qed.

Lemma py_str_nonneg z : 0 <= z -> py_str z = text z.
Proof. intros. unfold py_str. replace (z <? 0) with false by lia. reflexivity. Qed.

Lemma py_str_neg z : z < 0 -> py_str z = String "-" (text (- z)).
Proof. intros. unfold py_str. replace (z <? 0) with true by lia. reflexivity. Qed.

Ltac digit_cases d :=
  let H := fresh in
  assert (H : d = 0 \/ d = 1 \/ d = 2 \/ d = 3 \/ d = 4 \/ d = 5 \/ d = 6 \/ d = 7 \/ d = 8 \/ d = 9) by lia;
  decompose [or] H; clear H; match goal with E : d = _ |- _ => rewrite E end.

Lemma digit_value_digit d : 0 <= d < 10 -> digit_value (digit d) = Some d.
Proof. intros H. digit_cases d; reflexivity. Qed.

Lemma digit_minus d : 0 <= d < 10 -> digit d <> "-"%char.
Proof. intros H. digit_cases d; discriminate. Qed.

(** The text begins with a digit. *)
Lemma text_ind (P : Z -> Prop) : (forall n, 0 <= n < 10 -> P n) -> (forall n, 10 <= n -> P (n / 10) -> P n) -> forall n, 0 <= n -> P n.
Proof.
  intros P0 P1. apply (Zlt_0_ind P). intros x IH X.
  destruct (Z_lt_ge_dec x 10); [apply P0; lia|]. apply P1; [lia|]. apply IH. split; [apply Z.div_pos; lia|].
  apply Z.div_lt; lia.
Qed.

Lemma read_append p c : forall acc, read_digits acc (p ++ String c "") =
  match read_digits acc p, digit_value c with Some a, Some d => Some (10 * a + d) | _, _ => None end.
Proof.
  induction p as [|x p IH]; intros acc; cbn [append read_digits].
  - destruct (digit_value c); reflexivity.
  - destruct (digit_value x); auto.
Qed.

Lemma read_text n : 0 <= n -> read_digits 0 (text n) = Some n /\ exists c t, text n = String c t /\ c <> "-"%char.
Proof.
  apply text_ind with (P := fun n => read_digits 0 (text n) = Some n /\ exists c t, text n = String c t /\ c <> "-"%char).
  - intros m M. rewrite text_small by auto. cbn [read_digits]. rewrite digit_value_digit by auto. split; [f_equal; lia|].
    do 2 eexists. split; [reflexivity|]. now apply digit_minus.
  - intros m M (R & c & t & E & D). rewrite text_large by auto. pose proof (Z.mod_pos_bound m 10). split.
    + rewrite read_append, R, digit_value_digit by lia. f_equal. pose proof (Z.div_mod m 10). lia.
    + rewrite E. cbn [append]. eauto.
Qed.

Lemma read_plain c t : c <> "-"%char -> read (String c t) = read_digits 0 (String c t).
Proof. intros H. destruct c as [[] [] [] [] [] [] [] []]; try reflexivity. now elim H. Qed.

Lemma read_py_str z : read (py_str z) = Some z.
Proof.
  destruct (Z_lt_ge_dec z 0).
  - rewrite py_str_neg by lia. destruct (read_text (- z)) as (R & c & t & E & _); [lia|]. rewrite E in *. unfold read.
    rewrite R. cbn. f_equal. lia.
  - rewrite py_str_nonneg by lia. destruct (read_text z) as (R & c & t & E & D); [lia|]. rewrite E in *. now rewrite read_plain.
Qed.

Lemma py_str_inj y z : py_str y = py_str z -> y = z.
Proof. intros H. pose proof (read_py_str y) as R. rewrite H, read_py_str in R. congruence. Qed.

(** ** Ordinal numbers *)

Lemma py_str_last z : exists p, py_str z = p ++ String (digit (Z.abs z mod 10)) "" /\
  (10 <= Z.abs z -> exists q, p = q ++ String (digit (Z.abs z / 10 mod 10)) "") /\ (Z.abs z < 10 -> p = "" \/ p = "-").
Proof.
  assert (H : forall n, 0 <= n -> exists p, text n = p ++ String (digit (n mod 10)) "" /\
    (10 <= n -> exists q, p = q ++ String (digit (n / 10 mod 10)) "") /\ (n < 10 -> p = "")).
  { intros n N. destruct (Z_lt_ge_dec n 10).
    - exists "". rewrite text_small, Z.mod_small by lia. repeat split; lia.
    - exists (text (n / 10)). rewrite text_large by lia. repeat split; [|lia]. intros _.
      assert (0 < n / 10) by (apply Z.div_str_pos; lia). destruct (Z_lt_ge_dec (n / 10) 10).
      + exists "". rewrite text_small, Z.mod_small by lia. reflexivity.
      + exists (text (n / 10 / 10)). rewrite text_large by lia. reflexivity. }
  destruct (Z_lt_ge_dec z 0).
  - rewrite py_str_neg by lia. replace (Z.abs z) with (- z) by lia. destruct (H (- z)) as (p & -> & P1 & P2); [lia|].
    exists (String "-" p). split; [reflexivity|]. split.
    + intros L. destruct (P1 L) as [q ->]. now exists (String "-" q).
    + intros L. rewrite P2 by lia. auto.
  - rewrite py_str_nonneg by lia. replace (Z.abs z) with z by lia. destruct (H z) as (p & -> & P1 & P2); [lia|].
    exists p. split; [reflexivity|]. split; auto.
Qed.

Lemma digit_eqb d : 0 <= d < 10 ->
  Ascii.eqb (digit d) "1" = (d =? 1) /\ Ascii.eqb (digit d) "2" = (d =? 2) /\ Ascii.eqb (digit d) "3" = (d =? 3).
Proof. intros H. digit_cases d; repeat split. Qed.

Lemma counting_number_spec z : counting_number z = py_str z ++ ordinal_suffix z.
Proof.
  unfold counting_number, ordinal_suffix. destruct (py_str_last z) as (p & E & P1 & P2). rewrite E.
  set (n := Z.abs z) in *. assert (N : 0 <= n) by lia. clearbody n.
  pose proof (Z.mod_pos_bound n 10 ltac:(lia)) as D0. destruct (digit_eqb (n mod 10) D0) as (X1 & X2 & X3).
  rewrite !endswith_char, X1, X2, X3.
  destruct (Z_lt_ge_dec n 10) as [L|L].
  - assert (T : forall c, In c ["1"; "2"; "3"]%char -> endswith (p ++ String (digit (n mod 10)) "") (String "1" (String c "")) = false).
    { intros c _. destruct (P2 L) as [-> | ->]; [reflexivity|]. apply (endswith_two ""). }
    rewrite !T by (cbn; tauto). rewrite !andb_true_r. rewrite (Z.mod_small n 100), (Z.mod_small n 10) by lia.
    replace (_ && _) with false by lia. destruct (n =? 1), (n =? 2), (n =? 3); reflexivity.
  - destruct (P1 ltac:(lia)) as [q ->]. rewrite !endswith_two, X1, X2, X3.
    pose proof (Z.mod_pos_bound (n / 10) 10 ltac:(lia)) as D1. destruct (digit_eqb (n / 10 mod 10) D1) as (Y1 & _ & _). rewrite Y1.
    assert (M : n mod 100 = 10 * (n / 10 mod 10) + n mod 10).
    { change 100 with (10 * 10). rewrite Z.rem_mul_r by lia. lia. }
    rewrite M. set (a := n mod 10) in *. set (b := n / 10 mod 10) in *. clearbody a b.
    destruct ((11 <=? _) && _) eqn:T, (a =? 1) eqn:A1, (a =? 2) eqn:A2, (a =? 3) eqn:A3, (b =? 1) eqn:B1; cbn [andb negb]; lia || reflexivity.
Qed.
