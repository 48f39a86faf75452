(** Bytes of wav files: numbers, pieces of files, histories. *)

From Coq Require Import String ZArith QArith List Bool Lia ZifyBool.
From Verif.Model Require Import Py Numpy Vector Functions Signal Pcm Json Riff.
From Verif.Spec Require Import PcmSpec RiffSpec.
From Verif.Proofs Require Import PyFacts VectorFacts InterleaveFacts PcmCodes PcmResults.
Import ListNotations.
Open Scope list_scope.
Open Scope Z_scope.

(** ** Numbers *)

Lemma number_little n z : little_endian n z = number (Z.of_nat n) z.
Proof. apply little_endian_spec. Qed.

Lemma zlen_number n z : 0 <= n -> zlen (number n z) = n.
Proof. intros H. unfold number. rewrite zlen_map, zlen_seq. lia. Qed.

Lemma value_number n z : 0 <= n -> 0 <= z < 256 ^ n -> little_value (number n z) = z.
Proof.
  intros N H. rewrite <- (Z2Nat.id n) in * by lia. rewrite <- number_little, little_value_spec. now apply Z.mod_small.
Qed.

Lemma number_bytes n z : Forall byte (number n z).
Proof. unfold number, byte. apply Forall_forall. intros x H. apply in_map_iff in H. destruct H as (i & <- & _). apply Z.mod_pos_bound. lia. Qed.

Lemma value_range b : Forall byte b -> 0 <= little_value b < 256 ^ zlen b.
Proof. intros H. now apply little_inverse. Qed.

Lemma pack_unsigned_ok n z : 0 <= z < 256 ^ Z.of_nat n -> pack_unsigned n z = Ok (number (Z.of_nat n) z).
Proof. intros H. unfold pack_unsigned. replace (_ && _) with true by lia. now rewrite number_little. Qed.

Lemma pack_unsigned_err n z : ~ (0 <= z < 256 ^ Z.of_nat n) -> pack_unsigned n z = Err StructError.
Proof. intros H. unfold pack_unsigned. now replace (_ && _) with false by lia. Qed.

(** ** Pieces of lists *)

Lemma take_app {A} n (a b : list A) : n = zlen a -> ztake n (a ++ b) = a.
Proof. intros ->. unfold ztake, zlen. rewrite Nat2Z.id, firstn_app, Nat.sub_diag, firstn_all. cbn. now rewrite app_nil_r. Qed.

Lemma drop_app {A} n (a b : list A) : n = zlen a -> zdrop n (a ++ b) = b.
Proof. intros ->. unfold zdrop, zlen. rewrite Nat2Z.id, skipn_app, Nat.sub_diag, skipn_all. reflexivity. Qed.

Lemma take_all {A} n (l : list A) : zlen l <= n -> ztake n l = l.
Proof. intros H. unfold ztake, zlen in *. apply firstn_all2. lia. Qed.

Lemma take_more {A} n (a b : list A) : zlen a <= n -> ztake n (a ++ b) = a ++ ztake (n - zlen a) b.
Proof.
  intros H. unfold ztake, zlen in *. rewrite firstn_app, firstn_all2 by lia. do 2 f_equal. lia.
Qed.

Lemma take_less {A} n (a b : list A) : n <= zlen a -> ztake n (a ++ b) = ztake n a.
Proof.
  intros H. unfold ztake, zlen in *. rewrite firstn_app. replace (Z.to_nat n - List.length a)%nat with O by lia. cbn. apply app_nil_r.
Qed.

Lemma take_take {A} n m (l : list A) : ztake n (ztake m l) = ztake (Z.min n m) l.
Proof. unfold ztake. rewrite firstn_firstn. f_equal. lia. Qed.

Lemma take_drop {A} n (l : list A) : ztake n l ++ zdrop n l = l.
Proof. apply firstn_skipn. Qed.

Lemma take_neg {A} n (l : list A) : n <= 0 -> ztake n l = [].
Proof. intros H. unfold ztake. replace (Z.to_nat n) with O by lia. reflexivity. Qed.

Lemma lower_min a b len : 0 <= a -> 0 <= len -> lower (between a b) len = Z.min a len.
Proof. unfold_bounds; intros; zcases. Qed.

Lemma upper_min a b len : 0 <= a <= b -> 0 <= len -> upper (between a b) len = Z.min b len.
Proof. unfold_bounds; intros; zcases. Qed.

Lemma between_take {A} a b (l : list A) : 0 <= a <= b -> subseq (between a b) l = ztake (b - a) (zdrop a l).
Proof.
  intros H. pose proof (zlen_nonneg l) as N. unfold subseq. rewrite lower_min, upper_min by lia.
  destruct (Z.le_gt_cases a (zlen l)) as [L | L].
  - rewrite (Z.min_l a) by lia. destruct (Z.le_gt_cases b (zlen l)); [now rewrite Z.min_l by lia |]. rewrite Z.min_r by lia.
    rewrite !take_all; auto; rewrite zlen_drop; lia.
  - rewrite !Z.min_r by lia. unfold zdrop, ztake, zlen in *. rewrite !skipn_all2 by lia. now rewrite !firstn_nil.
Qed.

Lemma between_app {A} a b (x y z : list A) : a = zlen x -> b = a + zlen y -> subseq (between a b) (x ++ y ++ z) = y.
Proof.
  intros Ha Hb. pose proof (zlen_nonneg x). pose proof (zlen_nonneg y). rewrite between_take, drop_app by lia. apply take_app. lia.
Qed.

Lemma between_len {A} a n (l : list A) : 0 <= a -> 0 <= n -> zlen (subseq (between a (a + n)) l) = Z.max 0 (Z.min n (zlen l - a)).
Proof. intros H K. pose proof (zlen_nonneg l). rewrite zlen_subseq, lower_min, upper_min by lia. lia. Qed.

(** ** Histories *)

Lemma contents_app h k : contents (h ++ k) = fold_left put_byte k (contents h).
Proof. apply fold_left_app. Qed.

Lemma zseq_S p n : 0 <= n -> zseq p (1 + n) = p :: zseq (p + 1) n.
Proof. intros H. rewrite (InterleaveFacts.zseq_cons p (1 + n)) by lia. do 2 f_equal. lia. Qed.

(** Bytes at the end of the file *)
Lemma puts_end b : forall c, fold_left put_byte (combine (zseq (zlen c) (zlen b)) b) c = c ++ b.
Proof.
  induction b as [| x b IH]; intros c.
  - cbn. now rewrite app_nil_r.
  - rewrite zlen_cons, zseq_S by apply zlen_nonneg. cbn [combine fold_left put_byte].
    rewrite Z.ltb_irrefl, Z.sub_diag. change (zrepeat 0 0) with (@nil Z). cbn [app].
    replace (zlen c + 1) with (zlen (c ++ [x])) by (rewrite zlen_app; reflexivity). rewrite IH, <- app_assoc. reflexivity.
Qed.

(** Bytes in the middle of the file *)
Lemma puts_middle b : forall x y z p, p = zlen x -> zlen b = zlen y ->
  fold_left put_byte (combine (zseq p (zlen b)) b) (x ++ y ++ z) = x ++ b ++ z.
Proof.
  induction b as [| e b IH]; intros x y z p P L.
  - cbn. symmetry in L. apply zlen_zero in L. now subst.
  - destruct y as [| f y]; [rewrite zlen_cons, zlen_nil in L; pose proof (zlen_nonneg b); lia |].
    rewrite !zlen_cons in L. rewrite zlen_cons, zseq_S by apply zlen_nonneg. cbn [combine fold_left put_byte]. pose proof (zlen_nonneg y). pose proof (zlen_nonneg z).
    replace (p <? zlen (x ++ (f :: y) ++ z)) with true by (rewrite !zlen_app, zlen_cons; lia).
    rewrite (take_app p x) by auto.
    replace (x ++ (f :: y) ++ z) with ((x ++ [f]) ++ y ++ z) by (rewrite <- app_assoc; reflexivity).
    rewrite (drop_app (p + 1)) by (rewrite zlen_app; change (zlen [f]) with 1; lia).
    replace (x ++ e :: y ++ z) with ((x ++ [e]) ++ y ++ z) by (rewrite <- app_assoc; reflexivity).
    rewrite (IH (x ++ [e]) y z (p + 1)); [now rewrite <- app_assoc | rewrite zlen_app; change (zlen [e]) with 1; lia | lia].
Qed.

Lemma zlen_combine p (b : list Z) : zlen (combine (zseq p (zlen b)) b) = zlen b.
Proof.
  unfold zlen at 1. rewrite combine_length. pose proof (zlen_seq p (zlen b)). pose proof (zlen_nonneg b). unfold zlen in *. lia.
Qed.

Lemma take_combine k p (b : list Z) : ztake k (combine (zseq p (zlen b)) b) = combine (zseq p (zlen (ztake k b))) (ztake k b).
Proof.
  revert k p. induction b as [| x b IH]; intros k p.
  - unfold ztake. rewrite firstn_nil. cbn. now rewrite firstn_nil.
  - destruct (Z.le_gt_cases k 0) as [K | K]; [now rewrite !take_neg by lia |].
    rewrite zlen_cons, zseq_S by apply zlen_nonneg. cbn [combine].
    assert (T : forall {A} (a : A) l, ztake k (a :: l) = a :: ztake (k - 1) l).
    { intros A a l. unfold ztake. replace (Z.to_nat k) with (S (Z.to_nat (k - 1))) by lia. reflexivity. }
    rewrite !T, IH, zlen_cons, zseq_S by apply zlen_nonneg. reflexivity.
Qed.

Lemma Forall_take {A} (P : A -> Prop) n l : Forall P l -> Forall P (ztake n l).
Proof. intros H. rewrite <- (take_drop n l) in H. now apply Forall_app in H. Qed.

Lemma Forall_drop {A} (P : A -> Prop) n l : Forall P l -> Forall P (zdrop n l).
Proof. intros H. rewrite <- (take_drop n l) in H. now apply Forall_app in H. Qed.
