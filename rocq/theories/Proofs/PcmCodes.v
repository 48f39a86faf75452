(** The integers for samples and their bytes. *)

From Coq Require Import String ZArith QArith Qabs List Bool Lia ZifyBool Lqa.
From Verif.Model Require Import Py Numpy Vector Functions Signal Pcm.
From Verif.Spec Require Import PcmSpec.
From Verif.Proofs Require Import PyFacts NumpyFacts VectorFacts SliceFacts InterleaveFacts.
Import ListNotations.
Open Scope list_scope.
Open Scope Z_scope.

Definition regular (F : pcm) : Prop := p_bits F = 8 \/ p_bits F = 16 \/ p_bits F = 32.

Lemma written_regular F : In F written_formats -> regular F.
Proof. unfold regular. cbn. intuition (subst; auto). Qed.

Definition wn (F : pcm) : nat := Z.to_nat (p_bytes F).

Lemma bytes_bits F : regular F -> p_bytes F = p_bits F / 8 /\ p_bits F = 8 * p_bytes F /\ 1 <= p_bytes F.
Proof. unfold regular, p_bytes. intros [-> | [-> | ->]]; vm_compute; repeat split; discriminate. Qed.

(** ** Bytes *)

Lemma little_endian_spec n : forall z, little_endian n z = map (fun i => (z / 256 ^ i) mod 256) (zseq 0 (Z.of_nat n)).
Proof.
  induction n as [| n IH]; intros z; [reflexivity |].
  rewrite zseq_cons by lia. cbn [map little_endian]. f_equal; [now rewrite Z.div_1_r |].
  rewrite IH. replace (Z.of_nat (Datatypes.S n) - 1) with (Z.of_nat n) by lia.
  rewrite (zseq_shift 0 1), map_map. apply map_ext_in. intros i I.
  apply In_zth in I. destruct I as (j & I). rewrite zth_seq in I.
  destruct ((0 <=? j) && (j <? Z.of_nat n)) eqn:B; [| discriminate]. injection I as <-.
  rewrite Z.pow_add_r by lia. rewrite Z.mul_comm, <- Z.div_div by lia. reflexivity.
Qed.

Lemma little_value_spec n : forall z, little_value (little_endian n z) = z mod 256 ^ Z.of_nat n.
Proof.
  induction n as [| n IH]; intros z; cbn [little_endian little_value].
  - change (256 ^ Z.of_nat 0) with 1. now rewrite Z.mod_1_r.
  - rewrite IH. replace (Z.of_nat (Datatypes.S n)) with (1 + Z.of_nat n) by lia.
    rewrite Z.pow_add_r by lia. change (256 ^ 1) with 256.
    rewrite Z.rem_mul_r by lia. lia.
Qed.

Lemma bytes_of_model F z : regular F ->
  bytes_of F z = (if p_big F then rev (little_endian (wn F) z) else little_endian (wn F) z).
Proof.
  intros R. destruct (bytes_bits F R) as (B & _ & P). unfold bytes_of, wn. rewrite little_endian_spec, <- B, Z2Nat.id by lia. reflexivity.
Qed.

Lemma bytes_of_length F z : regular F -> List.length (bytes_of F z) = wn F.
Proof.
  intros R. assert (L : forall n z, List.length (little_endian n z) = n) by (induction n; intros; cbn; auto).
  rewrite bytes_of_model by auto. destruct (p_big F); [rewrite rev_length |]; apply L.
Qed.

Definition storableb (F : pcm) (z : Z) : bool :=
  if p_signed F then (- 2 ^ (p_bits F - 1) <=? z) && (z <? 2 ^ (p_bits F - 1)) else (0 <=? z) && (z <? 2 ^ p_bits F).

Lemma storableb_iff F z : storableb F z = true <-> storable F z.
Proof. unfold storableb, storable. destruct (p_signed F); lia. Qed.

Lemma pack_one_spec F z : regular F -> pack_one F z = if storableb F z then Ok (bytes_of F z) else Err StructError.
Proof.
  intros R. destruct (bytes_bits F R) as (_ & B & _). unfold pack_one, storableb. rewrite <- B.
  destruct (p_signed F); cbn [andb]; rewrite bytes_of_model by auto; reflexivity.
Qed.

Lemma unpack_one_spec F z : regular F -> storable F z -> unpack_one F (bytes_of F z) = z.
Proof.
  intros R S. destruct (bytes_bits F R) as (_ & B & P). unfold unpack_one. rewrite bytes_of_model by auto.
  replace (if p_big F then rev (if p_big F then rev (little_endian (wn F) z) else little_endian (wn F) z)
           else if p_big F then rev (little_endian (wn F) z) else little_endian (wn F) z) with (little_endian (wn F) z)
    by (destruct (p_big F); auto using rev_involutive).
  rewrite little_value_spec. unfold wn. rewrite Z2Nat.id by lia. rewrite <- B.
  replace (256 ^ p_bytes F) with (2 ^ p_bits F) by (rewrite B; rewrite (Z.pow_mul_r 2 8) by lia; reflexivity).
  assert (D : 2 ^ p_bits F = 2 * 2 ^ (p_bits F - 1)).
  { replace (p_bits F) with (1 + (p_bits F - 1)) at 1 by lia. rewrite Z.pow_add_r by lia. reflexivity. }
  assert (P2 : 0 < 2 ^ (p_bits F - 1)) by (apply Z.pow_pos_nonneg; lia).
  unfold storable in S. destruct (p_signed F); cbn [andb].
  - destruct (Z.lt_ge_cases z 0) as [N | N].
    + replace (z mod 2 ^ p_bits F) with (z + 2 ^ p_bits F).
      2: { apply Z.mod_unique with (-1); lia. }
      destruct (Z.leb_spec (2 ^ (p_bits F - 1)) (z + 2 ^ p_bits F)); lia.
    + rewrite Z.mod_small by lia. destruct (Z.leb_spec (2 ^ (p_bits F - 1)) z); lia.
  - apply Z.mod_small. lia.
Qed.

Lemma sequence_pack F l : regular F ->
  sequence (map (pack_one F) l) = if forallb (storableb F) l then Ok (map (bytes_of F) l) else Err StructError.
Proof.
  intros R. induction l as [| z t IH]; [reflexivity |].
  cbn [map sequence forallb]. rewrite pack_one_spec by auto. destruct (storableb F z); cbn [bind andb]; [| reflexivity].
  rewrite IH. destruct (forallb (storableb F) t); reflexivity.
Qed.

Lemma pack_spec F n l : regular F -> zlen l = n ->
  pack F n l = if forallb (storableb F) l then Ok (flat_map (bytes_of F) l) else Err StructError.
Proof.
  intros R L. unfold pack. rewrite L, Z.eqb_refl, sequence_pack by auto.
  destruct (forallb (storableb F) l); cbn [bind]; [| reflexivity]. now rewrite flat_map_concat_map.
Qed.

Lemma unpack_spec F n l : regular F -> zlen l = n -> Forall (storable F) l -> unpack F n (flat_map (bytes_of F) l) = Ok l.
Proof.
  intros R L S. unfold unpack. destruct (bytes_bits F R) as (_ & _ & P).
  assert (W : Z.of_nat (wn F) = p_bytes F) by (unfold wn; lia).
  assert (E : forall l, Forall (fun a => List.length (bytes_of F a) = wn F) l) by (intros; apply Forall_forall; intros; now apply bytes_of_length).
  rewrite (flat_length _ (wn F)), L, W, Z.eqb_refl by auto. f_equal.
  apply zth_ext_in.
  - rewrite zlen_map, zlen_seq. pose proof (zlen_nonneg l). lia.
  - rewrite zlen_map, zlen_seq. intros i I. assert (0 <= i < n) by lia.
    rewrite zth_map, zth_seq. replace ((0 <=? i) && (i <? n)) with true by lia. cbn [option_map]. rewrite Z.add_0_l, <- W.
    rewrite flat_between by (auto; lia).
    destruct (zth_in l i ltac:(lia)) as [z Z0]. rewrite Z0. f_equal.
    assert (X : subseq (between i (i + 1)) l = [z]).
    { apply zth_ext_in; [rewrite zlen_between, zlen_cons, zlen_nil by lia; lia |].
      rewrite zlen_between by lia. intros j J. rewrite zth_between, zth_cons by lia. replace j with 0 by lia.
      replace (_ && _) with true by lia. exact Z0. }
    rewrite X. cbn [flat_map]. rewrite app_nil_r. apply unpack_one_spec; auto.
    rewrite Forall_zth in S. eauto.
Qed.

(** ** Rounding *)

Definition shifted (F : pcm) (x : Q) : Q := ((if p_signed F then x else x + 1) * scale F)%Q.
Definition code (F : pcm) (x : Q) : Z := py_round (shifted F x).

Lemma scale_pos F : regular F -> (0 < scale F)%Q.
Proof. unfold regular, scale. intros [-> | [-> | ->]]; reflexivity. Qed.

Lemma distance F x z : regular F -> (x - sample_of F z == (shifted F x - inject_Z z) / scale F)%Q.
Proof.
  intros R. pose proof (scale_pos F R) as P. unfold sample_of, shifted. fold (scale F).
  destruct (p_signed F); field; intros E; rewrite E in P; discriminate.
Qed.

Lemma abs_half (S a : Q) : (0 < S)%Q -> ((Qabs (a / S) <= (1 / S) / 2)%Q <-> (- (1) <= 2 * a /\ 2 * a <= 1)%Q)
  /\ ((Qabs (a / S) == (1 / S) / 2)%Q <-> (2 * a == 1)%Q \/ (2 * a == - (1))%Q).
Proof.
  intros P. assert (N : ~ (S == 0)%Q) by (intros E; rewrite E in P; discriminate).
  assert (I : (0 < / S)%Q) by now apply Qinv_lt_0_compat.
  assert (E : ((1 / S) / 2 == (1 # 2) * / S)%Q) by (field; auto).
  split.
  - rewrite E. rewrite Qabs_Qle_condition. unfold Qdiv. set (i := (/ S)%Q) in *.
    split; intros [H1 H2].
    + split.
      * apply (Qmult_le_r _ _ i I). lra.
      * apply (Qmult_le_r _ _ i I). lra.
    + apply (Qmult_le_r _ _ i I) in H1. apply (Qmult_le_r _ _ i I) in H2. split; lra.
  - rewrite E. unfold Qdiv. rewrite Qabs_Qmult. rewrite (Qabs_pos (/ S)) by lra.
    rewrite Qmult_inj_r by (intros Z; rewrite Z in I; discriminate).
    destruct (Qlt_le_dec a 0) as [L | L].
    + rewrite (Qabs_neg a) by lra. split; intros H; [right | destruct H]; lra.
    + rewrite (Qabs_pos a) by lra. split; intros H; [left | destruct H]; lra.
Qed.

Lemma inject_lin z : (inject_Z (2 * z - 1) == 2 * inject_Z z - 1)%Q /\ (inject_Z (2 * z + 1) == 2 * inject_Z z + 1)%Q.
Proof.
  split; unfold Z.sub; rewrite inject_Z_plus, inject_Z_mult; [change (inject_Z (- (1))) with (- (1))%Q |]; reflexivity.
Qed.

Lemma is_code_iff F x z : regular F ->
  is_code F x z <-> (inject_Z (2 * z - 1) <= 2 * shifted F x /\ 2 * shifted F x <= inject_Z (2 * z + 1))%Q
                    /\ ((2 * shifted F x == inject_Z (2 * z - 1) \/ 2 * shifted F x == inject_Z (2 * z + 1))%Q -> Z.even z = true).
Proof.
  intros R. unfold is_code, quantum. fold (scale F).
  destruct (abs_half (scale F) (shifted F x - inject_Z z) (scale_pos F R)) as [H1 H2].
  rewrite (distance F x z R).
  destruct (inject_lin z) as [L1 L2].
  rewrite H1, H2, L1, L2.
  assert (A1 : ((2 * (shifted F x - inject_Z z) == 1)%Q \/ (2 * (shifted F x - inject_Z z) == - (1))%Q)
               <-> (2 * shifted F x == 2 * inject_Z z - 1 \/ 2 * shifted F x == 2 * inject_Z z + 1)%Q).
  { split; intros [E | E]; [right | left | right | left]; lra. }
  rewrite A1.
  assert (A2 : (- (1) <= 2 * (shifted F x - inject_Z z) /\ 2 * (shifted F x - inject_Z z) <= 1)%Q
               <-> (2 * inject_Z z - 1 <= 2 * shifted F x /\ 2 * shifted F x <= 2 * inject_Z z + 1)%Q).
  { split; intros [E E']; split; lra. }
  rewrite A2. reflexivity.
Qed.

Lemma code_is_code F x : regular F -> is_code F x (code F x).
Proof. intros R. apply is_code_iff; auto. split; [apply py_round_near | apply py_round_tie]. Qed.

Lemma is_code_unique F x z z' : regular F -> is_code F x z -> is_code F x z' -> z = z'.
Proof.
  intros R H H'. apply is_code_iff in H; auto. apply is_code_iff in H'; auto.
  destruct H as [[A B] T], H' as [[A' B'] T'].
  assert (L1 : 2 * z - 1 <= 2 * z' + 1) by (rewrite Zle_Qle; lra).
  assert (L2 : 2 * z' - 1 <= 2 * z + 1) by (rewrite Zle_Qle; lra).
  destruct (Z.eq_dec z z') as [| N]; auto. exfalso.
  assert (C : z' = z + 1 \/ z = z' + 1) by lia. destruct C as [-> | ->].
  - replace (2 * (z + 1) - 1) with (2 * z + 1) in * by lia.
    assert (E : (2 * shifted F x == inject_Z (2 * z + 1))%Q) by lra.
    pose proof (T (or_intror E)). pose proof (T' (or_introl E)). rewrite Z.even_add in *. destruct (Z.even z); discriminate.
  - replace (2 * (z' + 1) - 1) with (2 * z' + 1) in * by lia.
    assert (E : (2 * shifted F x == inject_Z (2 * z' + 1))%Q) by lra.
    pose proof (T (or_introl E)). pose proof (T' (or_intror E)). rewrite Z.even_add in *. destruct (Z.even z'); discriminate.
Qed.

Definition low (F : pcm) : Z := if p_signed F then - 2 ^ (p_bits F - 1) else 0.

Lemma storable_low F z : regular F -> storable F z <-> low F <= z < low F + 2 * 2 ^ (p_bits F - 1).
Proof. intros R. unfold storable, low. destruct R as [-> | [-> | ->]]; destruct (p_signed F); lia. Qed.

Lemma low_even F : regular F -> Z.even (low F) = true /\ Z.even (2 ^ (p_bits F - 1)) = true.
Proof. intros R. unfold low. destruct R as [-> | [-> | ->]]; destruct (p_signed F); auto. Qed.

Lemma shifted_low F x : (shifted F x == x * scale F + inject_Z (low F + 2 ^ (p_bits F - 1)))%Q.
Proof.
  unfold shifted, low. destruct (p_signed F).
  - replace (- 2 ^ (p_bits F - 1) + 2 ^ (p_bits F - 1)) with 0 by lia. change (inject_Z 0) with 0%Q. ring.
  - rewrite Z.add_0_l. fold (scale F). ring.
Qed.

Lemma in_range_shifted F x : regular F ->
  in_range F x <-> (inject_Z (2 * low F - 1) <= 2 * shifted F x /\ 2 * shifted F x < inject_Z (2 * (low F + 2 * 2 ^ (p_bits F - 1)) - 1))%Q.
Proof.
  intros R. pose proof (scale_pos F R) as P. unfold in_range, quantum. fold (scale F). rewrite shifted_low.
  destruct (inject_lin (low F)) as [-> _]. destruct (inject_lin (low F + 2 * 2 ^ (p_bits F - 1))) as [-> _].
  rewrite !inject_Z_plus, inject_Z_mult. change (inject_Z 2) with 2%Q. fold (scale F).
  set (l := inject_Z (low F)). set (S := scale F) in *.
  assert (N : ~ (S == 0)%Q) by (intros E; rewrite E in P; discriminate).
  assert (E1 : (- (1) - 1 / S / 2 == (- (2) * S - 1) * / (2 * S))%Q) by (field; auto).
  assert (E2 : (1 - 1 / S / 2 == (2 * S - 1) * / (2 * S))%Q) by (field; auto).
  assert (E3 : (x == (2 * S * x) * / (2 * S))%Q) by (field; auto).
  assert (I : (0 < / (2 * S))%Q) by (apply Qinv_lt_0_compat; lra).
  rewrite E1, E2. rewrite E3 at 1 2. rewrite Qmult_le_r, Qmult_lt_r by exact I.
  split; intros [H1 H2]; split; lra.
Qed.

Lemma storable_code F x : regular F -> storable F (code F x) <-> in_range F x.
Proof.
  intros R. rewrite storable_low, in_range_shifted by auto.
  pose proof (code_is_code F x R) as C. apply is_code_iff in C; auto. destruct C as [[A B] T].
  destruct (low_even F R) as [E1 E2]. set (z := code F x) in *. set (y := (2 * shifted F x)%Q) in *.
  set (S := 2 ^ (p_bits F - 1)) in *. set (l := low F) in *.
  split.
  - intros [L U]. split.
    + apply Qle_trans with (inject_Z (2 * z - 1)); [rewrite <- Zle_Qle; lia | exact A].
    + destruct (Z.eq_dec z (l + 2 * S - 1)) as [E | E].
      * apply Qle_lteq in B. replace (2 * (l + 2 * S) - 1) with (2 * z + 1) by lia. destruct B as [B | B]; auto.
        specialize (T (or_intror B)). rewrite E in T. rewrite Z.even_sub, Z.even_add, Z.even_mul, E1 in T. discriminate.
      * apply Qle_lt_trans with (inject_Z (2 * z + 1)); auto. rewrite <- Zlt_Qlt. lia.
  - intros [L U]. split.
    + assert (2 * l - 1 <= 2 * z + 1) by (rewrite Zle_Qle; lra).
      destruct (Z.eq_dec z (l - 1)) as [E | E]; [| lia].
      replace (2 * l - 1) with (2 * z + 1) in * by lia. assert (Y : (y == inject_Z (2 * z + 1))%Q) by lra.
      specialize (T (or_intror Y)). rewrite E in T. rewrite Z.even_sub, E1 in T. discriminate.
    + assert (2 * z - 1 < 2 * (l + 2 * S) - 1) by (rewrite Zlt_Qlt; lra). lia.
Qed.

(** An integer is the code of its sample. *)
Lemma code_sample F z : regular F -> code F (sample_of F z) = z.
Proof.
  intros R. apply (is_code_unique F (sample_of F z)); auto using code_is_code.
  apply is_code_iff; auto.
  assert (E : (shifted F (sample_of F z) == inject_Z z)%Q).
  { pose proof (scale_pos F R) as P. unfold sample_of, shifted. fold (scale F).
    destruct (p_signed F); field; intros E; rewrite E in P; discriminate. }
  rewrite E. destruct (inject_lin z) as [-> ->]. repeat split; try lra.
Qed.
