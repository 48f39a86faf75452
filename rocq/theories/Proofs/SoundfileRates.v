(** The sampling rates of sound files *)

From Coq Require Import String ZArith QArith Qabs Qround Lqa Lia List Bool.
From Verif.Model Require Import Py Functions Signal Persistence Pcm Soundfile.
From Verif.Spec Require Import PcmSpec SoundfileSpec.
From Verif.Proofs Require Import SliceFacts PcmCodes PcmResults.
Import ListNotations.
Open Scope list_scope.
Open Scope Z_scope.

Lemma half_near q : (inject_Z (py_round q) - (1 # 2) <= q /\ q <= inject_Z (py_round q) + (1 # 2))%Q.
Proof.
  pose proof (py_round_near q) as [A B]. destruct (inject_lin (py_round q)) as [L1 L2]. rewrite L1 in A. rewrite L2 in B. split; lra.
Qed.

Lemma int_le a b : (inject_Z a < inject_Z b + 1)%Q -> a <= b.
Proof.
  intros H. change 1%Q with (inject_Z 1) in H. rewrite <- inject_Z_plus, <- Zlt_Qlt in H. lia.
Qed.

Lemma le_int a b : a <= b -> (inject_Z a <= inject_Z b)%Q.
Proof. now rewrite Zle_Qle. Qed.

Lemma abs_below (a b : Q) : (a <= b \/ a <= - b)%Q -> (a <= Qabs b)%Q.
Proof.
  intros [H | H]; [apply Qle_trans with (1 := H), Qle_Qabs |].
  apply Qle_trans with (1 := H). rewrite <- Qabs_opp. apply Qle_Qabs.
Qed.

Lemma abs_above (a b : Q) : (a <= b)%Q -> (- a <= b)%Q -> (Qabs a <= b)%Q.
Proof. intros H K. apply Qabs_Qle_condition. split; lra. Qed.

Lemma ten k : (inject_Z (10 * k) == 10 * inject_Z k)%Q.
Proof. rewrite inject_Z_mult. reflexivity. Qed.

Lemma int_nearest format rate : format = "WAV"%string \/ format = "AIFF"%string -> is_nearest format rate (int_greater_zero rate).
Proof. intros [-> | ->]; exact (frame_rate_ok rate). Qed.

Lemma vorbis_nearest rate : is_nearest "OGG" rate (vorbis rate).
Proof.
  unfold vorbis. pose proof (half_near rate) as [A B]. set (z := py_round rate) in *.
  split; [cbn; lia |]. intros k K. change (1000 <= k <= 200000) in K.
  destruct (Z.le_gt_cases z 1000) as [L | L]; [| destruct (Z.le_gt_cases 200000 z) as [M | M]].
  - replace (Z.max _ _) with 1000 by lia. destruct (Z.eq_dec k 1000) as [-> | N]; [apply Qle_refl |].
    pose proof (le_int z 1000 L). pose proof (le_int 1001 k ltac:(lia)).
    apply abs_above; apply abs_below; right; change (inject_Z 1000) with 1000%Q in *; change (inject_Z 1001) with 1001%Q in *; lra.
  - replace (Z.max _ _) with 200000 by lia. destruct (Z.eq_dec k 200000) as [-> | N]; [apply Qle_refl |].
    pose proof (le_int 200000 z M). pose proof (le_int k 199999 ltac:(lia)).
    apply abs_above; apply abs_below; left; change (inject_Z 200000) with 200000%Q in *; change (inject_Z 199999) with 199999%Q in *; lra.
  - replace (Z.max _ _) with z by lia. apply py_round_nearest.
Qed.

(** FLAC: the result, if it is rounded to tens *)
Lemma flac_tens rate : (131071 # 2 <= rate)%Q ->
  6554 <= py_round (rate / 10) /\ ((rate < 131080 # 2)%Q -> py_round (rate / 10) = 6554)
  /\ (10 * inject_Z (py_round (rate / 10)) - 5 <= rate /\ rate <= 10 * inject_Z (py_round (rate / 10)) + 5)%Q.
Proof.
  intros H. pose proof (half_near (rate / 10)) as [A B]. set (z := py_round (rate / 10)) in *.
  assert (D : (rate / 10 == rate * (1 # 10))%Q) by reflexivity. rewrite D in A, B.
  assert (L : 6554 <= z) by (apply int_le; change (inject_Z 6554) with 6554%Q; lra).
  split; [exact L |]. split; [| split; lra].
  intros U. apply Z.le_antisymm; [| exact L]. apply int_le. change (inject_Z 6554) with 6554%Q. lra.
Qed.

Lemma qltb_iff x y : qltb x y = true <-> (x < y)%Q.
Proof.
  unfold qltb. rewrite negb_true_iff. split.
  - intros H. apply Qnot_le_lt. intros L. apply Qle_bool_iff in L. congruence.
  - intros H. apply not_true_is_false. intros L. apply Qle_bool_iff in L. apply (Qlt_not_le _ _ H L).
Qed.

Lemma qltb_not x y : qltb x y = false <-> (y <= x)%Q.
Proof. unfold qltb. rewrite negb_false_iff. apply Qle_bool_iff. Qed.

Lemma flac_supported rate : supported "FLAC" (flac rate).
Proof.
  unfold flac. destruct (qltb rate _) eqn:E.
  - apply qltb_iff in E. left. pose proof (half_near rate) as [A _].
    assert (py_round rate <= 65535) by (apply int_le; change (inject_Z 65535) with 65535%Q; lra). lia.
  - apply qltb_not in E. destruct (flac_tens rate E) as (L & _). right. unfold round_tens.
    exists (Z.min (py_round (rate / 10)) 65535). lia.
Qed.

Lemma flac_nearest rate : (rate < 131071 # 2)%Q \/ (131075 # 2 <= rate)%Q -> is_nearest "FLAC" rate (flac rate).
Proof.
  intros H. split; [apply flac_supported |]. intros k K.
  assert (P : 1 <= k <= 655350) by (destruct K as [K | (j & -> & K)]; lia).
  unfold flac. destruct (qltb rate _) eqn:E.
  - now apply frame_rate_ok.
  - apply qltb_not in E. destruct H as [H | H]; [lra |]. destruct (flac_tens rate E) as (L & L' & A & B). unfold round_tens.
    set (z := py_round (rate / 10)) in *.
    destruct (Z.le_gt_cases z 65535) as [M | M].
    + replace (Z.min _ _) with (10 * z) by lia. rewrite ten. destruct K as [K | (j & -> & K)].
      * pose proof (le_int k 65535 ltac:(lia)) as U. change (inject_Z 65535) with 65535%Q in U.
        destruct (Qlt_le_dec rate (131080 # 2)) as [V | V].
        -- rewrite (L' V). change (inject_Z 6554) with 6554%Q. apply abs_above; apply abs_below; left; lra.
        -- apply abs_above; apply abs_below; left; lra.
      * rewrite ten. destruct (Z.eq_dec j z) as [-> | N]; [apply Qle_refl |].
        destruct (Z.lt_ge_cases j z) as [O | O].
        -- pose proof (le_int (j + 1) z ltac:(lia)) as U. rewrite inject_Z_plus in U. change (inject_Z 1) with 1%Q in U.
           apply abs_above; apply abs_below; left; lra.
        -- pose proof (le_int (z + 1) j ltac:(lia)) as U. rewrite inject_Z_plus in U. change (inject_Z 1) with 1%Q in U.
           apply abs_above; apply abs_below; right; lra.
    + replace (Z.min _ _) with 655350 by lia. pose proof (le_int 65536 z ltac:(lia)) as U. change (inject_Z 65536) with 65536%Q in U.
      pose proof (le_int k 655350 ltac:(lia)) as V. change (inject_Z 655350) with 655350%Q in *.
      apply abs_above; apply abs_below; left; lra.
Qed.

(** The gap, in which 65540 Hz are chosen, although 65535 Hz are nearer *)
Lemma flac_gap rate : (131071 # 2 <= rate)%Q -> (rate < 131075 # 2)%Q -> flac rate = 65540.
Proof.
  intros H K. unfold flac. destruct (qltb rate _) eqn:E; [apply qltb_iff in E; lra |].
  destruct (flac_tens rate H) as (_ & L & _). unfold round_tens. rewrite L by lra. reflexivity.
Qed.

Lemma flac_not_nearest rate : (131071 # 2 <= rate)%Q -> (rate < 131075 # 2)%Q -> ~ is_nearest "FLAC" rate (flac rate).
Proof.
  intros H K [_ N]. rewrite flac_gap in N by auto.
  specialize (N 65535 ltac:(left; lia)). change (inject_Z 65535) with 65535%Q in N. change (inject_Z 65540) with 65540%Q in N.
  rewrite (Qabs_pos (rate - 65535)) in N by lra. rewrite (Qabs_neg (rate - 65540)) in N by lra. lra.
Qed.
