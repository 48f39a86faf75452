(** Slices with arbitrary steps, [index]: lemmas for C05, C06, C07. *)

From Coq Require Import String ZArith QArith Qround List Bool Lia ZifyBool Lqa.
From Verif.Model Require Import Py Numpy Functions.
From Verif.Proofs Require Import PyFacts NumpyFacts.
Import ListNotations.
Open Scope Z_scope.

Lemma slice_count_nonneg s len : slice_step s <> 0 -> 0 <= slice_count s len.
Proof.
  intros H. unfold slice_count. destruct (Z.ltb_spec (slice_step s) 0).
  - destruct (Z.ltb_spec (slice_last s len) (slice_first s len)); [|lia].
    pose proof (Z.div_pos (slice_first s len - slice_last s len - 1) (- slice_step s)). lia.
  - destruct (Z.ltb_spec (slice_first s len) (slice_last s len)); [|lia].
    pose proof (Z.div_pos (slice_last s len - slice_first s len - 1) (slice_step s)). lia.
Qed.

Lemma slice_position_range s len k :
  0 <= len -> slice_step s <> 0 -> 0 <= k < slice_count s len ->
  0 <= slice_first s len + k * slice_step s < len.
Proof.
  intros L S K. unfold slice_count in K.
  assert (F : slice_step s < 0 -> slice_first s len <= len - 1).
  { unfold slice_first, adjust_bound. intros. destruct (sl_start s); zcases. }
  assert (F' : 0 < slice_step s -> 0 <= slice_first s len).
  { unfold slice_first, adjust_bound. intros. destruct (sl_start s); zcases. }
  assert (G : slice_step s < 0 -> -1 <= slice_last s len).
  { unfold slice_last, adjust_bound. intros. destruct (sl_stop s); zcases. }
  assert (G' : 0 < slice_step s -> slice_last s len <= len).
  { unfold slice_last, adjust_bound. intros. destruct (sl_stop s); zcases. }
  destruct (Z.ltb_spec (slice_step s) 0).
  - destruct (Z.ltb_spec (slice_last s len) (slice_first s len)); [|lia].
    pose proof (Z.mul_div_le (slice_first s len - slice_last s len - 1) (- slice_step s)). nia.
  - destruct (Z.ltb_spec (slice_first s len) (slice_last s len)); [|lia].
    pose proof (Z.mul_div_le (slice_last s len - slice_first s len - 1) (slice_step s)). nia.
Qed.

Lemma pick_in {A} (l : list A) ps : Forall (fun p => 0 <= p < zlen l) ps ->
  zlen (pick l ps) = zlen ps /\
  forall i, zth (pick l ps) i = match zth ps i with Some p => zth l p | None => None end.
Proof.
  induction 1 as [|p ps P _ [IH1 IH2]]; cbn [pick].
  - split; auto. intros. rewrite !zth_nil. reflexivity.
  - destruct (zth_in l p P) as [a E]. rewrite E. split; [rewrite !zlen_cons; lia|].
    intros i. rewrite zth_cons, zth_cons. destruct (i =? 0); auto.
Qed.

Lemma getslice_ok {A} (l : list A) s : slice_step s <> 0 ->
  exists r, getslice l s = Ok r /\ zlen r = slice_count s (zlen l) /\
    forall i, zth r i = if (0 <=? i) && (i <? slice_count s (zlen l))
                        then zth l (slice_first s (zlen l) + i * slice_step s) else None.
Proof.
  intros S. unfold getslice. destruct (Z.eqb_spec (slice_step s) 0); [lia|].
  eexists. split; [reflexivity|].
  pose proof (slice_count_nonneg s (zlen l) S).
  destruct (pick_in l (slice_positions s (zlen l))) as [L H1].
  - unfold slice_positions. rewrite Forall_map, Forall_forall. intros k K.
    apply In_zth in K as [i E]. rewrite zth_seq in E.
    destruct ((0 <=? i) && (i <? slice_count s (zlen l))) eqn:R; [|discriminate].
    injection E as <-. apply slice_position_range; auto; try apply zlen_nonneg; lia.
  - split.
    + rewrite L. unfold slice_positions. rewrite zlen_map, zlen_seq. lia.
    + intros i. rewrite H1. unfold slice_positions. rewrite zth_map, zth_seq.
      destruct ((0 <=? i) && (i <? slice_count s (zlen l))); reflexivity.
Qed.

(** A slice with step one is a contiguous part. *)
Lemma slice_count_one a b len : 0 <= len ->
  slice_count (Slice a b None) len = upper (a, b) len - lower (a, b) len.
Proof.
  intros L. pose proof (lower_range (a, b) len L). pose proof (upper_range (a, b) len L).
  unfold slice_count. change (slice_step (Slice a b None)) with 1. change (1 <? 0) with false. cbv iota.
  rewrite Z.div_1_r. unfold upper, lower in *. cbn [fst snd] in *. zcases.
Qed.

(** ** [index] *)

Lemma index_loop_nonneg fuel i len : 0 <= i -> index_loop fuel i len = Some i.
Proof. intros H. destruct fuel; cbn; replace (i <? 0) with false by lia; reflexivity. Qed.

Lemma index_loop_pos fuel : forall i len, 0 < len -> - i <= Z.of_nat fuel ->
  index_loop fuel i len = Some (if i <? 0 then i mod len else i).
Proof.
  induction fuel; intros i len L H; cbn [index_loop]; destruct (Z.ltb_spec i 0); auto; try lia.
  rewrite IHfuel by lia. f_equal. destruct (Z.ltb_spec (i + len) 0).
  - rewrite <- (Z.mod_add i 1 len) by lia. f_equal. lia.
  - rewrite <- (Z.mod_add i 1 len) by lia. rewrite Z.mod_small; lia.
Qed.

Lemma index_loop_diverges fuel : forall i len, i < 0 -> len <= 0 -> index_loop fuel i len = None.
Proof.
  induction fuel; intros i len I L; cbn [index_loop]; destruct (Z.ltb_spec i 0); try lia; auto.
  apply IHfuel; lia.
Qed.

Lemma index_loop_fuel fuel fuel' i len v : (fuel <= fuel')%nat -> index_loop fuel i len = Some v -> index_loop fuel' i len = Some v.
Proof.
  revert fuel' i. induction fuel; intros fuel' i H; cbn [index_loop].
  - destruct (Z.ltb_spec i 0); [discriminate|]. intros E. injection E as <-. now apply index_loop_nonneg.
  - destruct (Z.ltb_spec i 0).
    + intros E. destruct fuel'; [lia|]. cbn [index_loop]. destruct (Z.ltb_spec i 0); [|lia].
      apply IHfuel; auto. lia.
    + intros E. injection E as <-. now apply index_loop_nonneg.
Qed.

(** The fuel that the model uses suffices whenever any fuel does. *)
Lemma index_hangs_iff z len : index (NInt z) len = Err Hangs <-> forall fuel, index_loop fuel z len = None.
Proof.
  unfold index. split.
  - intros H fuel. destruct (index_loop (Z.to_nat (- z)) z len) eqn:E; [discriminate|].
    destruct (Z.lt_ge_cases z 0) as [N|N]; [|rewrite index_loop_nonneg in E by lia; discriminate].
    destruct (Z.lt_ge_cases 0 len) as [P|P]; [|apply index_loop_diverges; lia].
    rewrite index_loop_pos in E by lia. discriminate.
  - intros H. rewrite H. reflexivity.
Qed.

Lemma index_int z len : 0 < len -> index (NInt z) len = Ok (if z <? 0 then z mod len else z).
Proof. intros L. unfold index. rewrite index_loop_pos by lia. reflexivity. Qed.

Lemma index_float q len : 0 < len ->
  index (NFloat q) len = Ok (let z := py_round (q * inject_Z len) in if z <? 0 then z mod len else z).
Proof. intros L. unfold index. rewrite index_loop_pos by lia. reflexivity. Qed.

(** [py_round] is the nearest integer. *)
Lemma py_round_near q : (inject_Z (2 * py_round q - 1) <= 2 * q /\ 2 * q <= inject_Z (2 * py_round q + 1))%Q.
Proof.
  unfold py_round.
  pose proof (Qfloor_le q) as H1. pose proof (Qlt_floor q) as H2.
  set (f := Qfloor q) in *. rewrite inject_Z_plus in H2. change (inject_Z 1) with 1%Q in H2.
  assert (I : forall a, (inject_Z (2 * a - 1) == 2 * inject_Z a - 1)%Q).
  { intros a. unfold Z.sub. rewrite inject_Z_plus, inject_Z_mult. reflexivity. }
  assert (J : forall a, (inject_Z (2 * a + 1) == 2 * inject_Z a + 1)%Q).
  { intros a. rewrite inject_Z_plus, inject_Z_mult. reflexivity. }
  destruct (Qcompare (q - inject_Z f) (1 # 2)) eqn:C.
  - apply Qeq_alt in C. destruct (Z.even f); rewrite I, J, ?inject_Z_plus; change (inject_Z 1) with 1%Q; lra.
  - apply Qlt_alt in C. rewrite I, J. lra.
  - apply Qgt_alt in C. rewrite I, J, inject_Z_plus. change (inject_Z 1) with 1%Q. lra.
Qed.

(** Ties go to the even neighbour. *)
Lemma py_round_tie q : (2 * q == inject_Z (2 * py_round q - 1) \/ 2 * q == inject_Z (2 * py_round q + 1))%Q ->
  Z.even (py_round q) = true.
Proof.
  unfold py_round.
  pose proof (Qfloor_le q) as H1. pose proof (Qlt_floor q) as H2.
  set (f := Qfloor q) in *. rewrite inject_Z_plus in H2. change (inject_Z 1) with 1%Q in H2.
  assert (I : forall a, (inject_Z (2 * a - 1) == 2 * inject_Z a - 1)%Q).
  { intros a. unfold Z.sub. rewrite inject_Z_plus, inject_Z_mult. reflexivity. }
  assert (J : forall a, (inject_Z (2 * a + 1) == 2 * inject_Z a + 1)%Q).
  { intros a. rewrite inject_Z_plus, inject_Z_mult. reflexivity. }
  destruct (Qcompare (q - inject_Z f) (1 # 2)) eqn:C.
  - destruct (Z.even f) eqn:E; auto. intros _. rewrite Z.even_add, E. reflexivity.
  - apply Qlt_alt in C. rewrite I, J. intros [H|H]; exfalso; lra.
  - apply Qgt_alt in C. rewrite I, J, inject_Z_plus. change (inject_Z 1) with 1%Q. intros [H|H]; exfalso; lra.
Qed.
