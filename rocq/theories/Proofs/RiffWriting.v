(** Writing wav files byte by byte. *)

From Coq Require Import String ZArith QArith List Bool Lia ZifyBool.
From Verif.Model Require Import Py Numpy Vector Functions Signal Pcm Json Riff.
From Verif.Spec Require Import PcmSpec RiffSpec.
From Verif.Proofs Require Import PyFacts NumpyFacts VectorFacts InterleaveFacts PcmCodes PcmWriting PcmReading PcmResults RiffBytes.
Import ListNotations.
Open Scope list_scope.
Open Scope Z_scope.

Notation codes := Json.codes.

Ltac red_w := cbv [new_writer put seek set_length set_written set_form_position set_data_position set_header w_channels w_width w_rate w_nframes
  w_datalength w_datawritten w_header w_form_position w_data_position w_position w_history].
Ltac red_w_all := cbv [new_writer put seek set_length set_written set_form_position set_data_position set_header w_channels w_width w_rate w_nframes
  w_datalength w_datawritten w_header w_form_position w_data_position w_position w_history] in *.

Section Header.
Variables ch width rate : Z.
Hypothesis Hch : 1 <= ch.
Hypothesis Hwidth : 1 <= width <= 4.
Hypothesis Hrate : 1 <= rate.

(** The header after the first number *)
Definition middle : list Z := codes "WAVE" ++ codes "fmt " ++ number 4 16 ++ format ch width rate ++ codes "data".
Definition head (x y : list Z) : list Z := codes "RIFF" ++ x ++ middle ++ y.

Lemma zlen_middle : zlen middle = 32.
Proof. unfold middle, format. rewrite !zlen_app, !zlen_number by lia. reflexivity. Qed.

Lemma zlen_head x y : zlen x = 4 -> zlen y = 4 -> zlen (head x y) = 44.
Proof. intros X Y. unfold head. rewrite !zlen_app, zlen_middle, X, Y. reflexivity. Qed.

Lemma head_wav data : wav_file ch width rate data = head (number 4 (36 + zlen data)) (number 4 (zlen data)) ++ data.
Proof. unfold wav_file, head, middle. now rewrite <- !app_assoc. Qed.

Lemma pack_header_cases k : 0 <= k ->
  (header_fits ch width rate k /\ pack_header ch width rate (k * ch * width) = Ok (number 4 (36 + k * (ch * width)) ++ middle))
  \/ (~ header_fits ch width rate k /\ pack_header ch width rate (k * ch * width) = Err StructError).
Proof.
  intros K. unfold pack_header.
  assert (D : {header_fits ch width rate k} + {~ header_fits ch width rate k}).
  { unfold header_fits. destruct (Z_lt_dec (ch * width) (2 ^ 16)), (Z_lt_dec (ch * width * rate) (2 ^ 32)), (Z_lt_dec (36 + ch * width * k) (2 ^ 32)); auto; right; tauto. }
  destruct D as [H | H]; [left | right]; (split; [exact H |]).
  - destruct H as (H1 & H2 & H3). change (2 ^ 16) with 65536 in H1. change (2 ^ 32) with 4294967296 in H2, H3.
    assert (Hc : ch < 65536) by nia. assert (Hr : rate < 4294967296) by nia.
    rewrite !pack_unsigned_ok by (change (256 ^ Z.of_nat 4) with 4294967296; change (256 ^ Z.of_nat 2) with 65536; nia).
    change (Z.of_nat 4) with 4. change (Z.of_nat 2) with 2. cbn [sequence bind concat]. unfold middle, format. rewrite <- !app_assoc, app_nil_r.
    replace (k * ch * width) with (k * (ch * width)) by lia. replace (ch * rate * width) with (ch * width * rate) by lia.
    replace (width * 8) with (8 * width) by lia. reflexivity.
  - assert (P : forall n z, pack_unsigned n z = Err StructError \/ 0 <= z < 256 ^ Z.of_nat n /\ pack_unsigned n z = Ok (number (Z.of_nat n) z)).
    { intros n z. destruct (Z_lt_dec z 0); [left; apply pack_unsigned_err; lia |].
      destruct (Z_lt_dec z (256 ^ Z.of_nat n)); [right; split; [lia | apply pack_unsigned_ok; lia] | left; apply pack_unsigned_err; lia]. }
    cbn [sequence].
    repeat match goal with
    | |- context [pack_unsigned ?n ?z] =>
        let E := fresh "E" in let B := fresh "B" in destruct (P n z) as [E | [B E]]; rewrite E; clear E; cbn [bind]; [reflexivity |]
    end.
    exfalso. apply H. change (256 ^ Z.of_nat 4) with 4294967296 in *. change (256 ^ Z.of_nat 2) with 65536 in *.
    unfold header_fits. change (2 ^ 16) with 65536. change (2 ^ 32) with 4294967296. repeat split; nia.
Qed.

(** ** Contents, from which not more than a beginning of the data can be loaded *)

Variable all : list Z.

Definition fitting : Prop := ch * width < 2 ^ 16 /\ ch * width * rate < 2 ^ 32.

Definition part_of_file (c : list Z) : Prop :=
  fitting /\ exists x y j, zlen x = 4 /\ zlen y = 4 /\ Forall byte x /\ Forall byte y /\ c = ztake j (head x y ++ all).

Definition shape (c : list Z) : Prop := part_of_file c \/ exists j, c = ztake j (codes "RIFF" ++ codes "RIFF").

Definition safe (h : history) : Prop := forall j, shape (contents (ztake j h)).

Lemma safe_nil : safe [].
Proof.
  intros j. unfold ztake. rewrite firstn_nil. right. exists 0. reflexivity.
Qed.

Lemma safe_app h k : safe h -> (forall j, shape (contents (h ++ ztake j k))) -> safe (h ++ k).
Proof.
  intros H K j. destruct (Z.le_gt_cases j (zlen h)) as [L | L].
  - rewrite take_less by lia. apply H.
  - rewrite take_more by lia. apply K.
Qed.

Lemma shape_take x y c b t j : fitting -> zlen x = 4 -> zlen y = 4 -> Forall byte x -> Forall byte y -> c ++ b ++ t = head x y ++ all ->
  shape (c ++ ztake j b).
Proof.
  intros Ft X Y Bx By E. left. split; [exact Ft |]. exists x, y, (zlen c + Z.max 0 (Z.min j (zlen b))). repeat (split; [assumption |]). rewrite <- E.
  pose proof (zlen_nonneg b). rewrite take_more by lia. f_equal. replace (_ + _ - _) with (Z.max 0 (Z.min j (zlen b))) by lia. rewrite take_less by lia.
  unfold ztake. destruct (Z.le_gt_cases j 0); [f_equal; lia |]. destruct (Z.le_gt_cases j (zlen b)); [f_equal; lia |].
  unfold zlen in *. rewrite !firstn_all2 by lia. reflexivity.
Qed.

(** ** The writer *)

Lemma put_history w b : w_history (put w b) = w_history w ++ combine (zseq (w_position w) (zlen b)) b.
Proof. reflexivity. Qed.

Lemma put_position w b : w_position (put w b) = w_position w + zlen b.
Proof. reflexivity. Qed.

Lemma put_end w b : w_position w = zlen (contents (w_history w)) ->
  contents (w_history (put w b)) = contents (w_history w) ++ b /\ w_position (put w b) = zlen (contents (w_history (put w b)))
  /\ (safe (w_history w) -> (forall j, shape (contents (w_history w) ++ ztake j b)) -> safe (w_history (put w b))).
Proof.
  intros P. assert (E : contents (w_history (put w b)) = contents (w_history w) ++ b).
  { rewrite put_history, contents_app, P. apply puts_end. }
  split; [exact E |]. split; [rewrite E, zlen_app, put_position; lia |].
  intros S H. apply safe_app; [exact S |]. intros j. rewrite take_combine, contents_app, P, puts_end. apply H.
Qed.

Lemma put_middle w b a y z : w_position w = zlen a -> contents (w_history w) = a ++ y ++ z -> zlen b = zlen y ->
  contents (w_history (put w b)) = a ++ b ++ z
  /\ (safe (w_history w) -> (forall y', zlen y' = zlen y -> (Forall byte b -> Forall byte y -> Forall byte y') -> shape (a ++ y' ++ z)) -> safe (w_history (put w b))).
Proof.
  intros P C L. split.
  - rewrite put_history, contents_app, C. now apply puts_middle.
  - intros S H. apply safe_app; [exact S |]. intros j. rewrite take_combine, contents_app, C.
    set (b' := ztake j b). set (n := zlen b').
    assert (N : 0 <= n <= zlen y). { split; [apply zlen_nonneg |]. unfold n, b'. rewrite zlen_take. pose proof (zlen_nonneg b). lia. }
    rewrite <- (take_drop n y), <- app_assoc.
    unfold n at 1. rewrite puts_middle by (auto; rewrite zlen_take; unfold n in *; lia).
    rewrite (app_assoc b'). apply H.
    + rewrite zlen_app, zlen_drop. fold n. lia.
    + intros Bb By. apply Forall_app. split; [now apply Forall_take | now apply Forall_drop].
Qed.

Definition frame : Z := ch * width.

Lemma frame_pos : 1 <= frame.
Proof. unfold frame. nia. Qed.

Lemma fits_less a b : a <= b -> header_fits ch width rate b -> header_fits ch width rate a.
Proof. unfold header_fits. intros L (H1 & H2 & H3). repeat split; auto. nia. Qed.

Lemma fits_four k : 0 <= k -> header_fits ch width rate k -> 0 <= 36 + k * frame < 256 ^ Z.of_nat 4 /\ 0 <= k * frame < 256 ^ Z.of_nat 4.
Proof. intros K (_ & _ & H). pose proof frame_pos. change (256 ^ Z.of_nat 4) with (2 ^ 32). unfold frame in *. nia. Qed.

(** The writer, when the header announces [k] frames, and [d] are the data in the file, which has [n] frames *)
Definition has (w : writer) (k n : Z) (d : list Z) : Prop :=
  w_channels w = ch /\ w_width w = width /\ w_rate w = rate /\ w_datalength w = k * frame /\ w_datawritten w = n * frame /\ w_header w = true
  /\ w_form_position w = 4 /\ w_data_position w = 40
  /\ contents (w_history w) = head (number 4 (36 + k * frame)) (number 4 (k * frame)) ++ d /\ safe (w_history w).

Definition at_frame (w : writer) (k : Z) (d : list Z) : Prop :=
  has w k k d /\ zlen d = k * frame /\ w_position w = zlen (contents (w_history w)) /\ header_fits ch width rate k.

(** An exception has been raised, and closing the file raises it again. *)
Definition broken (w : writer) : Prop := safe (w_history w) /\ exists w', close_writer w = (Err StructError, w') /\ safe (w_history w').

Notation fresh := (new_writer ch width rate).

Lemma numbers k : zlen (number 4 k) = 4 /\ Forall byte (number 4 k).
Proof. split; [apply zlen_number; lia | apply number_bytes]. Qed.

Lemma header_ok k : 0 <= k -> header_fits ch width rate k ->
  exists w, write_header fresh (k * frame) = (Ok tt, w) /\ has w k 0 [] /\ w_position w = zlen (contents (w_history w)).
Proof.
  intros K Fk. assert (Ft : fitting) by (destruct Fk as (F1 & F2 & _); now split). unfold write_header. red_w.
  rewrite Z.eqb_refl. fold frame. rewrite Z.div_mul by (pose proof frame_pos; lia).
  destruct (pack_header_cases k K) as [[_ ->] | [N _]]; [| contradiction].
  red_w. replace (k * ch * width) with (k * frame) by (unfold frame; lia).
  rewrite (pack_unsigned_ok 4) by now apply fits_four. fold frame. change (Z.of_nat 4) with 4.
  eexists. split; [reflexivity |].
  set (x := number 4 (36 + k * frame)). set (y := number 4 (k * frame)).
  destruct (numbers (36 + k * frame)) as [X Bx]. destruct (numbers (k * frame)) as [Y By]. fold x in X, Bx. fold y in Y, By.
  set (w0 := Writer ch width rate k (k * frame) 0 false 4 40 0 []).
  destruct (put_end w0 (codes "RIFF") eq_refl) as (C1 & P1 & S1).
  destruct (put_end (put w0 (codes "RIFF")) (x ++ middle) P1) as (C2 & P2 & S2).
  destruct (put_end (put (put w0 (codes "RIFF")) (x ++ middle)) y P2) as (C3 & P3 & S3).
  rewrite C1 in C2, S2. rewrite C2 in C3, S3. change (contents (w_history w0)) with (@nil Z) in *. cbn [app] in *.
  assert (L1 : zlen (x ++ middle) = 36) by (rewrite zlen_app, zlen_middle; lia).
  assert (E : forall j, shape (codes "RIFF" ++ ztake j (x ++ middle))).
  { intros j. apply (shape_take x y _ _ (y ++ all)); try assumption. unfold head. now rewrite <- !app_assoc. }
  assert (Sf : safe (w_history (put (put (put w0 (codes "RIFF")) (x ++ middle)) y))).
  { apply S3; [apply S2; [apply S1; [apply safe_nil |] | exact E] |].
    - intros j. apply (shape_take x y [] (codes "RIFF") (x ++ middle ++ y ++ all)); try assumption. unfold head. now rewrite <- !app_assoc.
    - intros j. apply (shape_take x y _ y all); try assumption. unfold head. now rewrite <- !app_assoc. }
  red_w_all.
  assert (L36 : 0 + zlen (codes "RIFF") + zlen (x ++ middle) = 40) by (rewrite L1; reflexivity).
  split; [| exact P3].
  unfold has. do 7 (split; [reflexivity |]). split; [exact L36 |]. split; [| exact Sf].
  etransitivity; [exact C3 |]. unfold head. rewrite app_nil_r, <- !app_assoc. reflexivity.
Qed.

Lemma header_broken k : 0 <= k -> ~ header_fits ch width rate k ->
  exists w, write_header fresh (k * frame) = (Err StructError, w) /\ broken w.
Proof.
  intros K Fk. unfold write_header. red_w.
  rewrite Z.eqb_refl. fold frame. rewrite Z.div_mul by (pose proof frame_pos; lia).
  destruct (pack_header_cases k K) as [[N _] | [_ E]]; [contradiction |]. rewrite E.
  eexists. split; [reflexivity |].
  assert (R : forall n h, h = ztake n (combine (zseq 0 8) (codes "RIFF" ++ codes "RIFF")) -> safe h).
  { intros n h -> j. rewrite take_take.
    change (combine (zseq 0 8) (codes "RIFF" ++ codes "RIFF")) with (combine (zseq 0 (zlen (codes "RIFF" ++ codes "RIFF"))) (codes "RIFF" ++ codes "RIFF")).
    rewrite take_combine. right. exists (Z.min j n).
    exact (puts_end (ztake (Z.min j n) (codes "RIFF" ++ codes "RIFF")) []). }
  split; [apply (R 4); reflexivity |].
  unfold close_writer, ensure_header. red_w.
  replace (_ || _) with false by lia. unfold write_header.
  red_w.
  replace (if k =? 0 then 0 / (ch * width) else k) with k by (destruct (Z.eqb_spec k 0); [subst; now rewrite Z.div_0_l by (pose proof frame_pos; unfold frame in *; lia) | reflexivity]).
  rewrite E. eexists. split; [reflexivity |]. apply (R 8). reflexivity.
Qed.

Lemma ensure_fresh n : ensure_header fresh n = write_header fresh n.
Proof. unfold ensure_header. red_w. replace (_ || _) with false by lia. reflexivity. Qed.

Lemma ensure_has w k n d z : has w k n d -> ensure_header w z = (Ok tt, w).
Proof. intros H. unfold ensure_header. replace (w_header w) with true by (symmetry; apply H). reflexivity. Qed.

(** Closing the file *)
Lemma close_at w k d : at_frame w k d -> close_writer w = (Ok tt, w).
Proof.
  intros (H & _). unfold close_writer. rewrite (ensure_has _ _ _ _ _ H). destruct H as (_ & _ & _ & -> & -> & _). now rewrite Z.eqb_refl.
Qed.

Lemma close_fresh : (header_fits ch width rate 0 /\ exists w, close_writer fresh = (Ok tt, w) /\ at_frame w 0 [])
  \/ (~ header_fits ch width rate 0 /\ exists w, close_writer fresh = (Err StructError, w) /\ safe (w_history w)).
Proof.
  unfold close_writer. rewrite ensure_fresh. change 0 with (0 * frame).
  destruct (pack_header_cases 0 (Z.le_refl 0)) as [[Fk _] | [Fk _]]; [left | right]; (split; [exact Fk |]).
  - destruct (header_ok 0 (Z.le_refl 0) Fk) as (w & -> & H & P). exists w. cbn [negb].
    assert (E : w_datalength w =? w_datawritten w = true) by (destruct H as (_ & _ & _ & -> & -> & _); reflexivity).
    rewrite E. split; [reflexivity |]. split; [exact H |]. split; [reflexivity |]. split; [exact P | exact Fk].
  - destruct (header_broken 0 (Z.le_refl 0) Fk) as (w & -> & H). exists w. split; [reflexivity | apply H].
Qed.

(** Frames are written. *)
Lemma write_first k d t : 0 <= k -> zlen d = k * frame -> d ++ t = all ->
  (header_fits ch width rate k /\ exists w, write_frames fresh d = (Ok tt, w) /\ at_frame w k d)
  \/ (~ header_fits ch width rate k /\ exists w, write_frames fresh d = (Err StructError, w) /\ broken w).
Proof.
  intros K L E. unfold write_frames. rewrite ensure_fresh, L.
  destruct (pack_header_cases k K) as [[Fk _] | [Fk _]]; [left | right]; (split; [exact Fk |]).
  2: { destruct (header_broken k K Fk) as (w & -> & H). exists w. auto. }
  assert (Ft : fitting) by (destruct Fk as (F1 & F2 & _); now split).
  destruct (header_ok k K Fk) as (w & -> & H & P).
  destruct (put_end w d P) as (C1 & P1 & S1).
  destruct H as (H1 & H2 & H3 & H4 & H5 & H6 & H7 & H8 & H9 & H10). rewrite app_nil_r in H9.
  destruct w as [c wd r nf dl dw hd fp dp ps hs]. red_w_all. rewrite H4, H5, Z.add_0_l, Z.eqb_refl. cbn [negb].
  eexists. split; [reflexivity |]. split; [| split; [exact L | split; [exact P1 | exact Fk]]].
  unfold has. red_w.
  rewrite H9 in *. do 8 (split; [assumption || lia |]). split; [exact C1 |]. apply S1; [exact H10 |].
  intros j. destruct (numbers (36 + k * frame)) as [X Bx]. destruct (numbers (k * frame)) as [Y By].
  apply (shape_take _ _ _ d t j Ft X Y Bx By). now rewrite E.
Qed.

Lemma write_next w k m d d' t : 0 <= k -> 0 < m -> at_frame w k d -> zlen d' = m * frame -> d ++ d' ++ t = all ->
  (header_fits ch width rate (k + m) /\ exists w', write_frames w d' = (Ok tt, w') /\ at_frame w' (k + m) (d ++ d'))
  \/ (~ header_fits ch width rate (k + m) /\ exists w', write_frames w d' = (Err StructError, w') /\ broken w').
Proof.
  intros K M (H & L & P & Fk) L' E. assert (Ft : fitting) by (destruct Fk as (F1 & F2 & _); now split). pose proof frame_pos as Fp. unfold write_frames. rewrite (ensure_has _ _ _ _ _ H).
  destruct (put_end w d' P) as (C1 & P1 & S1).
  destruct H as (H1 & H2 & H3 & H4 & H5 & H6 & H7 & H8 & H9 & H10).
  set (x := number 4 (36 + k * frame)) in *. set (y := number 4 (k * frame)) in *.
  destruct (numbers (36 + k * frame)) as [X Bx]. destruct (numbers (k * frame)) as [Y By]. fold x in X, Bx. fold y in Y, By.
  rewrite H9, <- app_assoc in C1.
  assert (S2 : safe (w_history (put w d'))).
  { apply S1; [exact H10 |]. intros j. apply (shape_take x y _ d' t); try assumption. rewrite H9, <- app_assoc. now rewrite E. }
  set (w1 := put w d') in *.
  assert (W1 : w_datawritten w1 = k * frame /\ w_datalength w1 = k * frame /\ w_form_position w1 = 4 /\ w_data_position w1 = 40 /\ w_header w1 = true
     /\ w_channels w1 = ch /\ w_width w1 = width /\ w_rate w1 = rate) by (unfold w1; cbn; auto 10).
  clearbody w1. clear S1. destruct W1 as (A1 & A2 & A3 & A4 & A5 & A6 & A7 & A8).
  clear H1 H2 H3 H4 H5 H6 H7 H8. destruct w1 as [c wd r nf dl dw hd fp dp ps hs]. unfold w_datawritten, w_datalength, w_form_position, w_data_position, w_header,
    w_channels, w_width, w_rate in A1, A2, A3, A4, A5, A6, A7, A8. subst c wd r dl dw hd fp dp.
  unfold w_history in C1, S2. unfold w_position, w_history in P1. cbv zeta. red_w. rewrite L'. replace (k * frame =? k * frame + m * frame) with false by nia. cbn [negb].
  unfold patch_header. red_w.
  replace (k * frame + m * frame =? k * frame) with false by nia. red_w.
  replace (36 + (k * frame + m * frame)) with (36 + (k + m) * frame) by lia. replace (k * frame + m * frame) with ((k + m) * frame) by lia.
  assert (D : header_fits ch width rate (k + m) \/ ~ header_fits ch width rate (k + m) /\ ~ (36 + (k + m) * frame < 256 ^ Z.of_nat 4)).
  { destruct Fk as (F1 & F2 & _). unfold header_fits, frame. change (256 ^ Z.of_nat 4) with (2 ^ 32).
    destruct (Z_lt_dec (36 + ch * width * (k + m)) (2 ^ 32)); [left; auto | right; split; [tauto | nia]]. }
  destruct D as [Fkm | [Nf D]]; [left; split; [exact Fkm |] | right; split; [exact Nf |]].
  - set (w1 := Writer ch width rate nf (k * frame) (k * frame) true 4 40 ps hs) in *.
    destruct (fits_four (k + m) ltac:(lia) Fkm) as [B1 B2].
    rewrite (pack_unsigned_ok 4) by exact B1. cbv beta iota zeta. red_w.
    rewrite (pack_unsigned_ok 4) by exact B2. cbv beta iota zeta. change (Z.of_nat 4) with 4.
    set (x' := number 4 (36 + (k + m) * frame)) in *. set (y' := number 4 ((k + m) * frame)) in *.
    destruct (numbers (36 + (k + m) * frame)) as [X' Bx']. destruct (numbers ((k + m) * frame)) as [Y' By']. fold x' in X', Bx'. fold y' in Y', By'.
    assert (T : forall u v, zlen u = 4 -> zlen v = 4 -> Forall byte u -> Forall byte v -> shape (head u v ++ d ++ d')).
    { intros u v U V Bu Bv. pose proof (shape_take u v (head u v) (d ++ d') t (zlen (d ++ d')) Ft U V Bu Bv) as Z.
      rewrite take_all in Z by lia. apply Z. now rewrite <- app_assoc, E. }
    pose proof (put_middle (seek w1 4) x' (codes "RIFF") x (middle ++ y ++ d ++ d') eq_refl) as PM.
    red_w_all. unfold head in C1. rewrite <- !app_assoc in C1.
    specialize (PM C1 ltac:(lia)). destruct PM as [C2 S3].
    assert (S4 : safe (w_history (put (seek w1 4) x'))).
    { apply S3; [exact S2 |]. intros u U Bu. specialize (T u y ltac:(lia) Y (Bu Bx' Bx) By). unfold head in T. now rewrite <- !app_assoc in T. }
    set (w2 := put (seek w1 4) x') in *.
    pose proof (put_middle (seek w2 40) y' (codes "RIFF" ++ x' ++ middle) y (d ++ d')) as PM.
    red_w_all. rewrite <- !app_assoc in PM.
    assert (L40 : 40 = zlen (codes "RIFF" ++ x' ++ middle)) by (rewrite !zlen_app, zlen_middle, X'; reflexivity).
    specialize (PM L40 C2 ltac:(lia)). destruct PM as [C3 S5].
    assert (S6 : safe (w_history (put (seek w2 40) y'))).
    { apply S5; [exact S4 |]. intros v V Bv. specialize (T x' v X' ltac:(lia) Bx' (Bv By' By)). unfold head in T. now rewrite <- !app_assoc in T |- *. }
    eexists. split; [reflexivity |].
    red_w_all.
    unfold w2, w1 in *. red_w_all.
    split.
    + unfold has. red_w.
      do 8 (split; [assumption || lia |]). split; [| exact S6]. fold x' y'. rewrite C3. unfold head. now rewrite <- !app_assoc.
    + split; [rewrite zlen_app; lia |]. split; [| exact Fkm]. red_w. rewrite C3, P1, C1. rewrite !zlen_app. lia.
  - rewrite pack_unsigned_err by lia. eexists. split; [reflexivity |]. split; [exact S2 |].
    unfold close_writer, ensure_header. red_w.
    replace (k * frame =? (k + m) * frame) with false by nia. cbn [negb].
    unfold patch_header. red_w.
    replace ((k + m) * frame =? k * frame) with false by nia. red_w.
    rewrite pack_unsigned_err by lia. eexists. split; [reflexivity | exact S2].
Qed.
End Header.
