(** Loading a file with arbitrary contents. *)

From Coq Require Import String ZArith QArith List Bool Lia ZifyBool.
From Verif.Model Require Import Py Numpy Vector Functions Signal Persistence Pcm Json Riff.
From Verif.Spec Require Import PcmSpec RiffSpec.
From Verif.Proofs Require Import PyFacts NumpyFacts VectorFacts InterleaveFacts PcmCodes PcmWriting PcmReading PcmResults RiffBytes RiffReading RiffData RiffResults.
Import ListNotations.
Open Scope list_scope.
Open Scope Z_scope.

Section Anything.
Variable extensible : bool.
Variable file : list Z.
Hypothesis By : Forall byte file.
Variable form : Z.

Lemma outer_state n p b o : 0 <= p -> 0 <= n -> outer_read file form n (plain p) = (b, o) ->
  exists p', o = plain p' /\ p + zlen b <= p' /\ Forall byte b /\ zlen b <= n /\ (0 < zlen b -> 8 + p + zlen b <= zlen file).
Proof.
  intros P N. unfold outer_read, chunk_read, plain. destruct (Z.leb_spec form p) as [H | H].
  { intros E. apply pair_equal_spec in E. destruct E as [<- <-]. exists p. change (zlen (@nil Z)) with 0. repeat split; try lia. constructor. }
  set (n' := if form - p <? n then form - p else n). assert (N' : 0 <= n' <= n) by (unfold n'; destruct (Z.ltb_spec (form - p) n); lia).
  clearbody n'. unfold file_read at 1. set (d := subseq _ _).
  assert (Ld : zlen d = Z.max 0 (Z.min n' (zlen file - (8 + p)))) by (unfold d; rewrite between_len; lia).
  assert (Bd : Forall byte d) by (apply Forall_subseq; exact By). clearbody d.
  destruct (_ && _).
  - unfold file_read. set (dummy := subseq _ _). pose proof (zlen_nonneg dummy). intros E. apply pair_equal_spec in E. destruct E as [<- <-]. exists (p + zlen d + zlen dummy). split; [f_equal; lia |]. split; [lia |]. split; [assumption |]. split; lia.
  - intros E. apply pair_equal_spec in E. destruct E as [<- <-]. exists (p + zlen d). split; [f_equal; lia |]. split; [lia |]. split; [assumption |]. split; lia.
Qed.

Notation odd n := (if Z.odd n then 1 else 0).

Lemma inner_state size n a p b a' o : 0 <= p -> 0 <= n -> 0 <= size -> 0 <= a <= size + odd size -> chunk_read (outer_read file form) size n (a, plain p) = (b, (a', o)) ->
  exists p', o = plain p' /\ p <= p' /\ 0 <= a' <= size + odd size /\ Forall byte b /\ zlen b <= n.
Proof.
  intros P N S A. unfold chunk_read. destruct (Z.leb_spec size a) as [H | H].
  { intros [= <- <- <-]. exists p. change (zlen (@nil Z)) with 0. repeat split; try lia. constructor. }
  set (n' := if size - a <? n then size - a else n). assert (N' : 0 <= n' <= n /\ n' <= size - a) by (unfold n'; destruct (Z.ltb_spec (size - a) n); lia).
  clearbody n'. destruct (outer_read file form n' (plain p)) as [d o1] eqn:E1. destruct (outer_state n' p d o1 P ltac:(lia) E1) as (p1 & -> & P1 & B1 & L1 & _).
  pose proof (zlen_nonneg d). destruct ((a + zlen d =? size) && Z.odd size) eqn:D.
  - destruct (outer_read file form 1 (plain p1)) as [e o2] eqn:E2. destruct (outer_state 1 p1 e o2 ltac:(lia) ltac:(lia) E2) as (p2 & -> & P2 & B2 & L2 & _).
    pose proof (zlen_nonneg e). intros [= <- <- <-]. exists p2. replace (Z.odd size) with true in * by lia. repeat split; auto; lia.
  - intros [= <- <- <-]. exists p1. repeat split; auto; try lia.
Qed.

Lemma skip_state size a p o : 0 <= p -> 0 <= a <= size + odd size -> skip form size a (plain p) = Ok o -> exists p', o = plain p' /\ p <= p'.
Proof.
  intros P A. unfold skip, plain. cbn [fst]. destruct (_ || _); [discriminate |]. intros [= <-]. exists (p + (size - a + odd size)). split; [reflexivity |]. lia.
Qed.

Lemma little_nonneg b : Forall byte b -> 0 <= little_value b.
Proof. intros H. now destruct (value_range b H). Qed.

Lemma format_state size p : 0 <= p -> 0 <= size ->
  read_format extensible file form size (plain p) = Err RuntimeError
  \/ exists c r w a p', read_format extensible file form size (plain p) = Ok (c, r, w, (a, plain p')) /\ 1 <= c /\ 1 <= w /\ p <= p' /\ 0 <= a <= size + odd size.
Proof.
  intros P S. unfold read_format.
  destruct (chunk_read (outer_read file form) size 14 (0, plain p)) as [b [a1 o1]] eqn:E1.
  destruct (inner_state size 14 0 p b a1 o1 P ltac:(lia) S ltac:(destruct (Z.odd size); lia) E1) as (p1 & -> & P1 & A1 & B1 & L1).
  destruct (zlen b <? 14); [now left |]. destruct (negb _); [now left |].
  destruct (chunk_read (outer_read file form) size 2 (a1, plain p1)) as [bits [a2 o2]] eqn:E2.
  destruct (inner_state size 2 a1 p1 bits a2 o2 ltac:(lia) ltac:(lia) S A1 E2) as (p2 & -> & P2 & A2 & B2 & L2).
  destruct (zlen bits <? 2); [now left |].
  assert (Fin : forall a3 p3, p2 <= p3 -> 0 <= a3 <= size + odd size ->
    let w := (little_value bits + 7) / 8 in let c := little_value (subseq (between 2 4) b) in
    (if w =? 0 then Err RuntimeError else if c =? 0 then Err RuntimeError else Ok (c, little_value (subseq (between 4 8) b), w, (a3, plain p3))) = Err RuntimeError
    \/ exists c' r w' a p', (if w =? 0 then Err RuntimeError else if c =? 0 then Err RuntimeError else Ok (c, little_value (subseq (between 4 8) b), w, (a3, plain p3)))
         = Ok (c', r, w', (a, plain p')) /\ 1 <= c' /\ 1 <= w' /\ p <= p' /\ 0 <= a <= size + odd size).
  { intros a3 p3 P3 A3 w c. pose proof (little_nonneg bits B2). assert (0 <= w) by (apply Z.div_pos; lia).
    assert (0 <= c) by (apply little_nonneg; now apply Forall_subseq).
    destruct (Z.eqb_spec w 0); [now left |]. destruct (Z.eqb_spec c 0); [now left |]. right. exists c. do 4 eexists. split; [reflexivity |]. lia. }
  destruct (_ =? 65534); cbn [bind]; [| apply Fin; lia].
  destruct (chunk_read (outer_read file form) size 8 (a2, plain p2)) as [x [a3 o3]] eqn:E3.
  destruct (inner_state size 8 a2 p2 x a3 o3 ltac:(lia) ltac:(lia) S A2 E3) as (p3 & -> & P3 & A3 & B3 & L3).
  destruct (zlen x <? 8); [now left |].
  destruct (chunk_read (outer_read file form) size 16 (a3, plain p3)) as [y [a4 o4]] eqn:E4.
  destruct (inner_state size 16 a3 p3 y a4 o4 ltac:(lia) ltac:(lia) S A3 E4) as (p4 & -> & P4 & A4 & B4 & L4).
  destruct (zlen y <? 16); [now left |]. destruct (negb _); [now left |]. cbn [bind]. apply Fin; lia.
Qed.

Lemma find_state fuel : forall fmt p, 0 <= p -> Z.max 0 (zlen file - p) < Z.of_nat fuel -> (forall c r w, fmt = Some (c, r, w) -> 1 <= c /\ 1 <= w) ->
  find_data extensible file fuel form fmt (plain p) = Err RuntimeError
  \/ exists c r w size p', find_data extensible file fuel form fmt (plain p) = Ok (WaveReader c r w size (0, plain p')) /\ 1 <= c /\ 1 <= w /\ 0 <= size /\ 0 <= p'.
Proof.
  induction fuel as [| fuel IH]; intros fmt p P Fu Hf; cbn [find_data].
  { exfalso. lia. }
  unfold chunk_open.
  destruct (outer_read file form 4 (plain p)) as [name o1] eqn:E1.
  destruct (outer_state 4 p name o1 P ltac:(lia) E1) as (p1 & -> & P1 & B1 & L1 & M1). destruct (Z.ltb_spec (zlen name) 4) as [S1 | S1]; [now left |].
  destruct (outer_read file form 4 (plain p1)) as [b o2] eqn:E2.
  destruct (outer_state 4 p1 b o2 ltac:(lia) ltac:(lia) E2) as (p2 & -> & P2 & B2 & L2 & M2). destruct (Z.ltb_spec (zlen b) 4) as [S2 | S2]; [now left |].
  pose proof (little_nonneg b B2) as Z2. set (size := little_value b) in *.
  destruct (list_eq_dec _ _ _).
  - destruct (format_state size p2 ltac:(lia) Z2) as [-> | (c & r & w & a & p3 & -> & C & Wd & P3 & A)]; [now left |]. cbn [bind].
    destruct (skip form size a (plain p3)) as [o | er] eqn:Sk; cbn [bind].
    + destruct (skip_state size a p3 o ltac:(lia) A Sk) as (p4 & -> & P4). apply IH; try lia. intros c' r' w' [= <- <- <-]. auto.
    + unfold skip in Sk. destruct (_ || _) in Sk; [| discriminate]. injection Sk as <-. now left.
  - destruct (list_eq_dec _ _ _).
    + destruct fmt as [[[c r] w] |]; [| now left]. right. destruct (Hf c r w eq_refl). exists c, r, w, size, p2. split; [reflexivity |]. lia.
    + destruct (skip form size 0 (plain p2)) as [o | er] eqn:Sk; cbn [bind].
      * destruct (skip_state size 0 p2 o ltac:(lia) ltac:(destruct (Z.odd size); lia) Sk) as (p4 & -> & P4). apply IH; auto; lia.
      * unfold skip in Sk. destruct (_ || _) in Sk; [| discriminate]. injection Sk as <-. now left.
Qed.
End Anything.

Theorem anything ext file junk path : Forall byte file ->
  (exists e, read_wave ext file junk path = Err e /\ In e [RuntimeError; KeyError; StructError]) \/ exists t, read_wave ext file junk path = Ok t /\ wf_signal t /\ 1 <= count t.
Proof.
  intros B.
  assert (O : open_wave ext file = Err RuntimeError
    \/ exists form c r w size p, open_wave ext file = Ok (form, WaveReader c r w size (0, plain p)) /\ 1 <= c /\ 1 <= w /\ 0 <= size /\ 0 <= p).
  { unfold open_wave. destruct (chunk_open (file_read file) 0) as [[[name form] |] position] eqn:E; [| now left].
    destruct (list_eq_dec _ _ _); [| now left].
    assert (position = 8).
    { unfold chunk_open, file_read in E. rewrite between_len in E by lia. destruct (Z.ltb_spec (Z.max 0 (Z.min 4 (zlen file - 0))) 4) as [H | H]; [discriminate |].
      rewrite between_len in E by lia. destruct (Z.ltb_spec (Z.max 0 (Z.min 4 (zlen file - (0 + Z.max 0 (Z.min 4 (zlen file - 0)))))) 4) as [H' | H']; [discriminate |].
      apply pair_equal_spec in E. destruct E as [_ <-]. lia. }
    subst position. change (0, 8) with (plain 0). destruct (outer_read file form 4 (plain 0)) as [b o] eqn:E1.
    destruct (outer_state file B form 4 0 b o ltac:(lia) ltac:(lia) E1) as (p & -> & P & _). pose proof (zlen_nonneg b).
    destruct (list_eq_dec _ _ _); [| now left].
    destruct (find_state ext file B form (S (List.length file)) None p ltac:(lia)) as [-> | (c & r & w & size & p' & -> & H1)].
    - unfold zlen. lia.
    - intros c r w [=].
    - now left.
    - right. cbn [bind]. exists form, c, r, w, size, p'. auto. }
  destruct O as [E | (form & c & r & w & size & p & E & C & W & S & P)].
  { left. exists RuntimeError. split; [unfold read_wave, read_wave_with; now rewrite E | cbn; auto]. }
  destruct (format_of_width Wave w) as [F |] eqn:Fm.
  2: { left. exists KeyError. split; [unfold read_wave, read_wave_with; rewrite E; cbn [bind r_width]; now rewrite Fm | cbn; auto]. }
  assert (HF : In F wav_formats /\ w = p_bytes F).
  { unfold format_of_width in Fm. destruct (Z.eqb_spec w 1) as [-> | _]; [injection Fm as <-; cbn; auto |].
    destruct (Z.eqb_spec w 2) as [-> | _]; [injection Fm as <-; cbn; auto |]. destruct (Z.eqb_spec w 4) as [-> | _]; [injection Fm as <-; cbn; auto | discriminate]. }
  destruct HF as [HF ->].
  destruct (load ext file F form c r size p (8 + p) junk path 2048 HF C B S ltac:(lia) ltac:(lia) E) as [L1 L2].
  set (n := size / (c * p_bytes F)) in *. set (data := available file form size p (8 + p)) in *.
  destruct (Z.le_gt_cases (n * (c * p_bytes F)) (zlen data)) as [Le | Gt].
  2: { left. exists StructError. split; [now apply L1 | cbn; auto]. }
  right. set (f := SoundFile c (p_bytes F) r (ztake (n * (c * p_bytes F)) data)).
  assert (N0 : 0 <= n) by (apply Z.div_pos; nia).
  assert (Lf : zlen (f_data f) = n * (c * p_bytes F)) by (cbn [f_data f]; rewrite zlen_take; nia).
  destruct (file_codes_ok F f (wav_regular F HF) C eq_refl) as (Wm & Nm & Cm & Sm & Dm).
  - cbn [f_data f]. apply Forall_take. unfold data, available. now apply Forall_take, Forall_drop.
  - exists n. exact Lf.
  - assert (Fr : f_frames f = n) by (unfold f_frames; rewrite Lf; cbn [f_channels f_width f]; apply Z.div_mul; nia).
    destruct (L2 (file_codes F f)) as (t & Et & Dt); auto; try congruence.
    exists t. destruct Dt as (Wt & Ct & _). rewrite Ct, Nm. auto.
Qed.
