(** Reading wav files byte by byte: the data. *)

From Coq Require Import String ZArith QArith List Bool Lia ZifyBool.
From Verif.Model Require Import Py Numpy Vector Functions Signal Pcm Json Riff.
From Verif.Spec Require Import PcmSpec RiffSpec.
From Verif.Proofs Require Import PyFacts NumpyFacts VectorFacts InterleaveFacts PcmCodes PcmWriting PcmReading PcmResults RiffBytes.
Import ListNotations.
Open Scope list_scope.
Open Scope Z_scope.

Lemma drop_take {A} x m (l : list A) : 0 <= x -> zdrop x (ztake m l) = ztake (m - x) (zdrop x l).
Proof.
  intros X. unfold zdrop, ztake. rewrite skipn_firstn_comm. f_equal. lia.
Qed.

Lemma skipn_add {A} a : forall b (l : list A), skipn a (skipn b l) = skipn (a + b) l.
Proof.
  intros b. revert a. induction b as [| b IH]; intros a l.
  - now rewrite Nat.add_0_r.
  - destruct l as [| x l]; [now rewrite !skipn_nil |]. rewrite Nat.add_succ_r. cbn [skipn]. apply IH.
Qed.

Lemma drop_drop {A} x y (l : list A) : 0 <= x -> 0 <= y -> zdrop x (zdrop y l) = zdrop (x + y) l.
Proof. intros X Y. unfold zdrop. rewrite skipn_add. f_equal. lia. Qed.

Lemma zlen_take {A} n (l : list A) : zlen (ztake n l) = Z.max 0 (Z.min n (zlen l)).
Proof. unfold ztake, zlen. rewrite firstn_length. lia. Qed.

Lemma zlen_drop {A} n (l : list A) : 0 <= n -> zlen (zdrop n l) = Z.max 0 (zlen l - n).
Proof. intros H. unfold zdrop, zlen. rewrite skipn_length. lia. Qed.

Lemma take_zero {A} (l : list A) n : n <= 0 -> ztake n l = [].
Proof. apply take_neg. Qed.

Lemma take_drop_app {A} a k (l l' : list A) : 0 <= a -> 0 <= k -> a + k <= zlen l -> ztake k (zdrop a (l ++ l')) = ztake k (zdrop a l).
Proof.
  intros Ha Hk L. unfold zdrop, ztake, zlen in *. rewrite skipn_app, firstn_app, skipn_length.
  replace (Z.to_nat k - _)%nat with O by lia. cbn [firstn]. apply app_nil_r.
Qed.

Section Data.
Variable file : list Z.
Variable form : Z.
Variable F : pcm.
Hypothesis R : regular F.
Variable channels rate size p0 pos0 : Z.
Hypothesis C : 1 <= channels.
Hypothesis By : Forall byte file.
Hypothesis S0 : 0 <= size.
Hypothesis P0 : 0 <= pos0.

Notation width := (p_bytes F).
Notation frame := (channels * width).
Notation r := (WaveReader channels rate width size (0, (p0, pos0))).
Notation n_frames := (nframes r).

(** The bytes, that can be read *)
Definition available : list Z := ztake (Z.min size (form - p0)) (zdrop pos0 file).

Lemma zlen_available : zlen available = Z.max 0 (Z.min (Z.min size (form - p0)) (zlen file - pos0)).
Proof. unfold available. rewrite zlen_take, zlen_drop by lia. lia. Qed.

(** The state after reading the first [x] bytes *)
Definition after (x : Z) (st : Z * outer) : Prop :=
  let '(already, (p, pos)) := st in
  0 <= x <= zlen available /\
  ((already = x /\ p = p0 + x /\ pos = pos0 + x) \/ (x = zlen available /\ (size <= already \/ form <= p))).

Lemma after_start : after 0 (0, (p0, pos0)).
Proof. unfold after. split; [pose proof (zlen_nonneg available); lia |]. left. lia. Qed.

Lemma piece_available x k n : 0 <= x -> 0 <= k -> n = Z.min k (Z.min (size - x) (form - p0 - x)) -> 0 <= n ->
  ztake k (zdrop x available) = subseq (between (pos0 + x) (pos0 + x + n)) file.
Proof.
  intros X K N H. unfold available. rewrite drop_take, drop_drop, take_take, between_take by lia.
  replace (x + pos0) with (pos0 + x) by lia. f_equal. lia.
Qed.

Lemma read_bytes x k st : 0 < k -> after x st ->
  exists st', chunk_read (outer_read file form) size k st = (ztake k (zdrop x available), st') /\ after (Z.min (x + k) (zlen available)) st'.
Proof.
  intros K. destruct st as (already & p & pos). intros (X & H). pose proof zlen_available as La. pose proof (zlen_nonneg file) as Zf.
  assert (Last : x = zlen available -> ztake k (zdrop x available) = []).
  { intros E. apply zlen_zero. rewrite zlen_take, zlen_drop by lia. lia. }
  destruct H as [(-> & -> & ->) | (E & H)].
  2: { rewrite Last by exact E. unfold chunk_read. destruct (Z.leb_spec size already) as [L | L].
       - eexists. split; [reflexivity |]. split; [lia |]. right. lia.
       - unfold outer_read, chunk_read. replace (form <=? p) with true by lia. replace (zlen (@nil Z)) with 0 by reflexivity.
         rewrite Z.add_0_r. replace (already =? size) with false by lia. cbn [andb]. eexists. split; [reflexivity |]. split; [lia |]. right. lia. }
  unfold chunk_read at 1. destruct (Z.leb_spec size x) as [L | L].
  { rewrite Last by lia. eexists. split; [reflexivity |]. split; [lia |]. right. lia. }
  set (n1 := if size - x <? k then size - x else k). assert (N1 : n1 = Z.min (size - x) k) by (unfold n1; destruct (Z.ltb_spec (size - x) k); lia).
  clearbody n1. unfold outer_read at 1, chunk_read at 1. destruct (Z.leb_spec form (p0 + x)) as [L' | L'].
  { rewrite Last by lia. replace (zlen (@nil Z)) with 0 by reflexivity. rewrite Z.add_0_r. replace (x =? size) with false by lia. cbn [andb].
    eexists. split; [reflexivity |]. split; [lia |]. right. lia. }
  set (n2 := if form - (p0 + x) <? n1 then form - (p0 + x) else n1).
  assert (N2 : n2 = Z.min k (Z.min (size - x) (form - p0 - x))) by (unfold n2; destruct (Z.ltb_spec (form - (p0 + x)) n1); lia).
  clearbody n2. unfold file_read at 1. rewrite (piece_available x k n2) by lia.
  set (b := subseq (between (pos0 + x) (pos0 + x + n2)) file).
  assert (Lb : zlen b = Z.min n2 (zlen available - x)) by (unfold b; rewrite between_len by lia; lia).
  assert (A1 : forall o, (p0 + x + zlen b = fst o /\ pos0 + x + zlen b = snd o) \/ (form <= fst o /\ x + zlen b = zlen available) ->
     exists st', (if (x + zlen b =? size) && Z.odd size then let '(dummy, u) := outer_read file form 1 o in (b, (x + zlen b + zlen dummy, u))
                  else (b, (x + zlen b, o))) = (b, st') /\ after (Z.min (x + k) (zlen available)) st').
  { intros (p & pos) Ho. cbn [fst snd] in Ho. destruct ((x + zlen b =? size) && Z.odd size) eqn:D.
    - destruct (outer_read file form 1 (p, pos)) as [dummy [p' pos']]. eexists. split; [reflexivity |].
      pose proof (zlen_nonneg dummy). split; [lia |]. right. lia.
    - eexists. split; [reflexivity |]. split; [lia |]. destruct Ho as [(Hp & Hq) | (Hp & Hq)].
      + left. assert (Z.min (x + k) (zlen available) = x + zlen b) by lia. lia.
      + right. lia. }
  destruct ((p0 + x + zlen b =? form) && Z.odd form) eqn:D.
  - destruct (file_read file 1 (pos0 + x + zlen b)) as [dummy pos']. apply A1. cbn [fst snd]. right. pose proof (zlen_nonneg dummy). lia.
  - apply A1. cbn [fst snd]. left. lia.
Qed.

(** The file, whose data are these bytes, filled with zeros if necessary *)
Definition sound : sound_file := SoundFile channels width rate (ztake (n_frames * frame) (available ++ zrepeat 0 (n_frames * frame))).

Lemma width_pos : 1 <= width.
Proof. destruct (bytes_bits F R) as (_ & _ & P). exact P. Qed.

Lemma frames_nonneg : 0 <= n_frames.
Proof. unfold nframes. cbn [r_size r_channels r_width]. pose proof width_pos. apply Z.div_pos; nia. Qed.

Lemma sound_len : zlen (f_data sound) = n_frames * frame.
Proof.
  unfold sound. cbn [f_data]. pose proof frames_nonneg. pose proof width_pos. pose proof (zlen_nonneg available).
  rewrite zlen_take, zlen_app, zlen_repeat by nia. nia.
Qed.

Lemma sound_frames : f_frames sound = n_frames.
Proof. unfold f_frames. rewrite sound_len. cbn [f_channels f_width sound]. pose proof width_pos. apply Z.div_mul. nia. Qed.

Lemma sound_bytes : Forall byte (f_data sound).
Proof.
  unfold sound. cbn [f_data]. apply Forall_take, Forall_app. split.
  - unfold available. now apply Forall_take, Forall_drop.
  - apply Forall_forall. intros z H. unfold zrepeat in H. apply repeat_spec in H. subst z. unfold byte. lia.
Qed.

Lemma read_frames_eq i n : 0 <= i -> 0 <= n -> i + n <= n_frames -> (i + n) * frame <= zlen available ->
  read_frames sound i n = ztake (n * frame) (zdrop (i * frame) available).
Proof.
  intros I N L A. pose proof width_pos. assert (0 <= i * frame) by nia. assert (0 <= n * frame) by nia.
  unfold read_frames. cbn [f_channels f_width f_data sound]. rewrite between_take by nia.
  assert ((i + n) * frame <= n_frames * frame) by (apply Z.mul_le_mono_nonneg_r; nia).
  rewrite drop_take, take_take by lia. replace (Z.min _ _) with (n * frame) by lia.
  apply take_drop_app; nia.
Qed.

Lemma store_same i n b M st : 0 <= i -> 0 < n -> i + n <= n_frames -> after (i * frame) st -> (i + n) * frame <= zlen available ->
  exists st', store_block file F form r n b M st = (M' <- store_frames F sound i n b M ;; Ok (M', st')) /\ after ((i + n) * frame) st'.
Proof.
  intros I N L A B. pose proof width_pos. unfold store_block, readframes. replace (n =? 0) with false by lia. cbn [r_channels r_width r_size].
  destruct (read_bytes (i * frame) (n * frame) st) as (st' & E & A'); [nia | exact A |].
  exists st'. split; [| replace ((i + n) * frame) with (Z.min (i * frame + n * frame) (zlen available)) by nia; exact A'].
  rewrite E. unfold store_frames. rewrite read_frames_eq by lia. cbn [f_channels sound].
  destruct (unpack _ _ _) as [l | e]; [| reflexivity]. reflexivity.
Qed.

Lemma store_short i n b M st : 0 <= i -> 0 < n -> after (i * frame) st -> zlen available < (i + n) * frame ->
  store_block file F form r n b M st = Err StructError.
Proof.
  intros I N A B. pose proof width_pos. unfold store_block, readframes. replace (n =? 0) with false by lia. cbn [r_channels r_width r_size].
  destruct (read_bytes (i * frame) (n * frame) st) as (st' & E & A'); [nia | exact A |].
  rewrite E. unfold unpack. rewrite zlen_take, zlen_drop by nia. replace (_ =? _) with false by nia. reflexivity.
Qed.

Variable junk : Z -> Z -> Q.
Variable chunk_size : Z.
Hypothesis K : 0 < chunk_size.

Let m := file_codes F sound.

Lemma m_ok : wf m /\ nrows m = channels /\ cols m = n_frames /\ (forall c t z, el m c t = Some z -> storable F z) /\ f_data sound = frames_of F m 0 (cols m).
Proof.
  rewrite <- sound_frames. apply (file_codes_ok F sound R C eq_refl sound_bytes). exists n_frames. apply sound_len.
Qed.

Lemma store_sound position k b M : 0 <= position -> 0 < k -> position + k <= n_frames -> wf M -> nrows M = channels -> cols M = n_frames ->
  lower b n_frames = position -> upper b n_frames = position + k ->
  exists M', store_frames F sound position k b M = Ok M' /\ wf M' /\ nrows M' = channels /\ cols M' = n_frames.
Proof.
  intros. destruct m_ok as (Wm & Nm & Cm & Sm & Dm).
  destruct (store_ok F R sound m Wm ltac:(lia) ltac:(cbn [f_channels sound]; lia) eq_refl Dm Sm position k b M) as (M' & E & WM & NM & CM & _); auto; try lia; try congruence.
  exists M'. repeat split; auto; try (apply WM); lia.
Qed.

Lemma blocks_same fuel : forall M i st, 0 <= i <= n_frames -> n_frames - i <= Z.of_nat fuel -> wf M -> nrows M = channels -> cols M = n_frames ->
  after (i * frame) st ->
  (exists M' i' st', read_blocks file F form r fuel chunk_size M i st = Ok (M', i', st') /\ read_chunks F sound fuel chunk_size M i i = Ok (M', i', i')
     /\ i <= i' <= n_frames /\ after (i' * frame) st')
  \/ (read_blocks file F form r fuel chunk_size M i st = Err StructError /\ zlen available < n_frames * frame).
Proof.
  pose proof width_pos as Wp. induction fuel as [| fuel IH]; intros M i st I Fu WM NM CM A; cbn [read_blocks read_chunks]; rewrite sound_frames.
  - replace (i + chunk_size <? n_frames) with false by lia. left. exists M, i, st. repeat split; auto; lia.
  - destruct (Z.ltb_spec (i + chunk_size) n_frames) as [Lt | Ge]; [| left; exists M, i, st; repeat split; auto; lia].
    destruct (Z.le_gt_cases ((i + chunk_size) * frame) (zlen available)) as [En | En].
    + destruct (store_same i chunk_size (between i (i + chunk_size)) M st) as (st' & E & A'); auto; try lia. rewrite E.
      destruct (store_sound i chunk_size (between i (i + chunk_size)) M) as (M1 & E1 & W1 & N1 & C1); auto; try lia;
        try (apply lower_between; lia); try (apply upper_between; lia).
      rewrite E1. cbn [bind].
      destruct (IH M1 (i + chunk_size) st') as [(M2 & i2 & st2 & E2 & E3 & H2 & H3) | (E2 & H2)]; auto; try lia.
      * left. exists M2, i2, st2. repeat split; auto; lia.
    + right. rewrite (store_short i chunk_size _ _ st) by (auto; lia). cbn [bind]. split; [reflexivity |]. nia.
Qed.

Theorem data_result :
  (n_frames * frame <= zlen available -> read_data file junk F form r chunk_size = read_channels junk F sound chunk_size)
  /\ (zlen available < n_frames * frame -> read_data file junk F form r chunk_size = Err StructError).
Proof.
  pose proof width_pos as Wp. pose proof frames_nonneg as Fn. unfold read_data, read_channels. rewrite sound_frames. cbn [r_channels r_state f_channels sound].
  destruct (allocate_ok junk channels n_frames) as (M0 & -> & W0 & N0 & C0); try lia. cbn [bind].
  destruct (blocks_same (Z.to_nat n_frames) M0 0 (0, (p0, pos0))) as [(M & i & st & -> & -> & I & A) | (-> & H)]; auto; try lia.
  - apply after_start.
  - cbn [bind]. destruct (Z.eqb_spec (n_frames - i) 0) as [Z | Z]; cbn [negb].
    + split; [reflexivity |]. intros H. destruct st as (? & ? & ?). destruct A as [A _]. replace i with n_frames in A by lia. lia.
    + split; intros H.
      * destruct (store_same i (n_frames - i) (from i) M st) as (st' & -> & _); auto; try lia.
        destruct (store_frames _ _ _ _ _ _); reflexivity.
      * rewrite (store_short i (n_frames - i) _ _ st); auto; try lia.
  - cbn [bind]. split; [lia | reflexivity].
Qed.
End Data.
