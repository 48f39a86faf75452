(** Reading sound files. *)

From Coq Require Import String ZArith QArith Qabs List Bool Lia ZifyBool Lqa.
From Verif.Model Require Import Py Numpy Vector Functions Signal Pcm.
From Verif.Spec Require Import PcmSpec.
From Verif.Proofs Require Import PyFacts NumpyFacts VectorFacts SliceFacts SignalAlgebra InterleaveFacts PcmCodes PcmWriting.
Import ListNotations.
Open Scope list_scope.
Open Scope Z_scope.

Definition zdflt (o : option Z) : Z := match o with Some x => x | None => 0 end.

Lemma el_zdflt (m : arr Z) c t : wf m -> 0 <= c < nrows m -> 0 <= t < cols m -> el m c t = Some (zdflt (el m c t)).
Proof. intros W C T. destruct (el_in m c t W C T) as [z E]. now rewrite E. Qed.

(** The frames of a matrix are those of the interleaved list. *)
Lemma frames_interleave F (m : arr Z) : wf m ->
  frames_of F m 0 (cols m) = flat_map (bytes_of F) (interleave (nrows m) (cols m) (fun c t => zdflt (el m c t))).
Proof.
  intros W. unfold frames_of, interleave. rewrite flat_map_flat, Z.sub_0_r.
  apply flat_map_ext_in. intros t Ht. apply in_zseq in Ht. rewrite flat_map_map.
  apply flat_map_ext_in. intros c Hc. apply in_zseq in Hc.
  rewrite (el_zdflt m c t W) at 1 by lia. reflexivity.
Qed.

Lemma interleave_between {A} n k (f : Z -> Z -> A) a b : 0 < n -> 0 <= a <= b -> b <= k ->
  subseq (between (a * n) (b * n)) (interleave n k f) = interleave n (b - a) (fun c t => f c (a + t)).
Proof.
  intros N H K. pose proof (interleave_len n k f ltac:(lia) ltac:(lia)) as L.
  apply interleave_eq; try lia.
  - rewrite zlen_between; nia.
  - intros c t C T. rewrite zth_between by nia. replace (_ && _) with true by nia.
    replace (t * n + c + a * n) with ((a + t) * n + c) by lia. rewrite interleave_zth by nia. f_equal. f_equal.
    + rewrite Z.add_comm, Z.mod_add, Z.mod_small; lia.
    + rewrite Z.add_comm, Z.div_add, Z.div_small; lia.
Qed.

Section Reading.
Variable junk : Z -> Z -> Q.
Variable F : pcm.
Hypothesis R : regular F.
Variable f : sound_file.
Variable m : arr Z.
Hypothesis W : wf m.
Hypothesis N : 1 <= nrows m.
Hypothesis C : f_channels f = nrows m.
Hypothesis B : f_width f = p_bytes F.
Hypothesis D : f_data f = frames_of F m 0 (cols m).
Hypothesis S : forall c t z, el m c t = Some z -> storable F z.

Notation n := (nrows m).
Definition z_at (c t : Z) : Z := zdflt (el m c t).
Definition value (c t : Z) : Q := (inject_Z (z_at c t) * step f)%Q.

Lemma bytes_all l : Forall (fun a => List.length (bytes_of F a) = wn F) l.
Proof. apply Forall_forall. intros. now apply bytes_of_length. Qed.

Lemma width_nat : Z.of_nat (wn F) = p_bytes F.
Proof. destruct (bytes_bits F R) as (_ & _ & P). unfold wn. lia. Qed.

Lemma data_len : zlen (f_data f) = cols m * (n * p_bytes F).
Proof.
  rewrite D, frames_interleave by auto. rewrite (flat_length _ (wn F)) by apply bytes_all.
  rewrite width_nat, interleave_len by (try lia; apply W). lia.
Qed.

Lemma frames_ok : f_frames f = cols m.
Proof.
  destruct (bytes_bits F R) as (_ & _ & P). unfold f_frames. rewrite data_len, C, B. apply Z.div_mul. nia.
Qed.

Lemma read_frames_ok position k : 0 <= position -> 0 <= k -> position + k <= cols m ->
  read_frames f position k = flat_map (bytes_of F) (interleave n k (fun c t => z_at c (position + t))).
Proof.
  intros P K L. destruct (bytes_bits F R) as (_ & _ & P1). unfold read_frames. rewrite C, B, D, frames_interleave by auto.
  replace (position * (n * p_bytes F)) with ((position * n) * Z.of_nat (wn F)) by (rewrite width_nat; lia).
  replace ((position + k) * (n * p_bytes F)) with (((position + k) * n) * Z.of_nat (wn F)) by (rewrite width_nat; lia).
  rewrite flat_between.
  - rewrite interleave_between by lia. replace (position + k - position) with k by lia. reflexivity.
  - nia.
  - rewrite interleave_len; nia.
  - apply bytes_all.
Qed.

Lemma unpack_ok position k : 0 <= position -> 0 <= k -> position + k <= cols m ->
  unpack F (n * k) (read_frames f position k) = Ok (interleave n k (fun c t => z_at c (position + t))).
Proof.
  intros P K L. rewrite read_frames_ok by auto. apply unpack_spec; auto; [apply interleave_len; lia |].
  apply Forall_forall. intros z Hz. unfold interleave in Hz. apply in_flat_map in Hz. destruct Hz as (t & Ht & Hz). apply in_zseq in Ht.
  apply in_map_iff in Hz. destruct Hz as (c & <- & Hc). apply in_zseq in Hc. apply (S c (position + t)). apply el_zdflt; auto; lia.
Qed.

Lemma store_ok position k b M : 0 <= position -> 0 < k -> position + k <= cols m -> wf M -> nrows M = n -> cols M = cols m ->
  lower b (cols m) = position -> upper b (cols m) = position + k ->
  exists M', store_frames F f position k b M = Ok M' /\ wf M' /\ nrows M' = n /\ cols M' = cols m
    /\ forall c t, 0 <= c < n -> el M' c t = if (position <=? t) && (t <? position + k) then Some (value c t) else el M c t.
Proof.
  intros P K L WM NM CM Lo Up. unfold store_frames. rewrite C, unpack_ok by lia. cbn [bind]. cbv zeta.
  set (decoded := map _ _).
  assert (Ld : zlen decoded = n * k) by (unfold decoded; rewrite zlen_map, interleave_len; lia).
  destruct (for_each_seq (fun c M' => wf M' /\ nrows M' = n /\ cols M' = cols m
      /\ forall d t, el M' d t = if (0 <=? d) && (d <? c) && (position <=? t) && (t <? position + k) then Some (value d t) else el M d t)
    (fun m0 c => d <- getslice decoded (Slice (Some c) None (Some n)) ;; set_row_block m0 c b (Arr [d] (zlen d))) n 0 M)
    as (M' & E & WM' & NM' & CM' & H).
  - lia.
  - repeat split; try (apply WM); auto. intros d t. replace (_ && _ && _ && _) with false by lia. reflexivity.
  - intros c M1 Hc (W1 & N1 & C1 & H1).
    destruct (stride_get decoded c n k) as (d & Ed & Lend & Zd); try lia. rewrite Ed. cbn [bind].
    destruct (set_row_block_ok M1 c b (Arr [d] (zlen d))) as (M2 & E2 & W2 & N2 & C2 & H2).
    + exact W1.
    + split; cbn [cols rows]; [apply zlen_nonneg | repeat constructor].
    + lia.
    + reflexivity.
    + left. cbn [cols]. rewrite C1. lia.
    + exists M2. split; [exact E2 |]. split; [exact W2 |]. split; [lia |]. split; [lia |].
      intros d' t. rewrite H2, H1. cbn [cols]. rewrite C1, Lo, Up, Lend.
      destruct (Z.eqb_spec d' c) as [-> | Ne]; cbn [andb].
      * replace (0 <=? c) with true by lia. replace (c <? c) with false by lia. replace (c <? c + 1) with true by lia. cbn [andb].
        destruct ((position <=? t) && (t <? position + k)) eqn:T; [| reflexivity].
        unfold el. cbn [rows]. change (zth [d] 0) with (Some d). cbv iota beta.
        replace (if k =? 1 then 0 else t - position) with (t - position) by (destruct (Z.eqb_spec k 1); lia).
        rewrite Zd by lia. unfold decoded. rewrite zth_map, interleave_zth by nia. cbn [option_map]. f_equal. unfold value. do 2 f_equal.
        f_equal; [rewrite Z.add_comm, Z.mod_add, Z.mod_small; lia | rewrite (Z.add_comm ((t - position) * n)), Z.div_add, Z.div_small; lia].
      * destruct (Z.ltb_spec d' c), (Z.ltb_spec d' (c + 1)); try lia; reflexivity.
  - exists M'. split; [exact E |]. split; [exact WM' |]. split; [exact NM' |]. split; [exact CM' |].
    intros c t Hc. rewrite H. replace (0 <=? c) with true by lia. replace (c <? 0 + n) with true by lia. reflexivity.
Qed.

Section Loop.
Variable chunk_size : Z.
Hypothesis P : 0 < chunk_size.

Lemma read_chunks_ok fuel : forall M i, 0 <= i <= cols m -> cols m - i <= Z.of_nat fuel -> wf M -> nrows M = n -> cols M = cols m ->
  (forall c t, 0 <= c < n -> 0 <= t < i -> el M c t = Some (value c t)) ->
  exists M' i', read_chunks F f fuel chunk_size M i i = Ok (M', i', i') /\ 0 <= i' <= cols m /\ wf M' /\ nrows M' = n /\ cols M' = cols m
    /\ forall c t, 0 <= c < n -> 0 <= t < i' -> el M' c t = Some (value c t).
Proof.
  induction fuel as [| fuel IH]; intros M i I Fu WM NM CM H; cbn [read_chunks]; rewrite frames_ok.
  - replace (i + chunk_size <? cols m) with false by lia. exists M, i. auto 10.
  - destruct (Z.ltb_spec (i + chunk_size) (cols m)) as [Lt | Ge]; [| exists M, i; auto 10].
    destruct (store_ok i chunk_size (between i (i + chunk_size)) M) as (M1 & E1 & W1 & N1 & C1 & H1); auto; try lia;
      try (apply lower_between; lia); try (apply upper_between; lia).
    rewrite E1. cbn [bind].
    destruct (IH M1 (i + chunk_size)) as (M2 & i2 & E2 & H2); auto; try lia.
    + intros c t Hc T. rewrite H1 by auto. destruct ((i <=? t) && (t <? i + chunk_size)) eqn:B1; [reflexivity |]. apply H; lia.
    + exists M2, i2. auto.
Qed.

Lemma read_channels_ok : exists M, read_channels junk F f chunk_size = Ok M /\ wf M /\ nrows M = n /\ cols M = cols m
  /\ forall c t z, el m c t = Some z -> exists y, el M c t = Some y /\ (y == sample_of F z)%Q.
Proof.
  unfold read_channels. pose proof (proj1 W) as K.
  rewrite C, frames_ok. destruct (allocate_ok junk n (cols m)) as (M0 & -> & W0 & N0 & C0); try lia. cbn [bind].
  destruct (read_chunks_ok (Z.to_nat (cols m)) M0 0) as (M1 & i & E1 & I & W1 & N1 & C1 & H1); auto; try lia.
  rewrite E1. cbn [bind].
  assert (L : exists M2, (if negb (cols m - i =? 0) then store_frames F f i (cols m - i) (from i) M1 else Ok M1) = Ok M2
     /\ wf M2 /\ nrows M2 = n /\ cols M2 = cols m /\ forall c t, 0 <= c < n -> 0 <= t < cols m -> el M2 c t = Some (value c t)).
  { destruct (Z.eqb_spec (cols m - i) 0) as [Z | Z]; cbn [negb].
    - exists M1. split; [reflexivity |]. split; [exact W1 |]. split; [exact N1 |]. split; [exact C1 |]. intros. apply H1; lia.
    - destruct (store_ok i (cols m - i) (from i) M1) as (M2 & E2 & W2 & N2 & C2 & H2); auto; try lia.
      + apply lower_from; lia.
      + rewrite upper_from; lia.
      + exists M2. split; [exact E2 |]. split; [exact W2 |]. split; [exact N2 |]. split; [exact C2 |]. intros c t Hc T. rewrite H2 by auto.
        destruct ((i <=? t) && (t <? i + (cols m - i))) eqn:B1; [reflexivity |]. apply H1; lia. }
  destruct L as (M2 & -> & W2 & N2 & C2 & H2). cbn [bind].
  assert (Sc : (step f == / scale F)%Q).
  { unfold step, scale. destruct (bytes_bits F R) as (_ & E & _). rewrite B, <- E. unfold Qdiv. apply Qmult_1_l. }
  assert (V : forall c t z, el m c t = Some z -> (value c t == inject_Z z / scale F)%Q).
  { intros c t z E. unfold value, z_at. rewrite E. cbn [zdflt]. rewrite Sc. reflexivity. }
  eexists. split; [reflexivity |].
  destruct (p_signed F) eqn:Sg; cbn [negb].
  - split; [exact W2 |]. split; [exact N2 |]. split; [exact C2 |]. intros c t z E.
    destruct (el_range _ _ _ _ W E) as [Hc Ht]. exists (value c t). split; [apply H2; lia |].
    unfold sample_of. rewrite Sg, (V _ _ _ E). fold (scale F). ring.
  - split; [now apply ufunc1_wf |]. split; [rewrite nrows_ufunc1; exact N2 |]. split; [exact C2 |]. intros c t z E.
    destruct (el_range _ _ _ _ W E) as [Hc Ht]. exists (value c t - 1)%Q. rewrite el_ufunc1, H2 by lia. split; [reflexivity |].
    unfold sample_of. rewrite Sg, (V _ _ _ E). fold (scale F). ring.
Qed.

Theorem read_result module path : format_of_width module (f_width f) = Some F ->
  exists s, read_sound_with junk chunk_size module path f = Ok s /\ wf_signal s /\ count s = n /\ Signal.length s = cols m
    /\ sampling_rate s = inject_Z (f_rate f) /\ offset s = 0 /\ labels s = map (file_label path) (zseq 1 n)
    /\ forall c t z, el m c t = Some z -> exists y, el (channels s) c t = Some y /\ (y == sample_of F z)%Q.
Proof.
  intros E. unfold read_sound_with. rewrite C. replace (n <? 1) with false by lia. rewrite E.
  destruct read_channels_ok as (M & -> & WM & NM & CM & H). cbn [bind].
  eexists. split; [reflexivity |]. unfold mk_signal.
  rewrite sanitize_same by (rewrite zlen_map, zlen_seq; lia).
  unfold wf_signal, count, Signal.length. cbn [channels sampling_rate offset labels].
  split; [split; [exact WM | rewrite zlen_map, zlen_seq; lia] |]. auto 10.
Qed.
End Loop.
End Reading.
