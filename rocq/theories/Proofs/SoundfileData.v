(** The samples in sound files *)

From Coq Require Import String ZArith QArith Qabs Lia List Bool.
From Verif.Model Require Import Py Numpy Functions Signal Persistence FileFormats Pcm Soundfile.
From Verif.Spec Require Import PcmSpec SoundfileSpec.
From Verif.Proofs Require Import PyFacts NumpyFacts SignalAlgebra InterleaveFacts SoundfileRates.
Import ListNotations.
Open Scope list_scope.
Open Scope Z_scope.

Section Lists.
Context {A : Type}.
Implicit Types m : arr A.

Definition column (l : list (list A)) (t : Z) : list A := flat_map (fun r => match zth r t with Some x => [x] | None => [] end) l.

Lemma column_spec n l t : Forall (fun r => zlen r = n) l -> 0 <= t < n ->
  List.length (column l t) = List.length l /\ forall c, zth (column l t) c = match zth l c with Some r => zth r t | None => None end.
Proof.
  intros W T. induction W as [| r l R W [IH1 IH2]]; [split; [reflexivity |]; intros c; unfold column; cbn [flat_map]; now rewrite !zth_nil |].
  destruct (zth_in r t ltac:(lia)) as [x X]. unfold column. cbn [flat_map]. rewrite X. fold (column l t). split.
  - cbn. now rewrite IH1.
  - intros c. change ([x] ++ column l t) with (x :: column l t).
    destruct (Z.lt_trichotomy c 0) as [N | [-> | P]]; [now rewrite !zth_neg by lia | now rewrite !zth_cons; cbn; rewrite X |].
    rewrite !zth_cons. replace (c =? 0) with false by lia. apply IH2.
Qed.

Lemma flat_zth {B} (f : B -> list A) (w : nat) l i j b : Forall (fun b => List.length (f b) = w) l -> zth l i = Some b -> 0 <= j < Z.of_nat w ->
  zth (flat_map f l) (i * Z.of_nat w + j) = zth (f b) j.
Proof.
  intros W. revert i. induction W as [| a l E W IH]; intros i I J; [rewrite zth_nil in I; discriminate |].
  pose proof (zth_range _ _ _ I) as R. rewrite zlen_cons in R. cbn [flat_map]. rewrite zth_app.
  assert (L : zlen (f a) = Z.of_nat w) by (unfold zlen; now rewrite E).
  rewrite zth_cons in I. destruct (i =? 0) eqn:Z.
  - injection I as <-. replace i with 0 by lia. replace (_ <? _) with true by lia. f_equal; lia.
  - replace (_ <? _) with false by nia. rewrite <- (IH (i - 1)); auto. f_equal. lia.
Qed.

Lemma transposed_interleaved m : wf m -> is_interleaved m (transposed m).
Proof.
  intros W. pose proof W as [C R]. change (transposed m) with (flat_map (column (rows m)) (zseq 0 (cols m))).
  assert (F : Forall (fun t => List.length (column (rows m) t) = List.length (rows m)) (zseq 0 (cols m))).
  { apply Forall_forall. intros t T. apply In_zth in T as (i & T). rewrite zth_seq in T.
    destruct ((0 <=? i) && (i <? cols m)) eqn:E; [injection T as <- | discriminate]. apply (column_spec (cols m)); auto; lia. }
  split.
  - rewrite (flat_length _ _ _ F), zlen_seq. unfold nrows, zlen. lia.
  - intros c t x E. destruct (el_range _ _ _ _ W E) as [I J]. unfold nrows, zlen in *.
    rewrite (flat_zth _ (List.length (rows m)) _ t c t F).
    + change (zth (column (rows m) t) c = Some x). rewrite (proj2 (column_spec (cols m) (rows m) t R J)). exact E.
    + rewrite zth_seq. replace ((0 <=? t) && (t <? cols m)) with true by lia. reflexivity.
    + lia.
Qed.

(** Reading *)
Lemma reshape_ok (a : list A) r c : 0 <= r -> 0 <= c -> zlen a = r * c ->
  exists m, reshape a r c = Ok m /\ wf m /\ nrows m = r /\ cols m = c
    /\ forall i j, 0 <= i < r -> 0 <= j < c -> el m i j = zth a (i * c + j).
Proof.
  intros R C L. unfold reshape. rewrite L, Z.eqb_refl. eexists. split; [reflexivity |].
  assert (B : forall i, 0 <= i < r -> lower (between (i * c) ((i + 1) * c)) (zlen a) = i * c /\ upper (between (i * c) ((i + 1) * c)) (zlen a) = (i + 1) * c).
  { intros i I. rewrite lower_between, upper_between by nia. nia. }
  split; [split; cbn [rows cols] | repeat split; cbn [cols]].
  - exact C.
  - apply Forall_map, Forall_forall. intros i I. apply In_zth in I as (k & I). rewrite zth_seq in I.
    destruct ((0 <=? k) && (k <? r)) eqn:E; [injection I as <- | discriminate]. rewrite zlen_subseq.
    destruct (B k ltac:(lia)) as [-> ->]. lia.
  - unfold nrows. cbn [rows]. rewrite zlen_map, zlen_seq. lia.
  - intros i j I J. unfold el. cbn [rows]. rewrite zth_map, zth_seq. replace ((0 <=? i) && (i <? r)) with true by lia. cbn [option_map].
    rewrite zth_subseq. destruct (B (0 + i) ltac:(lia)) as [-> ->]. replace (_ && _) with true by lia. f_equal. lia.
Qed.

Lemma transpose_ok m : wf m -> wf (transpose m) /\ nrows (transpose m) = cols m /\ cols (transpose m) = nrows m
  /\ forall i j, 0 <= i < cols m -> el (transpose m) i j = el m j i.
Proof.
  intros W. pose proof W as [C R]. unfold transpose. repeat split; cbn [rows cols].
  - apply zlen_nonneg.
  - apply Forall_map, Forall_forall. intros i I. apply In_zth in I as (k & I). rewrite zth_seq in I.
    destruct ((0 <=? k) && (k <? cols m)) eqn:E; [injection I as <- | discriminate].
    change (zlen (column (rows m) (0 + k)) = nrows m). unfold zlen, nrows, zlen. now rewrite (proj1 (column_spec (cols m) (rows m) (0 + k) R ltac:(lia))).
  - unfold nrows. cbn [rows]. rewrite zlen_map, zlen_seq. lia.
  - intros i j I. unfold el. cbn [rows]. rewrite zth_map, zth_seq. replace ((0 <=? i) && (i <? cols m)) with true by lia. cbn [option_map].
    change (zth (column (rows m) (0 + i)) j = match zth (rows m) j with Some r => zth r i | None => None end).
    now rewrite (proj2 (column_spec (cols m) (rows m) (0 + i) R ltac:(lia))).
Qed.
End Lists.

Theorem loaded junk path f n : 1 <= so_channels f -> zlen (so_data f) = so_channels f * n ->
  exists s, read_soundfile junk path f = Ok s /\ is_loaded path f n s.
Proof.
  intros C L. pose proof (zlen_nonneg (so_data f)) as P. assert (N : 0 <= n) by nia.
  assert (E : so_frames f = n) by (unfold so_frames; rewrite L, Z.mul_comm; apply Z.div_mul; lia).
  unfold read_soundfile. rewrite E.
  destruct (allocate_ok junk (so_channels f) n) as (m & -> & Wm & Nm & Cm); try lia. cbn [bind].
  destruct (reshape_ok (so_data f) n (so_channels f)) as (a & -> & Wa & Na & Ca & Ea); try lia. cbn [bind].
  destruct (transpose_ok a Wa) as (Wt & Nt & Ct & Et).
  destruct (set_block_ok m everything everything (transpose a) Wm Wt) as (m' & -> & W' & N' & C' & E'); rewrite ?lower_everything, ?upper_everything; try lia.
  cbn [bind]. eexists. split; [reflexivity |].
  assert (S : sanitize_labels (Some (map (file_label path) (zseq 1 (so_channels f)))) (nrows m') = map (file_label path) (zseq 1 (so_channels f))).
  { apply sanitize_same. rewrite zlen_map, zlen_seq. lia. }
  unfold is_loaded, mk_signal, wf_signal, count, Signal.length. cbn [channels sampling_rate offset labels].
  rewrite S, zlen_map, zlen_seq. repeat split; auto; try lia.
  - apply W'.
  - intros c t x X. destruct (el_range _ _ _ _ W' X) as [I J]. rewrite E', !lower_everything, !upper_everything in X by lia.
    replace (_ && _) with true in X by lia.
    assert (Hc : (if nrows (transpose a) =? 1 then 0 else c - 0) = c) by (destruct (Z.eqb_spec (nrows (transpose a)) 1); lia).
    assert (Ht : (if cols (transpose a) =? 1 then 0 else t - 0) = t) by (destruct (Z.eqb_spec (cols (transpose a)) 1); lia).
    rewrite Hc, Ht, Et, Ea in X by lia. rewrite <- X. f_equal. lia.
Qed.

(** ** Saving *)

Lemma settings_ok name : In name (e_supported (nth 7 signal_writers (Entry "" [] false))) ->
  exists format suffix subtype conversion, lookup String.eqb name settings = Some (format, subtype, conversion)
    /\ name = (format ++ "_" ++ suffix)%string /\ In (suffix, subtype) encoding_names
    /\ (format = "WAV" /\ conversion = int_greater_zero \/ format = "AIFF" /\ conversion = int_greater_zero
        \/ format = "FLAC" /\ conversion = flac \/ format = "OGG" /\ conversion = vorbis)%string.
Proof.
  cbn [signal_writers nth e_supported]. cbn [In].
  assert (K : forall format suffix subtype conversion, lookup String.eqb (format ++ "_" ++ suffix)%string settings = Some (format, subtype, conversion) ->
    In (suffix, subtype) encoding_names ->
    (format = "WAV" /\ conversion = int_greater_zero \/ format = "AIFF" /\ conversion = int_greater_zero
        \/ format = "FLAC" /\ conversion = flac \/ format = "OGG" /\ conversion = vorbis)%string ->
    exists format' suffix' subtype conversion, lookup String.eqb (format ++ "_" ++ suffix)%string settings = Some (format', subtype, conversion)
    /\ (format ++ "_" ++ suffix = format' ++ "_" ++ suffix')%string /\ In (suffix', subtype) encoding_names
    /\ (format' = "WAV" /\ conversion = int_greater_zero \/ format' = "AIFF" /\ conversion = int_greater_zero
        \/ format' = "FLAC" /\ conversion = flac \/ format' = "OGG" /\ conversion = vorbis)%string).
  { intros format suffix subtype conversion H1 H2 H3. exists format, suffix, subtype, conversion. auto. }
  intros H. repeat destruct H as [<- | H]; try contradiction;
    match goal with |- exists _ _ _ _, lookup _ ?n _ = _ /\ _ =>
      first [ eapply (K "WAV"%string (String.substring 4 10 n)) | eapply (K "AIFF"%string (String.substring 5 10 n))
            | eapply (K "FLAC"%string (String.substring 5 10 n)) | eapply (K "OGG"%string (String.substring 4 10 n)) ] end;
    try reflexivity; cbn; tauto.
Qed.

Theorem saved encode name s : In name (e_supported (nth 7 signal_writers (Entry "" [] false))) -> wf_signal s ->
  exists format suffix subtype rate data, name = (format ++ "_" ++ suffix)%string /\ In (suffix, subtype) encoding_names
    /\ supported format rate
    /\ (is_nearest format (sampling_rate s) rate
        \/ format = "FLAC"%string /\ (131071 # 2 <= sampling_rate s)%Q /\ (sampling_rate s < 131075 # 2)%Q /\ rate = 65540)
    /\ is_interleaved (channels s) data
    /\ write_soundfile encode name s = (d <- encode format subtype rate (count s) data ;; Ok (Sound format subtype rate (count s) d)).
Proof.
  intros H W. destruct (settings_ok name H) as (format & suffix & subtype & conversion & L & N & S & C).
  exists format, suffix, subtype, (conversion (sampling_rate s)), (transposed (channels s)).
  assert (X : supported format (conversion (sampling_rate s)) /\ (is_nearest format (sampling_rate s) (conversion (sampling_rate s))
        \/ format = "FLAC"%string /\ (131071 # 2 <= sampling_rate s)%Q /\ (sampling_rate s < 131075 # 2)%Q /\ conversion (sampling_rate s) = 65540)).
  { assert (Y : forall f r, is_nearest f (sampling_rate s) r -> supported f r /\ (is_nearest f (sampling_rate s) r
        \/ f = "FLAC"%string /\ (131071 # 2 <= sampling_rate s)%Q /\ (sampling_rate s < 131075 # 2)%Q /\ r = 65540)) by (intros f r [P Q]; split; [| left; split]; auto).
    destruct C as [[-> ->] | [[-> ->] | [[-> ->] | [-> ->]]]].
    - apply Y, int_nearest. auto.
    - apply Y, int_nearest. auto.
    - destruct (Qlt_le_dec (sampling_rate s) (131071 # 2)) as [U | U]; [apply Y, flac_nearest; auto |].
      destruct (Qlt_le_dec (sampling_rate s) (131075 # 2)) as [V | V]; [| apply Y, flac_nearest; auto].
      split; [apply flac_supported |]. right. repeat split; auto. now apply flac_gap.
    - apply Y, vorbis_nearest. }
  destruct X as [X1 X2]. repeat (split; [solve [auto | apply transposed_interleaved, W] |]). unfold write_soundfile. rewrite L. reflexivity.
Qed.

(** ** Both *)

Theorem round_trip (g : string -> string -> Q -> Q) name s junk path f :
  wf_signal s -> 1 <= count s -> write_soundfile (fun format subtype _ _ data => Ok (map (g format subtype) data)) name s = Ok f ->
  exists t, read_soundfile junk path f = Ok t
    /\ wf_signal t /\ count t = count s /\ Signal.length t = Signal.length s /\ sampling_rate t = inject_Z (so_rate f) /\ offset t = 0
    /\ labels t = map (file_label path) (zseq 1 (count s))
    /\ forall c i x, el (channels s) c i = Some x -> el (channels t) c i = Some (g (so_format f) (so_subtype f) x).
Proof.
  intros W N E. unfold write_soundfile in E. destruct (lookup _ _ _) as [[[format subtype] conversion] |]; [| discriminate].
  cbn [bind] in E. injection E as <-. destruct (transposed_interleaved (channels s) (proj1 W)) as [L I].
  destruct (loaded junk path (Sound format subtype (conversion (sampling_rate s)) (count s) (map (g format subtype) (transposed (channels s)))) (Signal.length s))
    as (t & -> & Wt & Ct & Lt & Rt & Ot & Bt & Dt).
  - exact N.
  - cbn [so_data so_channels]. now rewrite zlen_map, L.
  - cbn [so_channels so_rate so_data so_format so_subtype] in *. exists t. repeat (split; [solve [auto] |]). intros c i x X.
    destruct (el_range _ _ _ _ (proj1 W) X) as [Hc Hi]. unfold count, Signal.length in *.
    destruct (el_in (channels t) c i (proj1 Wt)) as [y Y]; try lia. destruct Dt as [_ Dt]. pose proof (Dt _ _ _ Y) as Z1.
    rewrite zth_map, Ct, (I _ _ _ X) in Z1. cbn in Z1. rewrite Y. congruence.
Qed.
