(** What is saved in wav files and loaded from them. *)

From Coq Require Import String ZArith QArith List Bool Lia ZifyBool.
From Verif.Model Require Import Py Numpy Vector Functions Signal Persistence Pcm Json Riff.
From Verif.Spec Require Import PcmSpec RiffSpec.
From Verif.Proofs Require Import PyFacts NumpyFacts VectorFacts InterleaveFacts PcmCodes PcmWriting PcmReading PcmResults RiffBytes RiffWriting RiffSaving RiffReading RiffData RiffOpening.
Import ListNotations.
Open Scope list_scope.
Open Scope Z_scope.

Lemma wav_written F : In F wav_formats -> In F written_formats.
Proof. cbn. intuition. Qed.

Lemma wav_regular F : In F wav_formats -> regular F.
Proof. intros H. apply written_regular. now apply wav_written. Qed.

Lemma wav_format F : In F wav_formats -> format_of_width Wave (p_bytes F) = Some F.
Proof. cbn. intuition (subst F; reflexivity). Qed.

Lemma wav_width F : In F wav_formats -> p_bits F / 8 = p_bytes F /\ 1 <= p_bytes F <= 4.
Proof. cbn. intuition (subst F; vm_compute; repeat split; discriminate). Qed.

Lemma bytes_of_bytes F z : regular F -> Forall byte (bytes_of F z).
Proof.
  intros R. rewrite bytes_of_model, number_little by exact R. destruct (p_big F); [apply Forall_rev |]; apply number_bytes.
Qed.

(** ** Loading *)

Lemma load ext file F form ch rate size p0 pos0 junk path chunk_size :
  In F wav_formats -> 1 <= ch -> Forall byte file -> 0 <= size -> 0 <= pos0 -> 0 < chunk_size ->
  open_wave ext file = Ok (form, WaveReader ch rate (p_bytes F) size (0, (p0, pos0))) ->
  let n := size / (ch * p_bytes F) in
  let data := available file form size p0 pos0 in
  (zlen data < n * (ch * p_bytes F) -> read_wave_with ext file chunk_size junk path = Err StructError)
  /\ (forall M, n * (ch * p_bytes F) <= zlen data -> wf M -> nrows M = ch -> cols M = n -> (forall c t z, el M c t = Some z -> storable F z) ->
       ztake (n * (ch * p_bytes F)) data = frames_of F M 0 (cols M) ->
       exists t, read_wave_with ext file chunk_size junk path = Ok t /\ decoded F path rate M t).
Proof.
  intros HF C B S P K E n data. pose proof (wav_regular F HF) as R. pose proof (wav_format F HF) as Fm.
  destruct (data_result file form F R ch rate size p0 pos0 C B S P junk chunk_size K) as [H1 H2].
  unfold read_wave_with. rewrite E. cbn [bind r_width]. rewrite Fm. split.
  - intros L. rewrite H2 by exact L. reflexivity.
  - intros M L W NM CM St D. rewrite H1 by exact L.
    set (f := sound file form F ch rate size p0 pos0).
    assert (Df : f_data f = frames_of F M 0 (cols M)).
    { rewrite <- D. unfold f, sound. cbn [f_data]. unfold nframes. cbn [r_size r_channels r_width]. fold n data. apply take_less. exact L. }
    destruct (read_result junk F R f M W ltac:(lia) ltac:(now symmetry) eq_refl Df St chunk_size K Wave path Fm) as (t & E' & Wt & Ct & Lt & Rt & Ot & Lab & H).
    exists t. split; [| repeat split; auto; apply Wt].
    rewrite <- E'. unfold read_sound_with. cbn [f_channels f_rate f_width f sound]. replace (ch <? 1) with false by lia. rewrite Fm. reflexivity.
Qed.

Lemma frames_len F (M : arr Z) n : regular F -> wf M -> 0 <= n -> n = cols M -> zlen (frames_of F M 0 n) = n * (nrows M * p_bytes F).
Proof.
  intros R W N ->. rewrite frames_interleave by exact W.
  rewrite (flat_length _ (wn F)) by (apply Forall_forall; intros; now apply bytes_of_length).
  rewrite (width_nat F R), interleave_len; [lia | apply zlen_nonneg | exact N].
Qed.

Theorem reader ext F ch rate M leftover file junk path : In F wav_formats -> Forall byte file -> wf M -> nrows M = ch ->
  (forall c t z, el M c t = Some z -> storable F z) -> zlen leftover < ch * (p_bits F / 8) ->
  is_wav ext ch (p_bits F / 8) rate (frames_of F M 0 (cols M) ++ leftover) file ->
  exists t, read_wave ext file junk path = Ok t /\ decoded F path rate M t.
Proof.
  intros HF B W NM St Ll H. destruct (wav_width F HF) as [Wb Hw]. rewrite Wb in Ll, H. pose proof (wav_regular F HF) as R.
  set (data := frames_of F M 0 (cols M) ++ leftover) in *.
  assert (C : 1 <= ch).
  { destruct H as (? & ? & ? & ? & ? & ? & _ & _ & _ & _ & _ & (C & _)). lia. }
  assert (Ld : zlen data = cols M * (ch * p_bytes F) + zlen leftover).
  { unfold data. rewrite zlen_app, frames_len; [now rewrite NM | exact R | exact W | apply W | reflexivity]. }
  assert (Hd : zlen data < 2 ^ 32).
  { destruct H as (form & before & fmt & chunk & bet & rest & E & Hf & _). rewrite E, !zlen_app in Hf. rewrite !zlen_number in Hf by lia.
    change (zlen (Json.codes "RIFF")) with 4 in Hf. change (zlen (Json.codes "WAVE")) with 4 in Hf. change (zlen (Json.codes "data")) with 4 in Hf.
    pose proof (zlen_nonneg (concat before)). pose proof (zlen_nonneg (concat bet)). pose proof (zlen_nonneg chunk). lia. }
  destruct (open_wav ext file ch (p_bytes F) rate data Hw Hd H) as (form & p & pre & rest & E & P & Ef & Lp & Lf).
  pose proof (zlen_nonneg leftover) as L0. pose proof (zlen_nonneg data) as D0.
  destruct (load ext file F form ch rate (zlen data) p (8 + p) junk path 2048 HF C B D0 ltac:(lia) ltac:(lia) E) as [_ Hl].
  assert (Av : available file form (zlen data) p (8 + p) = data).
  { unfold available. rewrite Ef, drop_app by lia. rewrite Z.min_l by lia. now apply take_app. }
  rewrite Av in Hl.
  assert (Nf : zlen data / (ch * p_bytes F) = cols M).
  { rewrite Ld. symmetry. apply (Z.div_unique _ _ _ (zlen leftover)); lia. }
  rewrite Nf in Hl. apply Hl; auto; try lia.
  unfold data. apply take_app. rewrite frames_len; [now rewrite NM | exact R | exact W | apply W | reflexivity].
Qed.

(** ** Saving *)

Section Saving.
Variable F : pcm.
Hypothesis HF : In F wav_formats.
Variable junk : Z -> Q.
Variable s : signal Q.
Hypothesis W : wf_signal s.
Hypothesis N : 1 <= count s.

Let R := wav_regular F HF.
Notation ch := (count s).
Notation width := (p_bytes F).
Notation rate := (Z.max 1 (py_round (sampling_rate s))).
Notation len := (Signal.length s).
Notation codes := (signal_codes F s).

Lemma all_in_range : (forall t, 0 <= t < len -> frame_in_range F s t) <-> (forall c t x, el (channels s) c t = Some x -> in_range F x).
Proof.
  split.
  - intros H c t x E. destruct (el_range _ _ _ _ (proj1 W) E) as [_ T]. exact (H t T c x E).
  - intros H t _ c x E. eauto.
Qed.

Theorem writable : fst (write_wave F junk s) = Ok tt <-> (forall c t x, el (channels s) c t = Some x -> in_range F x) /\ header_fits ch width rate len.
Proof.
  destruct (limit_exists F s R W) as (limit & H1 & H2 & H3).
  pose proof (save_result F R junk s W N limit H1 H3 2048 ltac:(lia)) as H. fold (write_wave F junk s) in H.
  destruct (write_wave F junk s) as [[[] | e] h]; cbn [fst].
  - destruct H as (A & B & _). rewrite <- all_in_range. split; auto.
  - destruct H as (_ & _ & [A | (k & _ & _ & _ & _ & _ & c & t & x & _ & E & Bx)]); (split; [discriminate |]); intros [B1 B2]; [contradiction | exfalso; eauto].
Qed.

Theorem written : fst (write_wave F junk s) = Ok tt -> contents (snd (write_wave F junk s)) = wav_file ch width rate (frames_of F codes 0 len).
Proof.
  destruct (limit_exists F s R W) as (limit & H1 & H2 & H3).
  pose proof (save_result F R junk s W N limit H1 H3 2048 ltac:(lia)) as H. fold (write_wave F junk s) in H.
  destruct (write_wave F junk s) as [[[] | e] h]; cbn [fst snd]; [| discriminate]. intros _. apply H.
Qed.

Theorem failed e : fst (write_wave F junk s) = Err e -> e = StructError /\
  (~ header_fits ch width rate len \/ exists k, 0 <= k < len /\ (2048 | k) /\ header_fits ch width rate k
     /\ contents (snd (write_wave F junk s)) = wav_file ch width rate (frames_of F codes 0 k)
     /\ (forall c t x, t < k -> el (channels s) c t = Some x -> in_range F x)
     /\ exists c t x, k <= t < k + 2048 /\ el (channels s) c t = Some x /\ ~ in_range F x).
Proof.
  destruct (limit_exists F s R W) as (limit & H1 & H2 & H3).
  pose proof (save_result F R junk s W N limit H1 H3 2048 ltac:(lia)) as H. fold (write_wave F junk s) in H.
  destruct (write_wave F junk s) as [[[] | e'] h]; cbn [fst snd]; [discriminate |]. intros [= <-].
  destruct H as (A & _ & [B | (k & B1 & B2 & B3 & B4 & B5 & B6)]); (split; [exact A |]); [left; exact B | right].
  exists k. split; [exact B1 |]. split; [exact B2 |]. split; [exact B3 |]. split; [exact B4 |]. split; [| exact B6].
  intros c t x T E. destruct (el_range _ _ _ _ (proj1 W) E) as [_ T']. apply (B5 t ltac:(lia) c x E).
Qed.

(** The first frames as a matrix of integers *)
Definition first_codes (n : Z) : arr Z := Arr (map (ztake n) (rows codes)) n.

Lemma codes_wf : wf codes /\ nrows codes = ch /\ cols codes = len /\ forall c t x, el (channels s) c t = Some x -> exists z, el codes c t = Some z /\ is_code F x z.
Proof. apply (codes_quantised F R s W). Qed.

Lemma first_ok n : 0 <= n <= len -> wf (first_codes n) /\ nrows (first_codes n) = ch /\ (forall c t, el (first_codes n) c t = if t <? n then el codes c t else None)
  /\ frames_of F (first_codes n) 0 n = frames_of F codes 0 n.
Proof.
  intros Hn. destruct codes_wf as (Wc & Nc & Cc & _).
  assert (E : forall c t, el (first_codes n) c t = if t <? n then el codes c t else None).
  { intros c t. unfold el, first_codes. cbn [rows]. rewrite zth_map. destruct (zth (rows codes) c) as [row |]; cbn [option_map]; [| now destruct (t <? n)].
    rewrite zth_take. reflexivity. }
  split; [| split; [| split; [exact E |]]].
  - split; cbn [cols first_codes]; [lia |]. apply Forall_forall. intros r Hr. cbn [rows first_codes] in Hr. apply in_map_iff in Hr. destruct Hr as (row & <- & Hr).
    rewrite zlen_take. destruct Wc as [_ Wc]. rewrite Forall_forall in Wc. rewrite (Wc row Hr), Cc. lia.
  - unfold nrows, first_codes. cbn [rows]. rewrite zlen_map. exact Nc.
  - unfold frames_of. apply flat_map_ext_in. intros t Ht. apply in_zseq in Ht.
    replace (nrows (first_codes n)) with (nrows codes) by (unfold nrows, first_codes; cbn [rows]; now rewrite zlen_map).
    apply flat_map_ext_in. intros c _. rewrite E. now replace (t <? n) with true by lia.
Qed.

Lemma decoded_beginning path n t : 0 <= n <= len -> decoded F path rate (first_codes n) t -> beginning F path s n t.
Proof.
  intros Hn (Wt & Ct & Lt & Rt & Ot & Lab & H). destruct (first_ok n Hn) as (_ & Nf & Ef & _). destruct codes_wf as (_ & _ & _ & Q).
  rewrite Nf in Ct, Lab. split; [exact Wt |]. split; [exact Ct |]. split; [exact Lt |]. split; [exists rate; split; [apply frame_rate_ok | exact Rt] |].
  split; [exact Ot |]. split; [exact Lab |]. intros c i x I E. destruct (Q c i x E) as (z & Ez & Iz).
  destruct (H c i z) as (y & Ey & Hy); [rewrite Ef; now replace (i <? n) with true by lia |]. exists y, z. auto.
Qed.

Lemma riff_refused ext j rjunk path : read_wave ext (ztake j (Json.codes "RIFF" ++ Json.codes "RIFF")) rjunk path = Err RuntimeError.
Proof.
  assert (H : exists k, 0 <= k <= 8 /\ ztake j (Json.codes "RIFF" ++ Json.codes "RIFF") = ztake k (Json.codes "RIFF" ++ Json.codes "RIFF")).
  { destruct (Z_le_gt_dec j 0); [exists 0; rewrite take_neg by lia; split; [lia | reflexivity] |].
    destruct (Z_le_gt_dec j 8); [exists j; split; [lia | reflexivity] |]. exists 8. split; [lia |]. rewrite take_all by (change (zlen (Json.codes "RIFF" ++ Json.codes "RIFF")) with 8; lia). reflexivity. }
  destruct H as (k & K & ->).
  assert (D : k = 0 \/ k = 1 \/ k = 2 \/ k = 3 \/ k = 4 \/ k = 5 \/ k = 6 \/ k = 7 \/ k = 8) by lia.
  destruct ext; repeat (destruct D as [-> | D]; [reflexivity |]); subst k; reflexivity.
Qed.

Theorem crash ext k rjunk path :
  let file := contents (ztake k (snd (write_wave F junk s))) in
  read_wave ext file rjunk path = Err RuntimeError \/ read_wave ext file rjunk path = Err StructError
  \/ exists t n, read_wave ext file rjunk path = Ok t /\ 0 <= n <= len /\ beginning F path s n t.
Proof.
  destruct (limit_exists F s R W) as (limit & H1 & H2 & H3).
  pose proof (save_result F R junk s W N limit H1 H3 2048 ltac:(lia)) as H. fold (write_wave F junk s) in H.
  assert (S : safe ch width rate (frames_of F codes 0 limit) (snd (write_wave F junk s))).
  { destruct (write_wave F junk s) as [[[] | e'] h]; cbn [snd]; apply H. }
  clear H. cbv zeta. destruct (S k) as [[Ft (x & y & j & Lx & Ly & Bx & By & ->)] | [j ->]]; [| left; apply riff_refused].
  destruct Ft as [F1 F2]. destruct (wav_width F HF) as [_ Hw].
  change (2 ^ 16) with 65536 in F1. change (2 ^ 32) with 4294967296 in F2.
  set (all := frames_of F codes 0 limit) in *. set (file := ztake j (head ch width rate x y ++ all)).
  destruct (first_ok limit H1) as (Wl & Nl & El & Fl).
  assert (La : zlen all = limit * (ch * width)).
  { unfold all. rewrite <- Fl, frames_len; [now rewrite Nl | exact R | exact Wl | lia | reflexivity]. }
  assert (Bf : Forall byte file).
  { unfold file. apply Forall_take. rewrite Forall_app. split.
    - unfold head, middle, format. rewrite !Forall_app. repeat split; auto using number_bytes; repeat constructor; unfold byte; lia.
    - unfold all, frames_of. apply Forall_forall. intros b Hb. apply in_flat_map in Hb. destruct Hb as (t & _ & Hb). apply in_flat_map in Hb.
      destruct Hb as (c & _ & Hb). destruct (el codes c t) as [z |]; [| destruct Hb].
      revert Hb. revert b. rewrite <- Forall_forall. now apply bytes_of_bytes. }
  destruct (opening ext ch width rate ltac:(change (2 ^ 16) with 65536; nia) Hw ltac:(change (2 ^ 32) with 4294967296; nia) x y all Lx Ly Bx j)
    as [E | (A & B & E)]; fold file in E; try fold file in B.
  { left. unfold read_wave, read_wave_with. now rewrite E. }
  right. destruct (size_range y Ly By) as [Y0 Y1].
  destruct (load ext file F (little_value x) ch rate (little_value y) 36 44 rjunk path 2048 HF N Bf Y0 ltac:(lia) ltac:(lia) E) as [L1 L2].
  set (n := little_value y / (ch * width)) in *. set (data := available file (little_value x) (little_value y) 36 44) in *.
  assert (N0 : 0 <= n) by (apply Z.div_pos; nia).
  destruct (Z.le_gt_cases (n * (ch * width)) (zlen data)) as [Le | Gt]; [| left; now apply L1].
  right. assert (Dd : data = ztake (Z.min (Z.min (little_value y) (little_value x - 36)) (j - 44)) all).
  { unfold data, available, file. rewrite drop_take, drop_app by (rewrite ?zlen_head; lia). now rewrite take_take. }
  assert (Nl' : n <= limit).
  { rewrite Dd, zlen_take in Le. nia. }
  destruct (first_ok n ltac:(lia)) as (Wn & Nn & En & Fn).
  destruct (L2 (first_codes n)) as (t & Et & Dt); auto.
  - intros c i z Ez. rewrite En in Ez. destruct (Z.ltb_spec i n) as [Hi | Hi]; [| discriminate].
    destruct codes_wf as (Wc & _). destruct (el_range _ _ _ _ Wc Ez) as [_ Hi']. unfold signal_codes, PcmWriting.codes in Ez. rewrite el_ufunc1 in Ez.
    destruct (el (channels s) c i) as [v |] eqn:Ev; [| discriminate]. injection Ez as <-. apply storable_code; [exact R |].
    exact (H2 i ltac:(lia) c v Ev).
  - rewrite Dd, take_take. rewrite Dd, zlen_take, La in Le.
    assert (J : 44 <= j) by (unfold file in B; rewrite zlen_take in B; lia). assert (0 <= n * (ch * width)) by nia.
    rewrite (Z.min_l (n * (ch * width))) by lia. cbn [cols first_codes].
    rewrite Fn. unfold all. rewrite <- (frames_app F codes 0 n limit) by lia. apply take_app.
    rewrite <- Fn, frames_len; [now rewrite Nn | exact R | exact Wn | lia | reflexivity].
  - exists t, n. split; [exact Et |]. split; [lia |]. now apply decoded_beginning; [lia |].
Qed.
End Saving.

(** ** Round trips *)

Theorem wav_file_is_wav ext ch width rate frames data : 1 <= ch -> 1 <= width <= 4 -> 0 <= rate -> zlen data = ch * width * frames -> header_fits ch width rate frames ->
  is_wav ext ch width rate data (wav_file ch width rate data).
Proof.
  intros C Hw Hr L (H1 & H2 & H3). change (2 ^ 16) with 65536 in H1. change (2 ^ 32) with 4294967296 in H2, H3.
  assert (Lf : zlen (format ch width rate) = 16) by apply zlen_format.
  exists (36 + zlen data), [], (format ch width rate), (Json.codes "fmt " ++ number 4 16 ++ format ch width rate), [], [].
  split; [| split; [| split; [constructor | split; [constructor | split]]]].
  - unfold wav_file. cbn [concat app]. rewrite <- !app_assoc, app_nil_r. reflexivity.
  - rewrite head_wav, zlen_app, zlen_head by (rewrite zlen_number; lia). change (zlen (@nil Z)) with 0. change (2 ^ 32) with 4294967296. lia.
  - split; [reflexivity |]. split; [rewrite Lf; reflexivity |]. exists []. rewrite Lf. split; [reflexivity |]. now rewrite app_nil_r.
  - split; [change (2 ^ 16) with 65536; nia |]. split; [change (2 ^ 32) with 4294967296; nia |].
    exists (number 4 (ch * width * rate) ++ number 2 (ch * width)), (8 * width), []. split; [rewrite zlen_app, !zlen_number by lia; reflexivity |].
    split; [lia |]. left. unfold format. now rewrite app_nil_r, <- !app_assoc.
Qed.

Lemma head_bytes ch width rate x y : Forall byte x -> Forall byte y -> Forall byte (head ch width rate x y).
Proof.
  intros Bx By. unfold head, middle, format. rewrite !Forall_app. repeat split; auto using number_bytes; repeat constructor; unfold byte; lia.
Qed.

Lemma frames_bytes F (M : arr Z) n : regular F -> Forall byte (frames_of F M 0 n).
Proof.
  intros R. unfold frames_of. apply Forall_forall. intros b Hb. apply in_flat_map in Hb. destruct Hb as (t & _ & Hb). apply in_flat_map in Hb.
  destruct Hb as (c & _ & Hb). destruct (el M c t) as [z |]; [| destruct Hb]. revert Hb. revert b. rewrite <- Forall_forall. now apply bytes_of_bytes.
Qed.

Lemma load_first ext F s k rjunk path : In F wav_formats -> wf_signal s -> 1 <= count s -> 0 <= k <= Signal.length s ->
  header_fits (count s) (p_bytes F) (Z.max 1 (py_round (sampling_rate s))) k ->
  (forall c t x, t < k -> el (channels s) c t = Some x -> in_range F x) ->
  exists t, read_wave ext (wav_file (count s) (p_bytes F) (Z.max 1 (py_round (sampling_rate s))) (frames_of F (signal_codes F s) 0 k)) rjunk path = Ok t /\ beginning F path s k t.
Proof.
  intros HF W N K Ft Rg. pose proof (wav_regular F HF) as R. destruct (wav_width F HF) as [Wb Hw].
  destruct (first_ok F HF s W k K) as (Wf & Nf & Ef & Ff).
  assert (Lf : zlen (frames_of F (signal_codes F s) 0 k) = count s * p_bytes F * k).
  { rewrite <- Ff, frames_len; [rewrite Nf; lia | exact R | exact Wf | lia | reflexivity]. }
  set (rate := Z.max 1 (py_round (sampling_rate s))) in *.
  destruct (reader ext F (count s) rate (first_codes F s k) [] (wav_file (count s) (p_bytes F) rate (frames_of F (signal_codes F s) 0 k)) rjunk path HF) as (t & E & D); auto.
  - rewrite head_wav, Forall_app. split; [apply head_bytes; apply number_bytes | now apply frames_bytes].
  - intros c i z Ez. rewrite Ef in Ez. destruct (Z.ltb_spec i k); [| discriminate]. unfold signal_codes, PcmWriting.codes in Ez. rewrite el_ufunc1 in Ez.
    destruct (el (channels s) c i) as [v |] eqn:Ev; [| discriminate]. injection Ez as <-. apply storable_code; [exact R |]. eauto.
  - change (zlen (@nil Z)) with 0. rewrite Wb. nia.
  - rewrite app_nil_r, Wb. cbn [cols first_codes]. rewrite Ff. apply (wav_file_is_wav ext _ _ _ k); auto. unfold rate. lia.
  - exists t. split; [exact E |]. apply decoded_beginning; auto.
Qed.

Theorem round_trip ext F junk s rjunk path : In F wav_formats -> wf_signal s -> 1 <= count s -> fst (write_wave F junk s) = Ok tt ->
  exists t, read_wave ext (contents (snd (write_wave F junk s))) rjunk path = Ok t /\ beginning F path s (Signal.length s) t.
Proof.
  intros HF W N H. rewrite (written F HF junk s W N H). apply (writable F HF junk s W N) in H. destruct H as [Rg Ft].
  assert (L0 : 0 <= Signal.length s) by apply (proj1 (proj1 W)). apply load_first; auto; [lia | eauto].
Qed.

(** The same in terms of the specification *)

Theorem writable_spec F junk s : In F wav_formats -> wf_signal s -> 1 <= count s ->
  exists rate, is_frame_rate (sampling_rate s) rate /\
    (fst (write_wave F junk s) = Ok tt <->
     (forall c t x, el (channels s) c t = Some x -> in_range F x) /\ header_fits (count s) (p_bits F / 8) rate (Signal.length s)).
Proof.
  intros HF W N. destruct (wav_width F HF) as [-> _]. exists (Z.max 1 (py_round (sampling_rate s))). split; [apply frame_rate_ok |]. now apply writable.
Qed.

Theorem written_spec F junk s : In F wav_formats -> wf_signal s -> 1 <= count s -> fst (write_wave F junk s) = Ok tt ->
  exists rate codes, is_frame_rate (sampling_rate s) rate /\ quantised F s codes
    /\ contents (snd (write_wave F junk s)) = wav_file (count s) (p_bits F / 8) rate (frames_of F codes 0 (Signal.length s)).
Proof.
  intros HF W N H. destruct (wav_width F HF) as [-> _]. exists (Z.max 1 (py_round (sampling_rate s))), (signal_codes F s).
  split; [apply frame_rate_ok |]. split; [apply (codes_quantised F (wav_regular F HF) s W) |]. now apply written.
Qed.

Theorem failed_spec ext F junk s e rjunk path : In F wav_formats -> wf_signal s -> 1 <= count s -> fst (write_wave F junk s) = Err e ->
  e = StructError /\ exists rate codes, is_frame_rate (sampling_rate s) rate /\ quantised F s codes /\
  (~ header_fits (count s) (p_bits F / 8) rate (Signal.length s)
   \/ exists k, 0 <= k < Signal.length s /\ (2048 | k)
        /\ (exists c t x, k <= t < k + 2048 /\ el (channels s) c t = Some x /\ ~ in_range F x)
        /\ contents (snd (write_wave F junk s)) = wav_file (count s) (p_bits F / 8) rate (frames_of F codes 0 k)
        /\ exists t, read_wave ext (contents (snd (write_wave F junk s))) rjunk path = Ok t /\ beginning F path s k t).
Proof.
  intros HF W N H. destruct (wav_width F HF) as [-> Hw]. destruct (failed F HF junk s W N e H) as (He & Cs). split; [exact He |].
  exists (Z.max 1 (py_round (sampling_rate s))), (signal_codes F s). split; [apply frame_rate_ok |]. split; [apply (codes_quantised F (wav_regular F HF) s W) |].
  destruct Cs as [Cs | (k & K & D & Fk & C & Rg & Bad)]; [now left | right]. exists k. split; [exact K |]. split; [exact D |]. split; [exact Bad |]. split; [exact C |].
  rewrite C. apply load_first; auto. lia.
Qed.

Theorem truncated ext F ch rate frames data k rjunk path : In F wav_formats -> 1 <= ch -> 0 <= rate -> header_fits ch (p_bits F / 8) rate frames ->
  zlen data = ch * (p_bits F / 8) * frames -> Forall byte data -> 0 <= k < zlen (wav_file ch (p_bits F / 8) rate data) ->
  let file := ztake k (wav_file ch (p_bits F / 8) rate data) in
  read_wave ext file rjunk path = Err RuntimeError \/ read_wave ext file rjunk path = Err StructError.
Proof.
  intros HF C Hr Ft L B K. destruct (wav_width F HF) as [Wb Hw]. rewrite Wb in *. cbv zeta. rewrite head_wav in *.
  destruct Ft as (F1 & F2 & F3). change (2 ^ 16) with 65536 in F1. change (2 ^ 32) with 4294967296 in F2, F3.
  set (x := number 4 (36 + zlen data)) in *. set (y := number 4 (zlen data)) in *. pose proof (zlen_nonneg data) as D0.
  assert (Lx : zlen x = 4) by (apply zlen_number; lia). assert (Ly : zlen y = 4) by (apply zlen_number; lia).
  assert (Vx : little_value x = 36 + zlen data) by (apply value_number; [lia | change (256 ^ 4) with 4294967296; lia]).
  assert (Vy : little_value y = zlen data) by (apply value_number; [lia | change (256 ^ 4) with 4294967296; lia]).
  rewrite zlen_app, zlen_head in K by assumption.
  destruct (opening ext ch (p_bytes F) rate ltac:(change (2 ^ 16) with 65536; nia) Hw ltac:(change (2 ^ 32) with 4294967296; nia) x y data Lx Ly (number_bytes _ _) k)
    as [E | (A & B' & E)].
  { left. unfold read_wave, read_wave_with. now rewrite E. }
  right. rewrite Vx, Vy in E. set (file := ztake k (head ch (p_bytes F) rate x y ++ data)) in *.
  assert (Bf : Forall byte file) by (apply Forall_take; rewrite Forall_app; split; [apply head_bytes; apply number_bytes | exact B]).
  destruct (load ext file F (36 + zlen data) ch rate (zlen data) 36 44 rjunk path 2048 HF C Bf D0 ltac:(lia) ltac:(lia) E) as [L1 _].
  apply L1. assert (Nf : zlen data / (ch * p_bytes F) = frames) by (rewrite L, Z.mul_comm; apply Z.div_mul; nia). rewrite Nf.
  assert (Kk : 44 <= k) by (unfold file in B'; rewrite zlen_take in B'; lia).
  replace (frames * (ch * p_bytes F)) with (zlen data) by lia.
  unfold available, file. rewrite drop_take by lia. rewrite drop_app by (rewrite zlen_head by assumption; reflexivity). rewrite take_take, zlen_take. lia.
Qed.
