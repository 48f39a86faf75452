(** C32: sound files with integers.

    [write_file F junk s] is the exception, if there is one, and the file, that has been written until then.  [junk] is the
    contents of uninitialised memory; the theorems hold for all contents. *)

From Coq Require Import String ZArith QArith Qabs List Bool Lia.
From Verif.Model Require Import Py Numpy Functions Signal Pcm.
From Verif.Spec Require Import PcmSpec.
From Verif.Proofs Require Import PcmResults.
Import ListNotations.
Open Scope list_scope.
Open Scope Z_scope.

(** A signal of two channels and three samples *)
Definition stereo : signal Q :=
  Signal (Arr [[1 # 2; - (1 # 4); 0]; [- (1); 1 # 3; 99 # 100]]%Q 3) (441001 # 10)%Q 7 ["left"; "right"]%string.
Lemma stereo_wf : wf_signal stereo.
Proof. split; [split; [cbn; lia | repeat constructor] | reflexivity]. Qed.
Lemma stereo_range : forall F, In F written_formats -> forall c t x, el (channels stereo) c t = Some x -> in_range F x.
Proof.
  intros F HF c t x E. destruct (NumpyFacts.el_range _ _ _ _ (proj1 stereo_wf) E) as [Hc Ht]. change (nrows (channels stereo)) with 2 in Hc. change (cols (channels stereo)) with 3 in Ht.
  assert (C : c = 0 \/ c = 1) by lia. assert (T : t = 0 \/ t = 1 \/ t = 2) by lia.
  cbn in HF. destruct C as [-> | ->], T as [-> | [-> | ->]]; cbn in E; injection E as <-;
    intuition (subst F; split; vm_compute; congruence).
Qed.

(** A signal can be written if and only if all its samples are between the lowest integer and the highest one with half a quantisation step around them. *)
Theorem C32_writable : forall F, In F written_formats -> forall junk s, wf_signal s -> 1 <= count s ->
  (fst (write_file F junk s) = Ok tt <-> forall c t x, el (channels s) c t = Some x -> in_range F x).
Proof. exact write_iff. Qed.
Print Assumptions C32_writable.
Example C32_writable_case : forall F, In F written_formats -> fst (write_file F (fun _ => 5%Q) stereo) = Ok tt.
Proof. intros F HF. apply C32_writable; auto using stereo_wf; [vm_compute; discriminate | now apply stereo_range]. Qed.

(** The file contains the integer, that is nearest to each sample, of all channels and frames in their order, and the nearest positive integer sampling rate. *)
Theorem C32_written : forall F, In F written_formats -> forall junk s, wf_signal s -> 1 <= count s -> fst (write_file F junk s) = Ok tt ->
  exists codes rate, quantised F s codes /\ is_frame_rate (sampling_rate s) rate
    /\ snd (write_file F junk s) = Some (SoundFile (count s) (p_bits F / 8) rate (frames_of F codes 0 (Signal.length s))).
Proof. exact written. Qed.
Print Assumptions C32_written.
Example C32_written_case :
  snd (write_file wav_int16 (fun _ => 5%Q) stereo) = Some (SoundFile 2 2 44100 [0; 64; 0; 128; 0; 224; 171; 42; 0; 0; 184; 126])
  /\ snd (write_file aiff_int16 (fun _ => 5%Q) stereo) = Some (SoundFile 2 2 44100 [64; 0; 128; 0; 224; 0; 42; 171; 0; 0; 126; 184])
  /\ snd (write_file wav_uint8 (fun _ => 5%Q) stereo) = Some (SoundFile 2 1 44100 [192; 0; 96; 171; 128; 255]).
Proof. vm_compute. auto. Qed.

(** If a sample is out of range, a [struct.error] is raised and a file is left, that ends with the last complete chunk of 2048 frames before the first such sample. *)
Theorem C32_write_fails : forall F, In F written_formats -> forall junk s e, wf_signal s -> 1 <= count s -> fst (write_file F junk s) = Err e ->
  e = StructError
  /\ exists codes rate k, quantised F s codes /\ is_frame_rate (sampling_rate s) rate
    /\ 0 <= k < Signal.length s /\ (2048 | k)
    /\ (forall t, 0 <= t < k -> frame_in_range F s t)
    /\ (exists c t x, k <= t < k + 2048 /\ el (channels s) c t = Some x /\ ~ in_range F x)
    /\ snd (write_file F junk s) = Some (SoundFile (count s) (p_bits F / 8) rate (frames_of F codes 0 k)).
Proof. exact write_fails. Qed.
Print Assumptions C32_write_fails.
Example C32_write_fails_case :
  write_file wav_int16 (fun _ => 5%Q) (Signal (Arr [[1 # 2; 1]%Q] 2) 48000%Q 0 [""%string]) = (Err StructError, Some (SoundFile 1 2 48000 [])).
Proof. vm_compute. auto. Qed.

(** The samples, for which a documented full scale of 1.0 leaves room, but which are not written: the upper half of the highest quantisation step, and 1.0 itself *)
Theorem C32_full_scale_refuted : forall F x, In F written_formats -> (1 - quantum F / 2 <= x < 1)%Q \/ (x == 1)%Q ->
  exists s, wf_signal s /\ count s = 1 /\ Signal.length s = 1 /\ el (channels s) 0 0 = Some x
    /\ forall junk, fst (write_file F junk s) = Err StructError.
Proof. exact full_scale. Qed.
Print Assumptions C32_full_scale_refuted.
Example C32_full_scale_refuted_case : (1 - quantum wav_uint8 / 2 <= 999 # 1000 < 1)%Q.
Proof. split; vm_compute; congruence. Qed.

(** The file does not depend on uninitialised memory. *)
Theorem C32_memory : forall F, In F written_formats -> forall junk junk' s, wf_signal s -> 1 <= count s ->
  write_file F junk s = write_file F junk' s.
Proof. exact junk_irrelevant. Qed.
Print Assumptions C32_memory.
Example C32_memory_case : wf_signal stereo /\ 1 <= count stereo.
Proof. split; [apply stereo_wf | vm_compute; discriminate]. Qed.

(** Each file with complete frames of bytes contains integers of its format. *)
Theorem C32_any_file : forall F, In F written_formats -> forall f, 1 <= f_channels f -> f_width f = p_bits F / 8 ->
  Forall (fun b => 0 <= b < 256) (f_data f) -> (f_channels f * f_width f | zlen (f_data f)) ->
  exists codes, wf codes /\ nrows codes = f_channels f /\ (forall c t z, el codes c t = Some z -> storable F z)
    /\ f_data f = frames_of F codes 0 (cols codes).
Proof. exact any_file. Qed.
Print Assumptions C32_any_file.
Definition small_file : sound_file := SoundFile 2 2 8000 [1; 0; 0; 128; 255; 255; 7; 9].
Lemma small_ok : 1 <= f_channels small_file /\ f_width small_file = p_bits aiff_int16 / 8 /\ Forall (fun b => 0 <= b < 256) (f_data small_file)
  /\ (f_channels small_file * f_width small_file | zlen (f_data small_file)).
Proof. split; [cbn; lia |]. split; [reflexivity |]. split; [repeat constructor; lia |]. exists 2. reflexivity. Qed.
Example C32_any_file_case : exists codes, nrows codes = 2 /\ cols codes = 2 /\ f_data small_file = frames_of aiff_int16 codes 0 2.
Proof. exists (Arr [[256; -1]; [128; 1801]] 2). vm_compute. auto. Qed.

(** Reading a file gives the samples of all its integers. *)
Theorem C32_read : forall F, In F written_formats -> forall junk path f codes,
  wf codes -> 1 <= nrows codes -> (forall c t z, el codes c t = Some z -> storable F z) ->
  f_channels f = nrows codes -> f_width f = p_bits F / 8 -> f_data f = frames_of F codes 0 (cols codes) ->
  exists s, read_sound junk (reader_for F) path f = Ok s /\ wf_signal s /\ count s = nrows codes /\ Signal.length s = cols codes
    /\ sampling_rate s = inject_Z (f_rate f) /\ offset s = 0 /\ labels s = map (file_label path) (zseq 1 (nrows codes))
    /\ forall c t z, el codes c t = Some z -> exists y, el (channels s) c t = Some y /\ (y == sample_of F z)%Q.
Proof. exact read_ok. Qed.
Print Assumptions C32_read.
Example C32_read_case : exists s, read_sound (fun _ _ => 5%Q) Aifc "a/b.aif" small_file = Ok s
  /\ labels s = ["b.aif 1"; "b.aif 2"]%string /\ el (channels s) 1 0 = Some (128 # 32768)%Q.
Proof. eexists. split; [vm_compute; reflexivity |]. vm_compute. auto. Qed.

(** Writing and reading changes each sample by half a quantisation step at most, and samples, that are multiples of the step, not at all. *)
Theorem C32_round_trip : forall F, In F written_formats -> forall junk rjunk path s, wf_signal s -> 1 <= count s ->
  (forall c t x, el (channels s) c t = Some x -> in_range F x) ->
  exists f s', write_file F junk s = (Ok tt, Some f) /\ read_sound rjunk (reader_for F) path f = Ok s'
    /\ wf_signal s' /\ count s' = count s /\ Signal.length s' = Signal.length s
    /\ (exists rate, is_frame_rate (sampling_rate s) rate /\ sampling_rate s' = inject_Z rate)
    /\ forall c t x, el (channels s) c t = Some x ->
         exists y, el (channels s') c t = Some y /\ (Qabs (x - y) <= quantum F / 2)%Q
                   /\ ((exists z, x == sample_of F z)%Q -> (y == x)%Q).
Proof. exact round_trip. Qed.
Print Assumptions C32_round_trip.
Example C32_round_trip_case : wf_signal stereo /\ 1 <= count stereo /\
  forall F, In F written_formats -> forall c t x, el (channels stereo) c t = Some x -> in_range F x.
Proof. split; [apply stereo_wf |]. split; [vm_compute; discriminate | apply stereo_range]. Qed.

(** Reading a file and writing the signal again gives the same file. *)
Theorem C32_copy : forall F, In F written_formats -> forall junk rjunk path f s,
  1 <= f_channels f -> f_width f = p_bits F / 8 -> 1 <= f_rate f -> Forall (fun b => 0 <= b < 256) (f_data f) ->
  (f_channels f * f_width f | zlen (f_data f)) ->
  read_sound rjunk (reader_for F) path f = Ok s -> write_file F junk s = (Ok tt, Some f).
Proof. exact copy_ok. Qed.
Print Assumptions C32_copy.
Example C32_copy_case : exists s, read_sound (fun _ _ => 5%Q) (reader_for aiff_int16) "x" small_file = Ok s
  /\ write_file aiff_int16 (fun _ => 3%Q) s = (Ok tt, Some small_file).
Proof. eexists. split; [vm_compute; reflexivity |]. vm_compute. auto. Qed.
