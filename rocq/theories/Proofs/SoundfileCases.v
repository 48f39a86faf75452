(** Examples for the sound files *)

From Coq Require Import String ZArith QArith Qabs Lia List Bool.
From Verif.Model Require Import Py Numpy Functions Signal Persistence FileFormats Pcm Soundfile.
From Verif.Spec Require Import PcmSpec SoundfileSpec.
From Verif.Proofs Require Import PyFacts SoundfileRates SoundfileData.
Import ListNotations.
Open Scope string_scope.
Open Scope list_scope.
Open Scope Z_scope.

Definition stereo : signal Q := Signal (Arr [[1 # 2; -1 # 4; 0]; [1; 3 # 4; -1]]%Q 3) (96004 # 1) 7 ["left"; "right"].
Definition as_is (format subtype : string) (rate channels : Z) (data : list Q) : result (list Q) := Ok data.

Lemma stereo_wf : wf_signal stereo /\ 1 <= count stereo.
Proof. split; [split; [split; [vm_compute; discriminate | repeat constructor] | reflexivity] | vm_compute; discriminate]. Qed.

Lemma stereo_saved : write_soundfile as_is "FLAC_INT16" stereo = Ok (Sound "FLAC" "PCM_16" 96000 2 [1 # 2; 1; -1 # 4; 3 # 4; 0; -1]%Q).
Proof. vm_compute. reflexivity. Qed.

Lemma stereo_loaded : (s <- write_soundfile as_is "FLAC_INT16" stereo ;; read_soundfile (fun _ _ => 0%Q) "a/b.flac" s)
  = Ok (Signal (channels stereo) 96000%Q 0 ["b.flac 1"; "b.flac 2"]).
Proof. vm_compute. reflexivity. Qed.

Lemma in_writer name : (exists e, In e signal_writers /\ e_name e = "SoundfileWriter" /\ In name (e_supported e)) ->
  In name (e_supported (nth 7 signal_writers (Entry "" [] false))).
Proof.
  intros (e & E & N & I). cbn [signal_writers In] in E.
  repeat destruct E as [<- | E]; try discriminate N; try contradiction. exact I.
Qed.

Theorem saved_spec encode name s e : In e signal_writers -> e_name e = "SoundfileWriter" -> In name (e_supported e) -> wf_signal s ->
  exists format suffix subtype rate data, name = (format ++ "_" ++ suffix)%string /\ In (suffix, subtype) encoding_names
    /\ supported format rate
    /\ (is_nearest format (sampling_rate s) rate
        \/ format = "FLAC" /\ (131071 # 2 <= sampling_rate s)%Q /\ (sampling_rate s < 131075 # 2)%Q /\ rate = 65540)
    /\ is_interleaved (channels s) data
    /\ write_soundfile encode name s = match encode format subtype rate (count s) data with
                                       | Ok d => Ok (Sound format subtype rate (count s) d)
                                       | Err e => Err e
                                       end.
Proof.
  intros E N I W. destruct (saved encode name s (in_writer name (ex_intro _ e (conj E (conj N I)))) W)
    as (format & suffix & subtype & rate & data & H1 & H2 & H3 & H4 & H5 & H6).
  exists format, suffix, subtype, rate, data. repeat (split; [assumption |]). rewrite H6. now destruct (encode _ _ _ _ _).
Qed.

Lemma gap_refuted : exists s f, wf_signal s /\ write_soundfile as_is "FLAC_INT16" s = Ok f /\ sampling_rate s = 65536%Q
  /\ ~ is_nearest (so_format f) (sampling_rate s) (so_rate f).
Proof.
  exists (Signal (Arr [[1 # 2]]%Q 1) 65536%Q 0 ["x"]), (Sound "FLAC" "PCM_16" 65540 1 [1 # 2]%Q).
  split; [split; [split; [vm_compute; discriminate | repeat constructor] | reflexivity] |]. split; [reflexivity |]. split; [reflexivity |].
  cbn [so_format so_rate sampling_rate]. replace 65540 with (flac 65536) by (vm_compute; reflexivity).
  apply flac_not_nearest; [vm_compute; discriminate | reflexivity].
Qed.

Lemma nearest_case : is_nearest "FLAC" (96004 # 1) 96000 /\ is_nearest "OGG" (1 # 2) 1000 /\ is_nearest "WAV" (-3 # 1) 1.
Proof.
  split; [| split].
  - replace 96000 with (flac (96004 # 1)) by (vm_compute; reflexivity). apply flac_nearest. right. vm_compute. discriminate.
  - replace 1000 with (vorbis (1 # 2)) by (vm_compute; reflexivity). apply vorbis_nearest.
  - replace 1 with (int_greater_zero (-3 # 1)) by (vm_compute; reflexivity). apply int_nearest. auto.
Qed.
