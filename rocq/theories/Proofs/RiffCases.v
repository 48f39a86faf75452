(** Cases for the properties of wav files. *)

From Coq Require Import String ZArith QArith Qabs List Bool Lia Lqa.
From Verif.Model Require Import Py Numpy Vector Functions Signal Persistence Pcm Json Riff.
From Verif.Spec Require Import PcmSpec RiffSpec.
From Verif.Proofs Require Import PyFacts NumpyFacts PcmResults.
Import ListNotations.
Open Scope list_scope.
Open Scope Z_scope.

Definition zeros : Z -> Q := fun _ => 0%Q.
Definition zeros2 : Z -> Z -> Q := fun _ _ => 0%Q.

(** A short signal with two channels *)
Definition short : signal Q := Signal.Signal (Arr [[1 # 2; - (1 # 2); 0]; [- (1); 1 # 4; 1 # 4]]%Q 3) (44100 # 1)%Q 0 ["a"; "b"]%string.

Lemma short_wf : wf_signal short /\ 1 <= count short.
Proof. split; [split; [split; [vm_compute; discriminate | repeat constructor] | reflexivity] | vm_compute; discriminate]. Qed.

Lemma short_saved F : In F wav_formats -> fst (write_wave F zeros short) = Ok tt.
Proof. cbn. intuition (subst F; vm_compute; reflexivity). Qed.

(** A signal, whose samples are too large from the third on *)
Definition loud : signal Q := Signal.Signal (Arr [[1 # 2; 0; 3 # 2]]%Q 3) (44100 # 1)%Q 0 ["a"]%string.

Lemma loud_case : wf_signal loud /\ 1 <= count loud /\ fst (write_wave wav_int16 zeros loud) = Err StructError
  /\ contents (snd (write_wave wav_int16 zeros loud)) = wav_file 1 2 44100 [].
Proof. split; [split; [split; [vm_compute; discriminate | repeat constructor] | reflexivity] | split; [vm_compute; discriminate | split; vm_compute; reflexivity]]. Qed.

(** A file with a description of the samples, an unknown chunk and trailing contents *)
Definition foreign : list Z :=
  codes "RIFF" ++ number 4 74 ++ codes "WAVE" ++ (codes "LIST" ++ number 4 3 ++ [1; 2; 3] ++ [0]) ++
  (codes "fmt " ++ number 4 16 ++ (number 2 1 ++ number 2 2 ++ number 4 48000 ++ [9; 9; 9; 9; 9; 9] ++ number 2 12)) ++
  (codes "xxxx" ++ number 4 0) ++ codes "data" ++ number 4 11 ++ ([1; 0; 255; 255; 0; 128; 255; 127] ++ [7; 7; 7]) ++ [0; 5; 5].

Lemma foreign_case : is_wav false 2 (p_bits wav_int16 / 8) 48000 (frames_of wav_int16 (Arr [[1; -32768]; [-1; 32767]] 2) 0 2 ++ [7; 7; 7]) foreign.
Proof.
  exists 74, [codes "LIST" ++ number 4 3 ++ [1; 2; 3] ++ [0]], (number 2 1 ++ number 2 2 ++ number 4 48000 ++ [9; 9; 9; 9; 9; 9] ++ number 2 12),
    (codes "fmt " ++ number 4 16 ++ (number 2 1 ++ number 2 2 ++ number 4 48000 ++ [9; 9; 9; 9; 9; 9] ++ number 2 12)), [codes "xxxx" ++ number 4 0], [0; 5; 5].
  split; [vm_compute; reflexivity |]. split; [vm_compute; split; [discriminate | reflexivity] |].
  split; [constructor; [| constructor]; exists (codes "LIST"), [1; 2; 3]; split; [split; [reflexivity |]; split; [reflexivity |]; exists [0]; split; reflexivity | split; discriminate] |].
  split; [constructor; [| constructor]; exists (codes "xxxx"), []; split; [split; [reflexivity |]; split; [reflexivity |]; exists []; split; reflexivity | split; discriminate] |].
  split; [split; [reflexivity |]; split; [reflexivity |]; exists []; split; reflexivity |].
  split; [vm_compute; split; [discriminate | reflexivity] |]. split; [vm_compute; split; [discriminate | reflexivity] |].
  exists [9; 9; 9; 9; 9; 9], 12, []. split; [reflexivity |]. split; [vm_compute; split; [reflexivity | discriminate] |]. left. reflexivity.
Qed.

Lemma foreign_bytes : Forall byte foreign.
Proof. vm_compute. repeat constructor; discriminate. Qed.

Lemma foreign_storable c t z : el (Arr [[1; -32768]; [-1; 32767]] 2) c t = Some z -> storable wav_int16 z.
Proof.
  intros E. assert (D : In z [1; -32768; -1; 32767]).
  { unfold el in E. cbn [rows] in E. destruct (zth [[1; -32768]; [-1; 32767]] c) as [row |] eqn:R; [| discriminate].
    apply zth_In in R. apply zth_In in E. cbn in R. destruct R as [<- | [<- | []]]; cbn in E; intuition; subst; cbn; auto. }
  cbn in D. unfold storable. cbn. intuition; subst z; vm_compute; repeat split; discriminate.
Qed.

(** A signal with more samples, than are written at once *)
Definition long : signal Q := Signal.Signal (Arr [zrepeat 0%Q 2049] 2049) (48000 # 1)%Q 0 ["a"]%string.

Definition long_interrupted : list Z := contents (ztake 2092 (snd (write_wave wav_uint8 zeros long))).

Theorem interrupted_loads : wf_signal long /\ fst (write_wave wav_uint8 zeros long) = Ok tt /\ interrupted (snd (write_wave wav_uint8 zeros long)) long_interrupted
  /\ Signal.length long = 2049 /\ exists t, read_wave true long_interrupted zeros2 "x.wav" = Ok t /\ Signal.length t = 2048.
Proof.
  split; [split; [split; [vm_compute; discriminate | constructor; [vm_compute; reflexivity | constructor]] | reflexivity] |].
  split; [vm_compute; reflexivity |]. split; [exists 2092; split; [vm_compute; split; [discriminate | reflexivity] | reflexivity] |]. split; [reflexivity |].
  destruct (read_wave true long_interrupted zeros2 "x.wav") as [t | e] eqn:E.
  - exists t. split; [reflexivity |].
    assert (H : match read_wave true long_interrupted zeros2 "x.wav" with Ok t => Signal.length t | Err _ => 0 end = 2048) by (vm_compute; reflexivity).
    rewrite E in H. exact H.
  - assert (H : match read_wave true long_interrupted zeros2 "x.wav" with Ok t => Signal.length t | Err _ => 0 end = 2048) by (vm_compute; reflexivity).
    rewrite E in H. discriminate.
Qed.

(** A signal, whose sampling rate does not fit in the header *)
Definition fast : signal Q := Signal.Signal (Arr [[0%Q]] 1) (4294967296 # 1)%Q 0 ["a"]%string.

Theorem fast_refused : wf_signal fast /\ (forall c t x, el (channels fast) c t = Some x -> in_range wav_int16 x)
  /\ fst (write_wave wav_int16 zeros fast) = Err StructError
  /\ contents (snd (write_wave wav_int16 zeros fast)) = codes "RIFFRIFF"
  /\ read_wave true (contents (snd (write_wave wav_int16 zeros fast))) zeros2 "x.wav" = Err RuntimeError.
Proof.
  split; [split; [split; [vm_compute; discriminate | repeat constructor] | reflexivity] |]. split.
  - intros c t x E. unfold el in E. cbn [channels fast rows] in E. destruct (zth [[0%Q]] c) as [row |] eqn:R; [| discriminate].
    apply zth_In in R. destruct R as [<- | []]. apply zth_In in E. destruct E as [<- | []]. split; vm_compute; [discriminate | reflexivity].
  - split; [vm_compute; reflexivity |]. split; vm_compute; reflexivity.
Qed.

Theorem interrupted_refuted : exists s file t, wf_signal s /\ fst (write_wave wav_uint8 zeros s) = Ok tt /\ interrupted (snd (write_wave wav_uint8 zeros s)) file
  /\ read_wave true file zeros2 "x.wav" = Ok t /\ Signal.length t < Signal.length s.
Proof.
  destruct interrupted_loads as (H1 & H2 & H3 & H4 & t & H5 & H6). exists long, long_interrupted, t.
  split; [exact H1 |]. split; [exact H2 |]. split; [exact H3 |]. split; [exact H5 |]. rewrite H4, H6. reflexivity.
Qed.
