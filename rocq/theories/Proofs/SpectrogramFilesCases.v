(** Spectrograms in files: the results for complex numbers and examples. *)

From Coq Require Import String Ascii ZArith QArith Reals List Bool Lia ZifyBool.
From Verif.Model Require Import Py Numpy Functions Cube Spectrogram Tables SpectrogramFiles.
From Verif.Spec Require Import SpectrogramFilesSpec ComplexSpec.
From Verif.Proofs Require Import PyFacts NumpyFacts CubeFacts SpectrogramFilesFacts.
Import ListNotations.
Open Scope list_scope.
Open Scope Z_scope.

Lemma json_reads junk (d : spectrogram_dictionary) data channels bins samples : sj_channels d = Some data -> zlen data = channels ->
  0 < channels -> 0 < bins -> 0 < samples ->
  (forall c l l', zth data c = Some (l, l') -> rectangle bins samples l /\ rectangle bins samples l') ->
  exists s, read_spectrogram_json C_of_R j Cmul Cadd junk d = Ok (Loaded s) /\ wf_spectrogram s /\
    sg_count s = channels /\ sg_frequencies s = bins /\ sg_length s = samples /\ describes_dictionary d (fun x y => (x, y)) s.
Proof.
  intros D L N0 N1 N2 U. destruct (read_json_ok C_of_R j Cmul Cadd junk d data channels bins samples) as (s & E & W & C0 & C1 & C2 & H & R); auto.
  exists s. do 5 (split; auto). split; auto. intros c l l' f n x y Hc Hx Hy. etransitivity; [exact (H c l l' f n x y Hc Hx Hy)|]. f_equal. apply (cartesian (x, y)).
Qed.

Lemma json_round junk (s : spectrogram C Q) : wf_spectrogram s -> 0 < sg_count s -> 0 < sg_frequencies s -> 0 < sg_length s ->
  exists t, read_spectrogram_json C_of_R j Cmul Cadd junk (spectrogram_as_dict re im s) = Ok (Loaded t) /\ same_spectrogram s t.
Proof. apply json_round_trip. apply cartesian. Qed.

Lemma npz_same K (junk : Z -> Z -> Z -> K) (s : spectrogram K Q) : wf_spectrogram s -> Forall no_nul_at_the_end (sg_labels s) ->
  exists t, read_spectrogram_npz junk (write_spectrogram_npz s) = Ok t /\ same_spectrogram s t.
Proof.
  intros W F. destruct (npz_round_trip junk s W) as (t & E & H & _). exists t. split; auto. apply H.
  eapply Forall_impl; [|exact F]. intros l. apply without_nul_spec.
Qed.

Lemma without_nul_short s : (String.length (without_nul s) <= String.length s)%nat.
Proof.
  induction s as [|c s IH]; cbn; auto. destruct (without_nul s) eqn:E; cbn in *; [|lia]. destruct (Ascii.eqb c "000"); cbn; lia.
Qed.

Lemma npz_nul K (junk : Z -> Z -> Z -> K) (s : spectrogram K Q) c l : wf_spectrogram s ->
  zth (sg_labels s) c = Some (l ++ String "000" EmptyString)%string ->
  exists t l', read_spectrogram_npz junk (write_spectrogram_npz s) = Ok t /\ zth (sg_labels t) c = Some l' /\ l' <> (l ++ String "000" EmptyString)%string.
Proof.
  intros W Z. destruct (npz_round_trip junk s W) as (t & E & _ & L). exists t, (without_nul l). split; auto.
  rewrite L, zth_map, Z. cbn [option_map]. rewrite nul_dropped. split; auto. intros X. pose proof (without_nul_short l) as S. rewrite X in S.
  assert (G : forall a b : string, String.length (a ++ b) = (String.length a + String.length b)%nat) by (induction a; intros; cbn; auto).
  rewrite G in S. cbn in S. lia.
Qed.

Definition demo_stored_spectrogram : spectrogram C Q :=
  Spectrogram (Cube 2 2 3 (fun c f n => if inside 2 2 3 c f n then Some (IZR (c + f), IZR n) else None)) 10%Q 100%Q (-4) ["left"; "right"]%string.

Lemma no_nul l : without_nul l = l -> no_nul_at_the_end l.
Proof.
  intros H t ->. rewrite nul_dropped in H. pose proof (without_nul_short t) as S. rewrite H in S.
  assert (G : forall a b : string, String.length (a ++ b) = (String.length a + String.length b)%nat) by (induction a; intros; cbn; auto).
  rewrite G in S. cbn in S. lia.
Qed.

Lemma demo_stored_ok : wf_spectrogram demo_stored_spectrogram /\
  sg_count demo_stored_spectrogram = 2 /\ sg_frequencies demo_stored_spectrogram = 2 /\ sg_length demo_stored_spectrogram = 3 /\
  Forall no_nul_at_the_end (sg_labels demo_stored_spectrogram).
Proof.
  split; [|repeat split; repeat constructor; apply no_nul; reflexivity]. split; [|reflexivity]. apply wf_by_cells; try lia; intros.
  - replace (inside _ _ _ _ _ _) with true by (ranges; lia). eauto.
  - replace (inside _ _ _ _ _ _) with false by (ranges; lia). auto.
Qed.

(** [sumpf.Spectrogram()] *)
Definition demo_empty_spectrogram : spectrogram C Q := Spectrogram (Cube 1 1 0 (fun _ _ _ => None)) 1%Q 48000%Q 0 [""%string].

Lemma demo_empty_ok : wf_spectrogram demo_empty_spectrogram /\ sg_length demo_empty_spectrogram = 0.
Proof. split; [|reflexivity]. split; [|reflexivity]. apply wf_by_cells; try lia; intros; auto. Qed.
