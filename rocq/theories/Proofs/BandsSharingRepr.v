(** The representations of bands filters, whose dictionaries have been changed. *)

From Coq Require Import String ZArith List Bool Lia.
From Verif.Model Require Import Py Functions Signal Terms Filter Bands BandsSharing Repr.
From Verif.Spec Require Import BandsSpec BandsSharingSpec ReprSpec.
From Verif.Proofs Require Import PyFacts BandsClass BandsCases BandsSharingFacts ReprData ReprRefute ReprCases.
Import ListNotations.
Open Scope Z_scope.

Theorem current_representation {K X} (A : arithmetic K X) log10 exp10 finite finite_frequency default_rate default_resolution default_spectrogram_rate names
    before ns i e labels after m1 m b : ordered A -> In "Bands"%string names ->
  (forall d, In (NewDictionary d) (before ++ after) -> dictionary d) ->
  run A log10 exp10 (Memory [] []) before = Ok m1 -> run A log10 exp10 m1 (Create ns i e labels :: after) = Ok m ->
  Forall2 (fun n d => zth (dictionaries m) n = Some d) ns b -> finite_bands finite finite_frequency b ->
  exists s S B, zth (filters m) (zlen (filters m1)) = Some s /\ observed m s = Ok S /\ mk_bands A b i e labels = Ok B /\
    eval_text A default_rate default_resolution default_spectrogram_rate names (repr_bands finite finite_frequency S) = Ok (VBands B) /\
    read_repr A default_rate default_resolution default_spectrogram_rate (repr_bands finite finite_frequency S) = Ok (VBands B).
Proof.
  intros OA N V E1 E Fb Fin.
  destruct (current_attributes A log10 exp10 OA before ns i e labels after m1 m V E1 E) as (s & b1 & B1 & b' & B & S & H1 & _ & _ & _ & H5 & H6 & H7 & D & F0 & F1 & F2 & F3).
  assert (Eb : b' = b).
  { clear - H5 Fb. revert b Fb. induction H5 as [| n d ns b' Hd _ IH]; intros b Fb; inversion Fb; subst; [reflexivity |]. f_equal; [congruence | now apply IH]. }
  subst b'. exists s, S, B. split; [exact H1 |]. split; [exact H7 |]. split; [exact H6 |].
  assert (ER : repr_bands finite finite_frequency S = repr_bands finite finite_frequency B) by (unfold repr_bands; now rewrite F0, F1, F2, F3).
  rewrite ER. split; [eapply bands_ok; eauto | eapply bands_file; eauto].
Qed.
