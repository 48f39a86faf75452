(** Proofs for C74: writing to the parts of the samples of a spectrum *)

From Coq Require Import ZArith List Bool Lia ZifyBool.
From Verif.Model Require Import Py Numpy Spectrum Memory SpectrumMemory SpectrumParts.
From Verif.Proofs Require Import PyFacts NumpyFacts MemoryFacts MemoryWrites SpectrumMemoryFacts.
From Verif.Proofs Require JackPorts.
Import ListNotations.
Open Scope Z_scope.

Section Parts.
Context {P R : Type}.

Lemma assign_part_address (m : memory (P * P)) w c t v : 0 <= c -> 0 <= t -> wf (pv_locations w) -> c < nrows (pv_locations w) -> t < cols (pv_locations w) ->
  exists a, el (pv_locations w) c t = Some a /\ In a (concat (rows (pv_locations w))) /\
    assign_part m w c t v = Ok (Memory (poke (cells m) (a, match pv_part w with RealPart => (v, snd (cells m a)) | ImaginaryPart => (fst (cells m a), v) end)) (next m)).
Proof.
  intros C T W Hc Ht. destruct (el_in (pv_locations w) c t W) as [a Ea]; [lia | lia |]. exists a. split; [exact Ea |]. unfold el in Ea.
  destruct (zth (rows (pv_locations w)) c) as [r |] eqn:Er; [| discriminate]. split.
  - apply in_concat. exists r. split; [exact (zth_In _ _ _ Er) | exact (zth_In _ _ _ Ea)].
  - unfold assign_part. rewrite JackPorts.getitem_nonneg by exact C. rewrite Er. cbn [bind]. rewrite JackPorts.getitem_nonneg by exact T. rewrite Ea. reflexivity.
Qed.

Theorem part_assigned (m : memory (P * P)) (x : spectrum_object R) (imaginary : bool) c t v :
  wf (sp_locations x) -> NoDup (concat (rows (sp_locations x))) -> 0 <= c < nrows (sp_locations x) -> 0 <= t < cols (sp_locations x) ->
  exists m', assign_part m (if imaginary then spectrum_imaginary_view x else spectrum_real_view x) c t v = Ok m' /\
    resolution (sp_values m' x) = resolution (sp_values m x) /\ sp_labels (sp_values m' x) = sp_labels (sp_values m x) /\
    (forall i k z, el (sp_channels (sp_values m x)) i k = Some z ->
       (i = c /\ k = t -> el (sp_channels (sp_values m' x)) i k = Some (if imaginary then (fst z, v) else (v, snd z))) /\
       (i <> c \/ k <> t -> el (sp_channels (sp_values m' x)) i k = Some z)) /\
    (forall y : spectrum_object R, (forall a, In a (concat (rows (sp_locations x))) -> ~ In a (concat (rows (sp_locations y)))) -> sp_values m' y = sp_values m y).
Proof.
  intros W D C T. set (w := if imaginary then _ else _).
  assert (Lw : pv_locations w = sp_locations x) by (unfold w; now destruct imaginary).
  assert (Pw : pv_part w = if imaginary then ImaginaryPart else RealPart) by (unfold w; now destruct imaginary).
  destruct (assign_part_address m w c t v) as (a & Ea & Ia & E); rewrite ?Lw in *; try lia; [exact W |]. rewrite E. eexists. split; [reflexivity |].
  split; [reflexivity |]. split; [reflexivity |]. split.
  - intros i k z Ez. cbn [sp_values sp_channels] in *. rewrite !el_ufunc1 in *. destruct (el (sp_locations x) i k) as [b |] eqn:Eb; [| discriminate].
    cbn [option_map cells] in *. injection Ez as <-. unfold poke. cbn [fst snd]. split.
    + intros [-> ->]. rewrite Ea in Eb. injection Eb as <-. rewrite Z.eqb_refl, Pw. now destruct imaginary.
    + intros N. destruct (Z.eqb_spec b a) as [-> |]; [| reflexivity]. destruct (distinct_el _ W D i k c t a Eb Ea). lia.
  - intros y S. apply sp_values_ext. apply Forall_forall. intros r Hr. apply Forall_forall. intros b Hb. cbn [cells]. unfold poke. cbn [fst snd].
    destruct (Z.eqb_spec b a) as [-> |]; [| reflexivity]. destruct (S a Ia). apply in_concat. exists r. now split.
Qed.

(** The numbers in the views are the parts of the samples, also after later changes. *)
Theorem part_seen (m : memory (P * P)) (x : spectrum_object R) i k :
  el (part_values m (spectrum_real_view x)) i k = option_map fst (el (sp_channels (sp_values m x)) i k) /\
  el (part_values m (spectrum_imaginary_view x)) i k = option_map snd (el (sp_channels (sp_values m x)) i k).
Proof. unfold part_values, sp_values. cbn [spectrum_real_view spectrum_imaginary_view pv_part pv_locations sp_channels]. rewrite !el_ufunc1. now destruct (el (sp_locations x) i k). Qed.
End Parts.
