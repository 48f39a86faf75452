(** Property C67: noise signals.  The samples are exact real numbers; [power] and [modulo] are operations that are not used, [junk] is the contents
    of freshly allocated memory.  The random number generator [G] is arbitrary; [sound] says in which ranges its numbers are. *)

From Coq Require Import String ZArith List Bool Lia Reals Lra.
From Verif.Model Require Import Py Numpy Functions Signal Generators Noise.
From Verif.Spec Require Import TimeSpec RealSpec NoiseSpec.
From Verif.Proofs Require Import NoiseFacts NoiseResults.
Import ListNotations.
Open Scope Z_scope.

(** Every noise signal has one channel, begins at time 0, and has the given length and sampling rate and a label that names the distribution. *)
Theorem C67_structure : forall power modulo S (G : rng R S) junk c sd rate length w n w', sound G ->
  real_noise power modulo G junk c sd rate length w = (Ok n, w') -> 0 <= length /\ is_noise n c rate length.
Proof. exact (fun power modulo S G junk => made_any power modulo G junk). Qed.
Print Assumptions C67_structure.

(** There is noise for all parameters of which there is a distribution, and the samples are in the documented range. *)
Theorem C67_range : forall power modulo S (G : rng R S) junk, sound G -> forall c sd rate length w s, proper c -> 0 <= length -> starts G sd w s ->
  exists n w', real_noise power modulo G junk c sd rate length w = (Ok n, w') /\ is_noise n c rate length /\
    forall t, 0 <= t < length -> exists x, at_time n 0 t = Some x /\ allowed c x.
Proof. exact (fun power modulo S G junk => range_ok power modulo G junk). Qed.
Print Assumptions C67_range.

(** The case: a generator that yields 1/2 and 1/4 by turns *)
Example C67_range_case : sound two_numbers /\ proper (TriangularNoise (- 1) 2 None)%R /\ 0 <= 3 /\ starts two_numbers (IntegerSeed 5) (World 0 []) true /\
  proper (UniformNoise (- 1) 1)%R /\ starts two_numbers NoSeed (World 0 []) true /\
  exists n, real_noise (fun _ _ => 0%R) (fun _ _ => 0%R) two_numbers (fun _ => 0%R) (UniformNoise (- 1) 1)%R (IntegerSeed 5) 48000%R 2 (World 0 []) = (Ok n, World 0 []) /\
    at_time n 0 0 = Some (-1 + (1 - -1) * / 2)%R /\ at_time n 0 1 = Some (-1 + (1 - -1) * / 4)%R.
Proof.
  split; [exact two_numbers_sound|]. split; [cbn; lra|]. split; [lia|]. split; [split; [lia|reflexivity]|]. split; [cbn; lra|]. split; [reflexivity|].
  unfold make_noise. cbn [default_rng]. cbn [Z.ltb Z.compare Vector.vector bind map zseq]. unfold noise_function, uniform, not_negative. rewrite real_less_false by (cbn; lra).
  eexists. split; [vm_compute; reflexivity|]. split; reflexivity.
Qed.

(** For other parameters there is an error; default_rng has failed before, if the seed is refused. *)
Theorem C67_refused : forall power modulo S (G : rng R S) junk c sd rate length w, improper c ->
  exists w', real_noise power modulo G junk c sd rate length w = (Err ValueError, w') \/
    (exists e, default_rng G sd w = Err e /\ real_noise power modulo G junk c sd rate length w = (Err e, w')).
Proof. exact (fun power modulo S G junk => refused power modulo G junk). Qed.
Print Assumptions C67_refused.

Example C67_refused_case : improper (GaussianNoise 0 (- 1))%R /\ improper (TriangularNoise (- 1) 1 (Some 2))%R.
Proof. cbn. lra. Qed.

(** The samples have the documented distribution: each sample is the quantile for a number of the generator.  If that number is uniformly distributed
    between 0 and 1, the probability of a sample that is not larger than [y] is therefore [F y]. *)
Theorem C67_distribution : forall power modulo S (G : rng R S) junk, sound G -> forall c F sd rate length w s, probability c = Some F -> proper c -> 0 <= length -> starts G sd w s ->
  exists n w', real_noise power modulo G junk c sd rate length w = (Ok n, w') /\
    forall t, 0 <= t < length -> exists x, at_time n 0 t = Some x /\ ((0 < level G c s t)%R -> quantile F (level G c s t) x).
Proof. exact (fun power modulo S G junk => distribution_ok power modulo G junk). Qed.
Print Assumptions C67_distribution.

Example C67_distribution_case : (exists F, probability (LaplaceNoise 0 1)%R = Some F) /\ proper (LaplaceNoise 0 1)%R /\ (0 < level two_numbers (LaplaceNoise 0 1) true 1)%R /\
  (exists F, probability (LomaxNoise 3)%R = Some F) /\ proper (LomaxNoise 3)%R /\ (0 < level two_numbers (LomaxNoise 3) true 1)%R.
Proof.
  split; [now eexists|]. split; [cbn; lra|]. split; [change (0 < / 4)%R; lra|]. split; [now eexists|]. split; [cbn; lra|].
  change (0 < 1 - exp (Ropp 1))%R. pose proof (exp_increasing (Ropp 1) 0 ltac:(lra)) as H. rewrite exp_0 in H. lra.
Qed.

(** With the same seed, noise with other parameters is a multiple of a standard noise, to which a constant is added. *)
Theorem C67_affine : forall power modulo S (G : rng R S) junk c std loc scale sd rate length w s,
  standard c = Some (std, loc, scale) -> proper c -> 0 <= length -> starts G sd w s ->
  exists n m w1 w2, real_noise power modulo G junk c sd rate length w = (Ok n, w1) /\ real_noise power modulo G junk std sd rate length w = (Ok m, w2) /\
    forall t, 0 <= t < length -> exists x, at_time m 0 t = Some x /\ at_time n 0 t = Some (loc + scale * x)%R.
Proof. exact (fun power modulo S G junk => affine_ok power modulo G junk). Qed.
Print Assumptions C67_affine.

Example C67_affine_case : standard (GaussianNoise 3 2)%R = Some (GaussianNoise 0 1, 3, 2)%R /\ proper (GaussianNoise 3 2)%R.
Proof. split; [reflexivity|cbn; lra]. Qed.

(** The other distributions are those of NumPy with the documented parameters. *)
Theorem C67_methods : forall power modulo S (G : rng R S) junk c name parameters sd rate length w s,
  sound G -> documented_method c = Some (name, parameters) -> 0 <= length -> starts G sd w s ->
  match r_method G name parameters s length with
  | Ok (l, s') => exists n w', real_noise power modulo G junk c sd rate length w = (Ok n, w') /\ is_noise n c rate length /\ world_after sd w s' w' /\
      forall t, 0 <= t < length -> at_time n 0 t = zth l t
  | Err e => exists w', real_noise power modulo G junk c sd rate length w = (Err e, w')
  end.
Proof. exact (fun power modulo S G junk => methods_ok power modulo G junk). Qed.
Print Assumptions C67_methods.

Example C67_methods_case : documented_method (BinomialNoise (/ 2) 10)%R = Some ("binomial"%string, [("n", 10); ("p", / 2)]%string%R) /\
  r_method two_numbers "binomial" [("n", 10); ("p", / 2)]%string%R true 3 = Ok ([0; 0; 0]%R, true).
Proof. split; reflexivity. Qed.

(** The noise with an integer as seed is reproducible: it depends on nothing else, and it changes nothing else ... *)
Theorem C67_reproducible : forall power modulo S (G : rng R S) junk c k rate length w1 w2,
  exists r, real_noise power modulo G junk c (IntegerSeed k) rate length w1 = (r, w1) /\ real_noise power modulo G junk c (IntegerSeed k) rate length w2 = (r, w2).
Proof. exact (fun power modulo S G junk => reproducible power modulo G junk). Qed.
Print Assumptions C67_reproducible.

(** ... wherever it is made in a program that makes other noise signals. *)
Theorem C67_history : forall power modulo S (G : rng R S) junk program w i q k, zth program i = Some q -> q_seed q = IntegerSeed k -> forall w0,
  zth (fst (real_noises power modulo G junk program w)) i = Some (fst (real_noise power modulo G junk (q_noise q) (IntegerSeed k) (q_rate q) (q_length q) w0)).
Proof. exact (fun power modulo S G junk => history power modulo G junk). Qed.
Print Assumptions C67_history.

Example C67_history_case : exists program q, zth program 2 = Some q /\ q_seed q = IntegerSeed 7 /\ zth program 0 = Some (Request (GaussianNoise 0 1)%R NoSeed 48000%R 16) /\
  zth program 1 = Some (Request (PoissonNoise 1)%R (GeneratorSeed 0) 48000%R 16).
Proof.
  exists [Request (GaussianNoise 0 1)%R NoSeed 48000%R 16; Request (PoissonNoise 1)%R (GeneratorSeed 0) 48000%R 16; Request (BetaNoise 1 1)%R (IntegerSeed 7) 44100%R 8].
  eexists. repeat split.
Qed.

(** With the same seed, a shorter signal is the beginning of a longer one. *)
Theorem C67_prefix : forall power modulo S (G : rng R S) junk c sd rate n m w s, proper c -> 0 <= n <= m -> starts G sd w s ->
  exists x y w1 w2, real_noise power modulo G junk c sd rate n w = (Ok x, w1) /\ real_noise power modulo G junk c sd rate m w = (Ok y, w2) /\
    forall t, 0 <= t < n -> at_time x 0 t = at_time y 0 t.
Proof. exact (fun power modulo S G junk => prefix_ok power modulo G junk). Qed.
Print Assumptions C67_prefix.

Example C67_prefix_case : proper (LogisticNoise 0 1)%R /\ 0 <= 2 <= 5 /\ starts two_numbers (GeneratorSeed 1) (World 4 [true; false]) false.
Proof. split; [cbn; lra|]. split; [lia|]. split; [lia|reflexivity]. Qed.

(** If the seed is a random number generator, the next noise continues where the previous one has stopped ... *)
Theorem C67_continues : forall power modulo S (G : rng R S) junk c i rate n m w, proper c -> 0 <= n -> 0 <= m -> 0 <= i < zlen (w_generators w) ->
  exists x y z w1 w2 w3, real_noise power modulo G junk c (GeneratorSeed i) rate n w = (Ok x, w1) /\ real_noise power modulo G junk c (GeneratorSeed i) rate m w1 = (Ok y, w2) /\
    real_noise power modulo G junk c (GeneratorSeed i) rate (n + m) w = (Ok z, w3) /\ (forall j, 0 <= j -> zth (w_generators w2) j = zth (w_generators w3) j) /\
    forall t, 0 <= t < n + m -> at_time z 0 t = if t <? n then at_time x 0 t else at_time y 0 (t - n).
Proof. exact (fun power modulo S G junk => continue_ok power modulo G junk). Qed.
Print Assumptions C67_continues.

Example C67_continues_case : proper (ChiSquareNoise 3)%R /\ 0 <= 1 < zlen (w_generators (World 4 [true; false])).
Proof. split; [cbn; lra|]. split; [discriminate|reflexivity]. Qed.

(** ... so that it is not reproducible, although the seed is not [None]. *)
Theorem C67_generator_refuted : exists (G : rng R bool) w, sound G /\ forall power modulo junk rate,
  exists x y w1 w2, real_noise power modulo G junk (UniformNoise (- 1) 1)%R (GeneratorSeed 0) rate 1 w = (Ok x, w1) /\
    real_noise power modulo G junk (UniformNoise (- 1) 1)%R (GeneratorSeed 0) rate 1 w1 = (Ok y, w2) /\ at_time x 0 0 <> at_time y 0 0.
Proof. exact generator_differs. Qed.
Print Assumptions C67_generator_refuted.

(** Equal boundaries of uniform noise are accepted; the samples are then not smaller than the upper boundary. *)
Theorem C67_boundaries_refuted : forall S (G : rng R S) b sd w s, starts G sd w s -> forall power modulo junk rate,
  exists n w', real_noise power modulo G junk (UniformNoise b b) sd rate 1 w = (Ok n, w') /\ at_time n 0 0 = Some b.
Proof. exact @equal_boundaries. Qed.
Print Assumptions C67_boundaries_refuted.

Example C67_boundaries_case : starts two_numbers NoSeed (World 3 []) true.
Proof. reflexivity. Qed.
