(** Specification vocabulary for noise signals: random numbers, the distributions and what the documentation says about them. *)

From Coq Require Import String ZArith List Bool Reals.
From Verif.Model Require Import Py Numpy Functions Signal Generators Noise.
From Verif.Spec Require Import TimeSpec RealSpec.
Import ListNotations.
Open Scope Z_scope.

Definition real_less (x y : R) : bool := if Rlt_dec x y then true else false.

(** Noise with samples that are exact real numbers *)
Notation real_noise power modulo G := (make_noise (real_ops power modulo) G IZR real_less sqrt ln exp).
Notation real_noises power modulo G := (make_all (real_ops power modulo) G IZR real_less sqrt ln exp).

(** ** Random numbers *)

(** The state after [t] numbers have been drawn, and the number that is drawn then *)
Fixpoint state_after {S} (f : S -> R * S) (t : nat) (s : S) : S := match t with Datatypes.O => s | Datatypes.S t => state_after f t (snd (f s)) end.
Definition nth_number {S} (f : S -> R * S) (s : S) (t : Z) : R := fst (f (state_after f (Z.to_nat t) s)).

(** The ranges of the numbers.  The other methods return as many numbers as they are asked for. *)
Definition sound {S} (G : rng R S) : Prop :=
  (forall s, 0 <= fst (r_random G s) < 1)%R /\ (forall s, 0 < fst (r_positive G s) < 1)%R /\ (forall s, 0 <= fst (r_exponential G s))%R /\
  (forall a s, 0 <= a -> 0 <= fst (r_gamma G a s))%R /\
  forall name parameters s n l s', r_method G name parameters s n = Ok (l, s') -> zlen l = n.

(** The first state for a seed: that of a generator with this seed, of a generator that has not been used yet, or of the caller's generator *)
Definition starts {S} (G : rng R S) (sd : seed) (w : world S) (s : S) : Prop :=
  match sd with
  | NoSeed => s = r_entropy G (w_entropy w)
  | IntegerSeed n => 0 <= n /\ s = r_seeded G n
  | GeneratorSeed i => 0 <= i /\ zth (w_generators w) i = Some s
  end.

(** The program after a noise signal has been made: [s] is the state of the generator that has been used.  A generator without a seed is a new one. *)
Definition world_after {S} (sd : seed) (w : world S) (s : S) (w' : world S) : Prop :=
  w_entropy w' = w_entropy w + match sd with NoSeed => 1 | _ => 0 end /\ zlen (w_generators w') = zlen (w_generators w) /\
  forall i, 0 <= i -> zth (w_generators w') i = match sd with GeneratorSeed j => if i =? j then Some s else zth (w_generators w) i | _ => zth (w_generators w) i end.

(** ** Distributions *)

(** The number for the mode [None] is in the middle. *)
Definition peak (lower upper : R) (mode : option R) : R := match mode with Some m => m | None => (lower + upper) / 2 end%R.

(** Parameters for which there is a distribution *)
Definition proper (c : noise R) : Prop :=
  match c with
  | UniformNoise lower upper => lower < upper
  | GaussianNoise _ scale | LaplaceNoise _ scale | LogisticNoise _ scale => 0 < scale
  | TriangularNoise lower upper mode => lower < upper /\ lower <= peak lower upper mode <= upper
  | GammaNoise shape scale => 0 < shape /\ 0 < scale
  | LomaxNoise shape | ChiSquareNoise shape => 0 < shape
  | _ => False
  end%R.

(** Parameters that NumPy refuses *)
Definition improper (c : noise R) : Prop :=
  match c with
  | UniformNoise lower upper => upper < lower
  | GaussianNoise _ scale | LaplaceNoise _ scale | LogisticNoise _ scale => scale < 0
  | TriangularNoise lower upper mode => upper <= lower \/ peak lower upper mode < lower \/ upper < peak lower upper mode
  | GammaNoise shape scale => shape < 0 \/ scale < 0
  | LomaxNoise shape | ChiSquareNoise shape => shape <= 0
  | _ => False
  end%R.

(** The cumulative distribution functions: the probability of a sample that is not larger than [x] *)
Definition probability (c : noise R) : option (R -> R) :=
  match c with
  | UniformNoise lower upper => Some (fun x => if Rlt_dec x lower then 0 else if Rlt_dec x upper then (x - lower) / (upper - lower) else 1)
  | LaplaceNoise mean decay => Some (fun x => if Rlt_dec x mean then exp ((x - mean) / decay) / 2 else 1 - exp (- (x - mean) / decay) / 2)
  | LogisticNoise mean scale => Some (fun x => 1 / (1 + exp (- (x - mean) / scale)))
  | TriangularNoise lower upper mode => Some (fun x =>
      if Rle_dec x lower then 0
      else if Rle_dec x (peak lower upper mode) then (x - lower) ^ 2 / ((upper - lower) * (peak lower upper mode - lower))
      else if Rlt_dec x upper then 1 - (upper - x) ^ 2 / ((upper - lower) * (upper - peak lower upper mode))
      else 1)
  | LomaxNoise shape => Some (fun x => if Rle_dec x 0 then 0 else 1 - Rpower (1 + x) (- shape))
  | _ => None
  end%R.

(** The uniformly distributed number from which a sample is made; that of an exponentially distributed number [x] is the probability of a number up to [x]. *)
Definition level {S} (G : rng R S) (c : noise R) (s : S) (t : Z) : R :=
  match c with
  | LaplaceNoise _ _ | LogisticNoise _ _ => nth_number (r_positive G) s t
  | LomaxNoise _ => (1 - exp (- nth_number (r_exponential G) s t))%R
  | _ => nth_number (r_random G) s t
  end.

(** The sample [x] is the quantile for the level [u]. *)
Definition quantile (F : R -> R) (u x : R) : Prop := forall y, (x <= y <-> u <= F y)%R.

(** A standard noise, of which the noise is a multiple, and the position around which it is *)
Definition standard (c : noise R) : option (noise R * R * R) :=
  match c with
  | UniformNoise lower upper => Some (UniformNoise 0 1, lower, upper - lower)
  | GaussianNoise mean standard_deviation => Some (GaussianNoise 0 1, mean, standard_deviation)
  | LaplaceNoise mean decay => Some (LaplaceNoise 0 1, mean, decay)
  | LogisticNoise mean scale => Some (LogisticNoise 0 1, mean, scale)
  | GammaNoise shape scale => Some (GammaNoise shape 1, 0, scale)
  | ChiSquareNoise degrees => Some (GammaNoise (degrees / 2) 1, 0, 2)
  | TriangularNoise lower upper mode => Some (TriangularNoise 0 1 (Some ((peak lower upper mode - lower) / (upper - lower))), lower, upper - lower)
  | _ => None
  end%R.

(** The range of the samples *)
Definition allowed (c : noise R) (x : R) : Prop :=
  match c with
  | UniformNoise lower upper => lower <= x < upper
  | TriangularNoise lower upper _ => lower <= x <= upper
  | GammaNoise _ _ | ChiSquareNoise _ | LomaxNoise _ => 0 <= x
  | _ => True
  end%R.

(** NumPy's names of the other distributions and of their parameters *)
Definition documented_method (c : noise R) : option (string * list (string * R)) :=
  match c with
  | PoissonNoise lambda => Some ("poisson", [("lam", lambda)])
  | VonMisesNoise mode dispersion => Some ("vonmises", [("mu", mode); ("kappa", dispersion)])
  | GeometricNoise p => Some ("geometric", [("p", p)])
  | HypergeometricNoise acceptable non_acceptable draws => Some ("hypergeometric", [("ngood", acceptable); ("nbad", non_acceptable); ("nsample", draws)])
  | BinomialNoise p draws => Some ("binomial", [("n", draws); ("p", p)])
  | BetaNoise alpha beta => Some ("beta", [("a", alpha); ("b", beta)])
  | LogarithmicNoise p => Some ("logseries", [("p", p)])
  | WaldNoise mean scale => Some ("wald", [("mean", mean); ("scale", scale)])
  | _ => None
  end%string.

(** The label names the distribution. *)
Definition documented_label (c : noise R) : string :=
  (match c with
   | UniformNoise _ _ => "Uniform" | GaussianNoise _ _ => "Gaussian" | PoissonNoise _ => "Poisson" | LaplaceNoise _ _ => "Laplace"
   | VonMisesNoise _ _ => "von Mises" | TriangularNoise _ _ _ => "Triangular" | GeometricNoise _ => "Geometric"
   | HypergeometricNoise _ _ _ => "Hypergeometric" | BinomialNoise _ _ => "Binomial" | BetaNoise _ _ => "Beta" | GammaNoise _ _ => "Gamma"
   | LogarithmicNoise _ => "Logarithmic" | LogisticNoise _ _ => "Logistic" | LomaxNoise _ => "Lomax" | WaldNoise _ _ => "Wald"
   | ChiSquareNoise _ => "Chi-square"
   end ++ " noise")%string.

(** What is always true of a noise signal *)
Definition is_noise (n : signal R) (c : noise R) (rate : R) (length : Z) : Prop :=
  wf_signal n /\ count n = 1 /\ begins n = 0 /\ Signal.length n = length /\ sampling_rate n = rate /\ labels n = [documented_label c].
