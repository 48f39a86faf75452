(** Model of noise signals (/repo/sumpf/_data/_signals/_noise.py) and of the part of NumPy's random number generators that they use
    (numpy/random/_generator.pyx, numpy/random/src/distributions/distributions.c; not code of /repo).

    Floating point numbers are exact.  The bit stream of a generator is a parameter.  The samples of the distributions, that are simple functions
    of a standard distribution, are modelled; the other methods are parameters.  [S] is the state of a generator, [junk] is the contents of freshly
    allocated memory.  Seeds are integers, [None] or generators; sequences of seeds are not modelled. *)

From Coq Require Import String ZArith List Bool.
From Verif.Model Require Import Py Numpy Vector Functions Signal Generators.
Import ListNotations.
Open Scope string_scope.
Open Scope list_scope.
Open Scope Z_scope.

(** A random number generator *)
Record rng (A S : Type) := Rng {
  r_seeded : Z -> S;                                   (* the state of [numpy.random.default_rng(seed)] for an integer *)
  r_entropy : Z -> S;                                  (* the states of the successive generators without a seed *)
  r_random : S -> A * S;                               (* a number from 0 (included) to 1 (excluded) *)
  r_positive : S -> A * S;                             (* the same, but 0 is excluded; the random numbers are drawn again until they are not 0 *)
  r_normal : S -> A * S;                               (* the standard normal distribution *)
  r_exponential : S -> A * S;                          (* the standard exponential distribution *)
  r_gamma : A -> S -> A * S;                           (* the standard gamma distribution *)
  r_method : string -> list (string * A) -> S -> Z -> result (list A * S);  (* the other methods with keyword arguments and a size *)
}.
Arguments Rng {A S}. Arguments r_seeded {A S}. Arguments r_entropy {A S}. Arguments r_random {A S}. Arguments r_positive {A S}.
Arguments r_normal {A S}. Arguments r_exponential {A S}. Arguments r_gamma {A S}. Arguments r_method {A S}.

(** The classes and the parameters of their constructors *)
Inductive noise (A : Type) :=
| UniformNoise (lower_boundary upper_boundary : A)
| GaussianNoise (mean standard_deviation : A)
| PoissonNoise (lambda : A)
| LaplaceNoise (mean decay : A)
| VonMisesNoise (mode dispersion : A)
| TriangularNoise (lower_boundary upper_boundary : A) (mode : option A)
| GeometricNoise (p : A)
| HypergeometricNoise (acceptable non_acceptable draws : A)
| BinomialNoise (p draws : A)
| BetaNoise (alpha beta : A)
| GammaNoise (shape scale : A)
| LogarithmicNoise (p : A)
| LogisticNoise (mean scale : A)
| LomaxNoise (shape : A)
| WaldNoise (mean scale : A)
| ChiSquareNoise (degrees_of_freedom : A).
Arguments UniformNoise {A}. Arguments GaussianNoise {A}. Arguments PoissonNoise {A}. Arguments LaplaceNoise {A}. Arguments VonMisesNoise {A}.
Arguments TriangularNoise {A}. Arguments GeometricNoise {A}. Arguments HypergeometricNoise {A}. Arguments BinomialNoise {A}. Arguments BetaNoise {A}.
Arguments GammaNoise {A}. Arguments LogarithmicNoise {A}. Arguments LogisticNoise {A}. Arguments LomaxNoise {A}. Arguments WaldNoise {A}. Arguments ChiSquareNoise {A}.

(** The argument [seed]; [GeneratorSeed] is the index of a [numpy.random.Generator], that the caller has created *)
Inductive seed := NoSeed | IntegerSeed (n : Z) | GeneratorSeed (i : Z).

(** What the program shares: how many generators have been made without a seed, and the states of the caller's generators *)
Record world (S : Type) := World { w_entropy : Z; w_generators : list S }.
Arguments World {S}. Arguments w_entropy {S}. Arguments w_generators {S}.

Section Noise.
Context {A S : Type}.
Variable O : ops A.
Variable G : rng A S.
Variable int : Z -> A.
Variable less : A -> A -> bool.
Variable square_root : A -> A.
Variable logarithm : A -> A.
Variable exponential : A -> A.
Variable junk : Z -> A.

Local Notation "a +. b" := (o_add O a b) (at level 50, left associativity).
Local Notation "a -. b" := (o_sub O a b) (at level 50, left associativity).
Local Notation "a *. b" := (o_mul O a b) (at level 40, left associativity).
Local Notation "a /. b" := (o_div O a b) (at level 40, left associativity).

(** ** NumPy *)

(** [n] numbers, one after the other *)
Fixpoint draw (n : nat) (f : S -> A * S) (s : S) : list A * S :=
  match n with
  | Datatypes.O => ([], s)
  | Datatypes.S n => let '(x, s) := f s in let '(l, s) := draw n f s in (x :: l, s)
  end.
(** The size must not be negative. *)
Definition draws (size : Z) (f : S -> A * S) (s : S) : result (list A * S) :=
  if size <? 0 then Err ValueError else Ok (draw (Z.to_nat size) f s).

(** A function of a number that is drawn *)
Definition transformed (g : A -> A) (f : S -> A * S) (s : S) : A * S := let '(x, s) := f s in (g x, s).
(** Parameters that must not be negative, and those that must be positive *)
Definition not_negative {B} (x : A) (r : result B) : result B := if less x (o_zero O) then Err ValueError else r.
Definition positive {B} (x : A) (r : result B) : result B := if less (o_zero O) x then r else Err ValueError.

(** Releases of NumPy before 1.24 do not check the order of the boundaries. *)
Definition uniform (low high : A) (size : Z) (s : S) :=
  not_negative (high -. low) (draws size (transformed (fun u => low +. (high -. low) *. u) (r_random G)) s).
Definition normal (loc scale : A) (size : Z) (s : S) := not_negative scale (draws size (transformed (fun x => loc +. scale *. x) (r_normal G)) s).
Definition laplace (loc scale : A) (size : Z) (s : S) :=
  not_negative scale (draws size (transformed (fun u =>
    if less u (int 1 /. int 2) then loc +. scale *. logarithm (u +. u) else loc -. scale *. logarithm (int 2 -. u -. u)) (r_positive G)) s).
Definition logistic (loc scale : A) (size : Z) (s : S) :=
  not_negative scale (draws size (transformed (fun u => loc +. scale *. logarithm (u /. (int 1 -. u))) (r_positive G)) s).
Definition triangular (left mode right : A) (size : Z) (s : S) : result (list A * S) :=
  if less mode left || less right mode || o_eqb O left right then Err ValueError
  else
    let base := right -. left in
    let leftbase := mode -. left in
    let ratio := leftbase /. base in
    draws size (transformed (fun u =>
      if less ratio u then right -. square_root ((int 1 -. u) *. ((right -. mode) *. base)) else left +. square_root (u *. (leftbase *. base))) (r_random G)) s.
Definition gamma (shape scale : A) (size : Z) (s : S) :=
  not_negative shape (not_negative scale (draws size (transformed (fun x => scale *. x) (r_gamma G shape)) s)).
Definition chisquare (df : A) (size : Z) (s : S) := positive df (draws size (transformed (fun x => int 2 *. x) (r_gamma G (df /. int 2))) s).
Definition pareto (a : A) (size : Z) (s : S) := positive a (draws size (transformed (fun x => exponential (x /. a) -. int 1) (r_exponential G)) s).

(** ** The subclasses *)

(** The methods [_function], and _noise.py:203-207 for the mode of the triangular distribution *)
Definition noise_function (c : noise A) (length : Z) (s : S) : result (list A * S) :=
  match c with
  | UniformNoise lower_boundary upper_boundary => uniform lower_boundary upper_boundary length s                    (* _noise.py:90 *)
  | GaussianNoise mean standard_deviation => normal mean standard_deviation length s                                (* _noise.py:113 *)
  | PoissonNoise lambda => r_method G "poisson" [("lam", lambda)] s length                                          (* _noise.py:135 *)
  | LaplaceNoise mean decay => laplace mean decay length s                                                          (* _noise.py:159 *)
  | VonMisesNoise mode dispersion => r_method G "vonmises" [("mu", mode); ("kappa", dispersion)] s length           (* _noise.py:182 *)
  | TriangularNoise lower_boundary upper_boundary mode =>                                                           (* _noise.py:203-207, 212-215 *)
      let mode := match mode with None => (lower_boundary +. upper_boundary) /. int 2 | Some m => m end in
      triangular lower_boundary mode upper_boundary length s
  | GeometricNoise p => r_method G "geometric" [("p", p)] s length                                                  (* _noise.py:236 *)
  | HypergeometricNoise acceptable non_acceptable draws =>                                                          (* _noise.py:266-269 *)
      r_method G "hypergeometric" [("ngood", acceptable); ("nbad", non_acceptable); ("nsample", draws)] s length
  | BinomialNoise p draws => r_method G "binomial" [("n", draws); ("p", p)] s length                                (* _noise.py:292 *)
  | BetaNoise alpha beta => r_method G "beta" [("a", alpha); ("b", beta)] s length                                  (* _noise.py:315 *)
  | GammaNoise shape scale => gamma shape scale length s                                                            (* _noise.py:338 *)
  | LogarithmicNoise p => r_method G "logseries" [("p", p)] s length                                                (* _noise.py:359 *)
  | LogisticNoise mean scale => logistic mean scale length s                                                        (* _noise.py:382 *)
  | LomaxNoise shape => pareto shape length s                                                                       (* _noise.py:403 *)
  | WaldNoise mean scale => r_method G "wald" [("mean", mean); ("scale", scale)] s length                           (* _noise.py:426 *)
  | ChiSquareNoise degrees_of_freedom => chisquare degrees_of_freedom length s                                      (* _noise.py:449-450 *)
  end.

(** The labels: _noise.py:87, 110, 132, ..., 446 *)
Definition noise_label (c : noise A) : string :=
  match c with
  | UniformNoise _ _ => "Uniform noise" | GaussianNoise _ _ => "Gaussian noise" | PoissonNoise _ => "Poisson noise"
  | LaplaceNoise _ _ => "Laplace noise" | VonMisesNoise _ _ => "von Mises noise" | TriangularNoise _ _ _ => "Triangular noise"
  | GeometricNoise _ => "Geometric noise" | HypergeometricNoise _ _ _ => "Hypergeometric noise" | BinomialNoise _ _ => "Binomial noise"
  | BetaNoise _ _ => "Beta noise" | GammaNoise _ _ => "Gamma noise" | LogarithmicNoise _ => "Logarithmic noise"
  | LogisticNoise _ _ => "Logistic noise" | LomaxNoise _ => "Lomax noise" | WaldNoise _ _ => "Wald noise" | ChiSquareNoise _ => "Chi-square noise"
  end.

(** [numpy.random.default_rng(seed)]: the state of the generator; a generator is returned as it is *)
Definition default_rng (sd : seed) (w : world S) : result (S * world S) :=
  match sd with
  | NoSeed => Ok (r_entropy G (w_entropy w), World (w_entropy w + 1) (w_generators w))
  | IntegerSeed n => if n <? 0 then Err ValueError else Ok (r_seeded G n, w)
  | GeneratorSeed i => s <- getitem (w_generators w) i ;; Ok (s, w)
  end.

(** The state of a generator after numbers have been drawn from it; only the caller's generators are used again. *)
Definition store (sd : seed) (s : S) (w : world S) : world S :=
  match sd with
  | GeneratorSeed i => match vput (w_generators w) i s with Ok g => World (w_entropy w) g | Err _ => w end
  | _ => w
  end.

(** The constructors; _noise.py:36-45 *)
Definition make_noise (c : noise A) (sd : seed) (rate : A) (length : Z) (w : world S) : result (signal A) * world S :=
  match default_rng sd w with
  | Err e => (Err e, w)
  | Ok (s, w) =>
      match vector junk length with
      | Err e => (Err e, w)
      | Ok channel =>
          match noise_function c length s with
          | Err e => (Err e, w)
          | Ok (samples, s) => (channel <- vset channel everything samples ;; Ok (one_channel rate channel length (noise_label c)), store sd s w)
          end
      end
  end.

(** A program that makes several noise signals, one after the other *)
Record request := Request { q_noise : noise A; q_seed : seed; q_rate : A; q_length : Z }.
Fixpoint make_all (l : list request) (w : world S) : list (result (signal A)) * world S :=
  match l with
  | [] => ([], w)
  | q :: l => let '(r, w) := make_noise (q_noise q) (q_seed q) (q_rate q) (q_length q) w in let '(rs, w) := make_all l w in (r :: rs, w)
  end.

End Noise.
Arguments Request {A}. Arguments q_noise {A}. Arguments q_seed {A}. Arguments q_rate {A}. Arguments q_length {A}.
