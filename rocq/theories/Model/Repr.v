(** Model of the representations, that [repr] returns, of their evaluation with [eval], and of the text files with representations:
    /repo/sumpf/_data/_filters/_base/_filter.py:177-184, _terms/_primitive.py:81-87, 233-247, 357-363, 481-508, _terms/_unary.py:76-84, 160-168,
    _terms/_binary.py:100-108, 210-221, 340-348, 446-457, _filters/_bands.py:93-102, _signals/_signal.py:135-148, _spectrums/_spectrum.py:120-132,
    _spectrograms/_spectrogram.py:141-155 and /repo/sumpf/_internal/_persistence/_filter_writers.py:408-427 and _filter_readers.py:97-122.

    A representation is modelled as the sequence of its tokens.  Python's representation of a finite number and of a string is a token, whose
    value is this number or this string; the one of a number, that is infinite or not a number, contains the name [inf] or [nan].
    (Newer versions of NumPy write [np.float64(1.0)] instead of [1.0]; this is not modelled.)
    Frequencies, resolutions and sampling rates of spectrograms have the type [X], all other floating point numbers have the type [K]. *)

From Coq Require Import String ZArith List Bool.
From Verif.Model Require Import Py Numpy Functions Signal Spectrum Cube Spectrogram Terms Filter Bands.
Import ListNotations.
Open Scope string_scope.
Open Scope list_scope.
Open Scope Z_scope.

Inductive bracket := Round | Square | Curly.
Definition same_bracket (a b : bracket) : bool :=
  match a, b with Round, Round | Square, Square | Curly, Curly => true | _, _ => false end.

(** The classes, that are derived from [Filter], [Signal], [Spectrum] and [Spectrogram], with the parameters of their constructors:
    _weighting.py:139, 151, 158, 169, 180, _delay.py:27, _derivative.py:30, _butterworth.py:53, _bessel.py:61, _chebyshev.py:120, 168 *)
Definition derived_filters : list (string * list string) := [
  ("AWeighting", []); ("BWeighting", []); ("CWeighting", []); ("DWeighting", []); ("UWeighting", []); ("DelayFilter", ["delay"]);
  ("DerivativeFilter", []); ("ButterworthFilter", ["cutoff_frequency"; "order"; "highpass"]); ("BesselFilter", ["cutoff_frequency"; "order"; "highpass"]);
  ("Chebyshev1Filter", ["cutoff_frequency"; "ripple"; "order"; "highpass"]); ("Chebyshev2Filter", ["cutoff_frequency"; "ripple"; "order"; "highpass"])].
(** _constant.py:29, _energy_decay.py:46, _fade.py:55-60, _mls.py:48, _noise.py:71, 96, 119, 141, 165, 188-189, 221, 247, 275, 298, 321, 344, 365, 388,
    409, 432, _sweep.py:247-248, 310-311, 366-367, 431-432, _waves.py:52, 75, _windows.py:36, 378, _windows_scipy.py:89, 130, 181-186, 263, 310-315, 377 *)
Definition derived_signals : list (string * list string) := [
  ("ConstantSignal", ["value"; "sampling_rate"; "length"]); ("EnergyDecayCurve", ["impulse_response"]);
  ("Fade", ["function"; "rise_interval"; "fall_interval"; "sampling_rate"; "length"]);
  ("MaximumLengthSequence", ["bits"; "seed"; "sampling_rate"; "length"]);
  ("UniformNoise", ["lower_boundary"; "upper_boundary"; "seed"; "sampling_rate"; "length"]);
  ("GaussianNoise", ["mean"; "standard_deviation"; "seed"; "sampling_rate"; "length"]); ("PoissonNoise", ["lambda_"; "seed"; "sampling_rate"; "length"]);
  ("LaplaceNoise", ["mean"; "decay"; "seed"; "sampling_rate"; "length"]); ("VonMisesNoise", ["mode"; "dispersion"; "seed"; "sampling_rate"; "length"]);
  ("TriangularNoise", ["lower_boundary"; "upper_boundary"; "mode"; "seed"; "sampling_rate"; "length"]);
  ("GeometricNoise", ["p"; "seed"; "sampling_rate"; "length"]);
  ("HypergeometricNoise", ["acceptable"; "non_acceptable"; "draws"; "seed"; "sampling_rate"; "length"]);
  ("BinomialNoise", ["p"; "draws"; "seed"; "sampling_rate"; "length"]); ("BetaNoise", ["alpha"; "beta"; "seed"; "sampling_rate"; "length"]);
  ("GammaNoise", ["shape"; "scale"; "seed"; "sampling_rate"; "length"]); ("LogarithmicNoise", ["p"; "seed"; "sampling_rate"; "length"]);
  ("LogisticNoise", ["mean"; "scale"; "seed"; "sampling_rate"; "length"]); ("LomaxNoise", ["shape"; "seed"; "sampling_rate"; "length"]);
  ("WaldNoise", ["mean"; "scale"; "seed"; "sampling_rate"; "length"]); ("ChiSquareNoise", ["degrees_of_freedom"; "seed"; "sampling_rate"; "length"]);
  ("LinearSweep", ["start_frequency"; "stop_frequency"; "phase"; "interval"; "sampling_rate"; "length"]);
  ("InverseLinearSweep", ["start_frequency"; "stop_frequency"; "phase"; "interval"; "sampling_rate"; "length"]);
  ("ExponentialSweep", ["start_frequency"; "stop_frequency"; "phase"; "interval"; "sampling_rate"; "length"]);
  ("InverseExponentialSweep", ["start_frequency"; "stop_frequency"; "phase"; "interval"; "sampling_rate"; "length"]);
  ("SineWave", ["frequency"; "phase"; "sampling_rate"; "length"]); ("SquareWave", ["frequency"; "phase"; "sampling_rate"; "length"]);
  ("RectangularWindow", ["plateau"; "sampling_rate"; "length"; "symmetric"]); ("BartlettWindow", ["plateau"; "sampling_rate"; "length"; "symmetric"]);
  ("HannWindow", ["plateau"; "sampling_rate"; "length"; "symmetric"]); ("HammingWindow", ["plateau"; "sampling_rate"; "length"; "symmetric"]);
  ("BlackmanWindow", ["plateau"; "sampling_rate"; "length"; "symmetric"]); ("KaiserWindow", ["beta"; "plateau"; "sampling_rate"; "length"; "symmetric"]);
  ("BartlettHannWindow", ["plateau"; "sampling_rate"; "length"; "symmetric"]); ("BlackmanHarrisWindow", ["plateau"; "sampling_rate"; "length"; "symmetric"]);
  ("BohmanWindow", ["plateau"; "sampling_rate"; "length"; "symmetric"]);
  ("DolphChebyshevWindow", ["attenuation"; "plateau"; "sampling_rate"; "length"; "symmetric"]);
  ("ExponentialWindow", ["decay"; "plateau"; "sampling_rate"; "length"; "symmetric"]);
  ("FlatTopWindow", ["function"; "plateau"; "sampling_rate"; "length"; "symmetric"]);
  ("GaussianWindow", ["standard_deviation"; "plateau"; "sampling_rate"; "length"; "symmetric"]);
  ("NuttallWindow", ["function"; "plateau"; "sampling_rate"; "length"; "symmetric"]); ("ParzenWindow", ["plateau"; "sampling_rate"; "length"; "symmetric"]);
  ("SlepianWindow", ["beta"; "plateau"; "sampling_rate"; "length"; "symmetric"])].
(** _spectrums/_constant.py:29, _rudinshapiro.py:38, _spectrograms/_constant.py:29-34 *)
Definition derived_spectrums : list (string * list string) := [
  ("ConstantSpectrum", ["value"; "resolution"; "length"]);
  ("RudinShapiroNoiseSpectrum", ["start_frequency"; "stop_frequency"; "resolution"; "length"])].
Definition derived_spectrograms : list (string * list string) := [
  ("ConstantSpectrogram", ["value"; "resolution"; "sampling_rate"; "number_of_frequencies"; "length"])].
Definition derived_classes : list (string * list string) := derived_filters ++ derived_signals ++ derived_spectrums ++ derived_spectrograms.

(** The names, that the reader defines: _filter_readers.py:115-120 *)
Definition reader_names : list string := ["Filter"; "Bands"; "Interpolations"; "array"; "float64"; "complex128"].
(** The names, that are defined, after everything has been imported from SuMPF and from NumPy *)
Definition all_names : list string :=
  reader_names ++ ["Signal"; "Spectrum"; "Spectrogram"] ++ map fst derived_classes.

Section Repr.
Context {K X : Type}.
Variable A : arithmetic K X.
Notation term := (term K X).
Notation filter := (filter K X).

(** ** Representations *)

Inductive token :=
| Name (s : string)
| Str (s : string)
| Int (z : Z)
| Num (x : K)
| Freq (x : X)
| Open (b : bracket)
| Close (b : bracket)
| Comma | Dot | Equal | Colon.

(** Whether a number is neither infinite nor not-a-number *)
Variable finite : K -> bool.
Variable finite_frequency : X -> bool.
(** Whether the coefficients of a polynomial are stored in an array of NumPy (and not in a list or a tuple) *)
Variable is_array : list K -> bool.

Definition number (x : K) : list token := if finite x then [Num x] else [Name "nan"].
Definition frequency (x : X) : list token := if finite_frequency x then [Freq x] else [Name "nan"].
Definition boolean (b : bool) : list token := [Name (if b then "True" else "False")].

Fixpoint separated (l : list (list token)) : list token :=
  match l with [] => [] | [x] => x | x :: l => x ++ Comma :: separated l end.
Definition repr_list (l : list (list token)) : list token := Open Square :: separated l ++ [Close Square].
(** The representation of a tuple with one element has a comma after the element. *)
Definition repr_tuple (l : list (list token)) : list token :=
  match l with [x] => Open Round :: x ++ [Comma; Close Round] | _ => Open Round :: separated l ++ [Close Round] end.
Definition repr_dict (l : list (list token * list token)) : list token :=
  Open Curly :: separated (map (fun p => fst p ++ Colon :: snd p) l) ++ [Close Curly].
Definition repr_array (l : list token) : list token := Name "array" :: Open Round :: l ++ [Close Round].
Definition keyword (name : string) (v : list token) : list token := Name name :: Equal :: v.
Definition repr_call (callee : list token) (arguments : list (list token)) : list token :=
  callee ++ Open Round :: separated arguments ++ [Close Round].
Definition factory (cls : string) (arguments : list (list token)) : list token := repr_call [Name "Filter"; Dot; Name cls] arguments.

(** The methods [__repr__] of the terms.  The flags of [Bands] are formatted like integers, because [Interpolations] is an [IntEnum].
    (A tuple of coefficients is represented like a list.) *)
Fixpoint repr_term (t : term) : list token :=
  match t with
  | Constant v => factory "Constant" [keyword "value" (number v)]
  | Polynomial c x =>
      factory "Polynomial" [keyword "coefficients" (if is_array c then repr_array (repr_list (map number c)) else repr_list (map number c));
                            keyword "transform" (boolean x)]
  | Exp c x => factory "Exp" [keyword "coefficient" (number c); keyword "transform" (boolean x)]
  | Terms.Bands xs ys i e =>
      factory "Bands" [keyword "xs" (repr_array (repr_list (map frequency xs))); keyword "ys" (repr_array (repr_list (map number ys)));
                       keyword "interpolation" [Int (interpolation_int i)]; keyword "extrapolation" [Int (interpolation_int e)]]
  | Absolute v x => factory "Absolute" [keyword "value" (repr_term v); keyword "transform" (boolean x)]
  | Negative v x => factory "Negative" [keyword "value" (repr_term v); keyword "transform" (boolean x)]
  | Sum l x => factory "Sum" [keyword "summands" (repr_tuple (map repr_term l)); keyword "transform" (boolean x)]
  | Difference m s x => factory "Difference" [keyword "minuend" (repr_term m); keyword "subtrahend" (repr_term s); keyword "transform" (boolean x)]
  | Product l x => factory "Product" [keyword "factors" (repr_tuple (map repr_term l)); keyword "transform" (boolean x)]
  | Quotient a b x => factory "Quotient" [keyword "numerator" (repr_term a); keyword "denominator" (repr_term b); keyword "transform" (boolean x)]
  end.

Definition repr_labels (labels : list string) : list token := repr_tuple (map (fun s => [Str s]) labels).

(** _filter.py:177-184; [cls] is the name of the filter's class.  (The terms are in a tuple.) *)
Definition repr_filter (cls : string) (F : filter) : list token :=
  repr_call [Name cls] [keyword "transfer_functions" (repr_tuple (map repr_term (transfer_functions F))); keyword "labels" (repr_labels (f_labels F))].

(** _bands.py:93-102.  (The dictionaries are in a tuple.) *)
Definition repr_bands (B : bands (K:=K) (X:=X)) : list token :=
  repr_call [Name "Bands"]
    [keyword "bands" (repr_tuple (map (fun d => repr_dict (map (fun p => (frequency (fst p), number (snd p))) d)) (b_bands B)));
     keyword "interpolations" (repr_list (map (fun i => [Int (interpolation_int i)]) (b_interpolations B)));
     keyword "extrapolations" (repr_list (map (fun i => [Int (interpolation_int i)]) (b_extrapolations B)));
     keyword "labels" (repr_labels (f_labels (b_filter B)))].

(** [numpy.array2string] of a two dimensional and of a three dimensional array.  An array without elements is [[]]. *)
Definition array2string (m : arr K) : list token :=
  if (nrows m =? 0) || (cols m =? 0) then repr_list []
  else repr_list (map (fun row => repr_list (map number row)) (rows m)).
Definition array2string3 (m : cube K) : list token :=
  if (dim0 m =? 0) || (dim1 m =? 0) || (dim2 m =? 0) then repr_list []
  else repr_list (map (fun i => repr_list (map (fun j => repr_list (flat_map (fun k =>
         match cell m i j k with Some x => [number x] | None => [] end) (zseq 0 (dim2 m)))) (zseq 0 (dim1 m)))) (zseq 0 (dim0 m))).

(** _signal.py:135-148 *)
Definition repr_signal (cls : string) (s : signal K) : list token :=
  repr_call [Name cls] [keyword "channels" (repr_array (array2string (channels s))); keyword "sampling_rate" (number (sampling_rate s));
                        keyword "offset" [Int (offset s)]; keyword "labels" (repr_labels (labels s))].
(** _spectrum.py:120-132 *)
Definition repr_spectrum (cls : string) (s : spectrum K X) : list token :=
  repr_call [Name cls] [keyword "channels" (repr_array (array2string (sp_channels s))); keyword "resolution" (frequency (resolution s));
                        keyword "labels" (repr_labels (sp_labels s))].
(** _spectrogram.py:141-155 *)
Definition repr_spectrogram (cls : string) (s : spectrogram K X) : list token :=
  repr_call [Name cls] [keyword "channels" (repr_array (array2string3 (sg_channels s))); keyword "resolution" (frequency (sg_resolution s));
                        keyword "sampling_rate" (frequency (sg_rate s)); keyword "offset" [Int (sg_offset s)]; keyword "labels" (repr_labels (sg_labels s))].

(** ** Python's expressions

    Names, literals, attributes, calls, tuples, lists and dictionaries.  (That positional arguments come before keyword arguments is not checked.) *)

Inductive expression :=
| EName (s : string)
| EStr (s : string)
| EInt (z : Z)
| ENum (x : K)
| EFreq (x : X)
| EAttribute (e : expression) (s : string)
| ECall (e : expression) (arguments : list (option string * expression))
| ETuple (l : list expression)
| EList (l : list expression)
| EDict (l : list (expression * expression)).

(** The functions yield an expression and the tokens, that follow it, or [None] for a syntax error.  The recursion ends after [n] steps. *)
Fixpoint parse (n : nat) (l : list token) {struct n} : option (expression * list token) :=
  match n with
  | O => None
  | S n =>
      match l with
      | Name s :: l => parse_trailers n (EName s) l
      | Str s :: l => parse_trailers n (EStr s) l
      | Int z :: l => parse_trailers n (EInt z) l
      | Num x :: l => parse_trailers n (ENum x) l
      | Freq x :: l => parse_trailers n (EFreq x) l
      | Open Round :: l =>
          match parse_items n Round l with
          | Some ([e], false, l) => parse_trailers n e l
          | Some (es, _, l) => parse_trailers n (ETuple es) l
          | None => None
          end
      | Open Square :: l =>
          match parse_items n Square l with
          | Some (es, _, l) => parse_trailers n (EList es) l
          | None => None
          end
      | Open Curly :: l =>
          match parse_entries n l with
          | Some (es, l) => parse_trailers n (EDict es) l
          | None => None
          end
      | _ => None
      end
  end
(** Attributes and calls after the expression [e] *)
with parse_trailers (n : nat) (e : expression) (l : list token) {struct n} : option (expression * list token) :=
  match n with
  | O => None
  | S n =>
      match l with
      | Dot :: Name s :: l => parse_trailers n (EAttribute e s) l
      | Dot :: _ => None
      | Open Round :: l =>
          match parse_arguments n l with
          | Some (a, l) => parse_trailers n (ECall e a) l
          | None => None
          end
      | _ => Some (e, l)
      end
  end
(** The elements until the closing bracket and whether there is a comma *)
with parse_items (n : nat) (b : bracket) (l : list token) {struct n} : option (list expression * bool * list token) :=
  match n with
  | O => None
  | S n =>
      match l with
      | Close b' :: l => if same_bracket b b' then Some ([], false, l) else None
      | _ =>
          match parse n l with
          | Some (e, Comma :: l) =>
              match parse_items n b l with Some (es, _, l) => Some (e :: es, true, l) | None => None end
          | Some (e, Close b' :: l) => if same_bracket b b' then Some ([e], false, l) else None
          | _ => None
          end
      end
  end
with parse_arguments (n : nat) (l : list token) {struct n} : option (list (option string * expression) * list token) :=
  match n with
  | O => None
  | S n =>
      match l with
      | Close Round :: l => Some ([], l)
      | _ =>
          let '(name, l) := match l with Name s :: Equal :: l => (Some s, l) | _ => (None, l) end in
          match parse n l with
          | Some (e, Comma :: l) =>
              match parse_arguments n l with Some (es, l) => Some ((name, e) :: es, l) | None => None end
          | Some (e, Close Round :: l) => Some ([(name, e)], l)
          | _ => None
          end
      end
  end
with parse_entries (n : nat) (l : list token) {struct n} : option (list (expression * expression) * list token) :=
  match n with
  | O => None
  | S n =>
      match l with
      | Close Curly :: l => Some ([], l)
      | _ =>
          match parse n l with
          | Some (k, Colon :: l) =>
              match parse n l with
              | Some (v, Comma :: l) =>
                  match parse_entries n l with Some (es, l) => Some ((k, v) :: es, l) | None => None end
              | Some (v, Close Curly :: l) => Some ([(k, v)], l)
              | _ => None
              end
          | _ => None
          end
      end
  end.

(** ** Values *)

Inductive value :=
| VClass (name : string)
| VFunction (name : string)
| VFactory (name : string)
| VBool (b : bool)
| VStr (s : string)
| VInt (z : Z)
| VNum (x : K)
| VFreq (x : X)
| VTuple (l : list value)
| VList (l : list value)
| VDict (l : list (value * value))
| VArray1 (l : list K)
| VFrequencies (l : list X)
| VArray2 (m : arr K)
| VArray3 (m : cube K)
| VTerm (t : term)
| VFilter (F : filter)
| VBands (B : bands (K:=K) (X:=X))
| VSignal (s : signal K)
| VSpectrum (s : spectrum K X)
| VSpectrogram (s : spectrogram K X)
(* a signal or a spectrum with a one dimensional array *)
| VFlatSignal (channels : list K) (sampling_rate : K) (offset : Z) (labels : list string)
| VFlatSpectrum (channels : list K) (resolution : X) (labels : list string)
(* an instance of a derived class *)
| VObject (cls : string) (arguments : list (string * value)).

Definition as_number (v : value) : result K := match v with VNum x => Ok x | _ => Err TypeError end.
Definition as_frequency (v : value) : result X := match v with VFreq x => Ok x | _ => Err TypeError end.
Definition as_int (v : value) : result Z := match v with VInt z => Ok z | _ => Err TypeError end.
Definition as_str (v : value) : result string := match v with VStr s => Ok s | _ => Err TypeError end.
Definition as_term (v : value) : result term := match v with VTerm t => Ok t | _ => Err TypeError end.
(** The elements of a tuple or a list, all of which are converted with [f] *)
Definition as_sequence {Y} (f : value -> result Y) (v : value) : result (list Y) :=
  match v with VTuple l | VList l => sequence (map f l) | _ => Err TypeError end.

Definition ok {Y} (r : result Y) : bool := match r with Ok _ => true | Err _ => false end.
Definition same_lengths {Y} (l : list (list Y)) : bool :=
  match l with [] => true | r :: _ => forallb (fun r' => zlen r' =? zlen r) l end.
Definition first_length {Y} (l : list (list Y)) : Z := match l with [] => 0 | r :: _ => zlen r end.

(** [numpy.array(v)] for numbers and for nested lists of numbers.  (Nested lists with different lengths raise a ValueError in newer versions of NumPy.) *)
Definition new_array (v : value) : result value :=
  let numbers := as_sequence as_number v in
  let frequencies := as_sequence as_frequency v in
  let table := as_sequence (as_sequence as_number) v in
  if ok numbers then l <- numbers ;; Ok (VArray1 l)
  else if ok frequencies then l <- frequencies ;; Ok (VFrequencies l)
  else if ok table then l <- table ;; if same_lengths l then Ok (VArray2 (Arr l (first_length l))) else Err ValueError
  else
    l <- as_sequence (as_sequence (as_sequence as_number)) v ;;
    let n1 := first_length l in let n2 := first_length (concat l) in
    if same_lengths l && same_lengths (concat l) then
      Ok (VArray3 (Cube (zlen l) n1 n2 (fun i j k =>
        match zth l i with Some m => match zth m j with Some r => zth r k | None => None end | None => None end)))
    else Err ValueError.

(** [{k: v, ...}] *)
Definition as_dictionary (v : value) : result (list (X * K)) :=
  match v with
  | VDict l => for_each l (fun d p => f <- as_frequency (fst p) ;; y <- as_number (snd p) ;; Ok (dict_set A d f y)) []
  | _ => Err TypeError
  end.

(** The value as parameter of a factory *)
Definition as_parameter (v : value) : result (parameter (K:=K) (X:=X)) :=
  let simple v := match v with
    | VTerm t => Ok (PTerm t)
    | VBool b => Ok (PData (DBool b)) | VStr s => Ok (PData (DStr s)) | VInt z => Ok (PData (DInt z))
    | VNum x => Ok (PData (DNum x)) | VFreq x => Ok (PData (DFrequency x))
    | _ => Err TypeError
    end in
  match v with
  | VTuple l | VList l => p <- sequence (map simple l) ;; Ok (PList p)
  | VArray1 l => Ok (PList (map (fun x => PData (DNum x)) l))
  | VFrequencies l => Ok (PList (map (fun x => PData (DFrequency x)) l))
  | v => simple v
  end.

(** Arguments without a keyword are not modelled for SuMPF's classes. *)
Definition keywords (a : list (option string * value)) : result (list (string * value)) :=
  sequence (map (fun p => match fst p with Some n => Ok (n, snd p) | None => Err TypeError end) a).
(** A keyword argument, which the function does not have, raises a TypeError. *)
Definition check_keywords (names : list string) (a : list (string * value)) : result Datatypes.unit :=
  if forallb (fun p => existsb (String.eqb (fst p)) names) a then Ok tt else Err TypeError.
(** A keyword argument or the default of the parameter *)
Definition argument {Y} (name : string) (convert : value -> result Y) (default : Y) (a : list (string * value)) : result Y :=
  match lookup name a with Some v => convert v | None => Ok default end.

Definition as_labels : value -> result (list string) := as_sequence as_str.
Definition as_optional_labels (v : value) : result (option (list string)) := l <- as_labels v ;; Ok (Some l).

(** Default values: [48000.0] as a sampling rate, [1.0] as a resolution and [48000.0] as the sampling rate of a spectrogram *)
Variable default_rate : K.
Variables default_resolution default_spectrogram_rate : X.

(** _filter.py:122-128.  The default value of [transfer_functions] is [(Constant(1.0),)]. *)
Definition new_filter (a : list (string * value)) : result value :=
  _ <- check_keywords ["transfer_functions"; "labels"] a ;;
  t <- argument "transfer_functions" (as_sequence as_term) [Constant (o_one (k_ops A))] a ;;
  l <- argument "labels" as_labels [""] a ;;
  Ok (VFilter (mk_filter t l)).

(** _bands.py:36-91 *)
Definition as_flags (v : value) : result flags :=
  match v with
  | VInt z => i <- interpolation_of_int z ;; Ok (OneFlag i)
  | v => l <- as_sequence as_int v ;; l <- sequence (map interpolation_of_int l) ;; Ok (Flags l)
  end.
Definition as_bands (v : value) : result (list (list (X * K))) :=
  match v with
  | VDict _ => d <- as_dictionary v ;; Ok [d]
  | v => as_sequence as_dictionary v
  end.
Definition new_bands (a : list (string * value)) : result value :=
  _ <- check_keywords ["bands"; "interpolations"; "extrapolations"; "labels"] a ;;
  b <- argument "bands" as_bands [[]] a ;;
  i <- argument "interpolations" as_flags (OneFlag Logarithmic) a ;;
  e <- argument "extrapolations" as_flags (OneFlag StairsLin) a ;;
  l <- argument "labels" as_labels ["Bands"] a ;;
  B <- mk_bands A b i e l ;;
  Ok (VBands B).

(** _signal.py:82-93, _sampled_data.py:26-33.  [numpy.empty(shape=(1, 0))] is the default value. *)
Definition new_signal (a : list (string * value)) : result value :=
  _ <- check_keywords ["channels"; "sampling_rate"; "offset"; "labels"] a ;;
  c <- argument "channels" Ok (VArray2 (Arr [[]] 0)) a ;;
  r <- argument "sampling_rate" as_number default_rate a ;;
  o <- argument "offset" as_int 0 a ;;
  l <- argument "labels" as_optional_labels None a ;;
  match c with
  | VArray2 m => Ok (VSignal (mk_signal m r o l))
  | VArray1 c => Ok (VFlatSignal c r o (sanitize_labels l (zlen c)))
  | _ => Err AttributeError
  end.
(** _spectrum.py:78-85 *)
Definition new_spectrum (a : list (string * value)) : result value :=
  _ <- check_keywords ["channels"; "resolution"; "labels"] a ;;
  c <- argument "channels" Ok (VArray2 (Arr [[]] 0)) a ;;
  r <- argument "resolution" as_frequency default_resolution a ;;
  l <- argument "labels" as_optional_labels None a ;;
  match c with
  | VArray2 m => Ok (VSpectrum (mk_spectrum m r l))
  | VArray1 c => Ok (VFlatSpectrum c r (sanitize_labels l (zlen c)))
  | _ => Err AttributeError
  end.
(** _spectrogram.py:78-97.  [channels.shape[1]] raises an IndexError for a one dimensional array. *)
Definition new_spectrogram (a : list (string * value)) : result value :=
  _ <- check_keywords ["channels"; "resolution"; "sampling_rate"; "offset"; "labels"] a ;;
  c <- argument "channels" Ok (VArray3 (Cube 1 1 0 (fun _ _ _ => None))) a ;;
  f <- argument "resolution" as_frequency default_resolution a ;;
  r <- argument "sampling_rate" as_frequency default_spectrogram_rate a ;;
  o <- argument "offset" as_int 0 a ;;
  l <- argument "labels" as_optional_labels None a ;;
  match c with
  | VArray3 m => Ok (VSpectrogram (mk_spectrogram m f r o l))
  | VArray1 _ => Err IndexError
  | _ => Err AttributeError
  end.

(** [f(a, ...)] *)
Definition apply (f : value) (a : list (option string * value)) : result value :=
  match f with
  | VFunction "array" => match a with [(None, v)] => new_array v | _ => Err TypeError end
  | VFunction _ => match a with [(None, VNum x)] => Ok (VNum x) | [(None, VFreq x)] => Ok (VFreq x) | _ => Err TypeError end
  | VFactory cls =>
      a <- keywords a ;;
      p <- sequence (map (fun q : string * value => v <- as_parameter (snd q) ;; Ok (fst q, v)) a) ;;
      t <- instantiate A cls p ;; Ok (VTerm t)
  | VClass cls =>
      a <- keywords a ;;
      match lookup cls derived_classes with
      | Some names => _ <- check_keywords names a ;; Ok (VObject cls a)
      | None =>
          if String.eqb cls "Filter" then new_filter a
          else if String.eqb cls "Bands" then new_bands a
          else if String.eqb cls "Signal" then new_signal a
          else if String.eqb cls "Spectrum" then new_spectrum a
          else if String.eqb cls "Spectrogram" then new_spectrogram a
          else Err TypeError
      end
  | _ => Err TypeError
  end.

(** The factories are attributes of the class [Filter]: _filter.py:108-117.  (Derived classes have them, too.) *)
Definition factories : list string :=
  ["Constant"; "Polynomial"; "Exp"; "Bands"; "Absolute"; "Negative"; "Sum"; "Difference"; "Product"; "Quotient"].
Definition attribute (v : value) (name : string) : result value :=
  match v with
  | VClass "Filter" => if existsb (String.eqb name) factories then Ok (VFactory name) else Err AttributeError
  | _ => Err AttributeError
  end.

(** The value of a name *)
Definition lookup_name (names : list string) (s : string) : result value :=
  if String.eqb s "True" then Ok (VBool true)
  else if String.eqb s "False" then Ok (VBool false)
  else if existsb (String.eqb s) names then
    Ok (if existsb (String.eqb s) ["array"; "float64"; "complex128"] then VFunction s else VClass s)
  else Err NameError.

(** The operands are evaluated from left to right. *)
Fixpoint eval (names : list string) (e : expression) : result value :=
  match e with
  | EName s => lookup_name names s
  | EStr s => Ok (VStr s)
  | EInt z => Ok (VInt z)
  | ENum x => Ok (VNum x)
  | EFreq x => Ok (VFreq x)
  | EAttribute e s => v <- eval names e ;; attribute v s
  | ECall e a =>
      f <- eval names e ;;
      a <- sequence (map (fun p : option string * expression => let '(n, e) := p in v <- eval names e ;; Ok (n, v)) a) ;;
      apply f a
  | ETuple l => l <- sequence (map (eval names) l) ;; Ok (VTuple l)
  | EList l => l <- sequence (map (eval names) l) ;; Ok (VList l)
  | EDict l =>
      l <- sequence (map (fun p : expression * expression => let '(k, v) := p in k <- eval names k ;; v <- eval names v ;; Ok (k, v)) l) ;;
      Ok (VDict l)
  end.

(** [eval(text)], where [names] are defined *)
Definition eval_text (names : list string) (text : list token) : result value :=
  match parse (2 * List.length text + 1) text with
  | Some (e, []) => eval names e
  | _ => Err SyntaxError
  end.

(** ** Text files: _filter_writers.py:419-427, _filter_readers.py:108-122.  The contents of the file are the tokens. *)
Definition write_repr (cls : string) (F : filter) : list token := repr_filter cls F.
Definition read_repr (file : list token) : result value :=
  v <- eval_text reader_names file ;;
  match v with
  | VFilter _ | VBands _ => Ok v
  | _ => Err AssertionError
  end.

End Repr.
