(** Model of sweeps (/repo/sumpf/_data/_signals/_sweep.py), stationary waves (_waves.py) and constants (_constant.py,
    /repo/sumpf/_data/_spectrums/_constant.py, /repo/sumpf/_data/_spectrograms/_constant.py).

    Floating point numbers are exact.  [junk] is the contents of freshly allocated memory.
    [numexpr] tells, whether the library NumExpr is installed.  Divisions in Python raise an exception for a divisor of zero, those of arrays
    do not. *)

From Coq Require Import String ZArith QArith List Bool.
From Verif.Model Require Import Py Numpy Vector Functions Signal Spectrum Cube Spectrogram Fft Fourier Text.
Import ListNotations.
Open Scope string_scope.
Open Scope list_scope.
Open Scope Z_scope.

(** As [x <- e ;; k], for tuples *)
Notation "' p <- e ;; k" := (bind e (fun p => k)) (at level 61, p pattern, e at next level, right associativity).

(** Functions of floating point numbers *)
Record functions (A : Type) := Functions {
  f_int : Z -> A;              (* float(i) *)
  f_pi : A;                    (* math.pi *)
  f_sin : A -> A;              (* numpy.sin *)
  f_exp : A -> A;              (* math.exp, numpy.exp *)
  f_expm1 : A -> A;            (* numpy.expm1 *)
  f_log : A -> A;              (* math.log of a positive number *)
  f_floor : A -> Z;            (* math.floor *)
  f_ceil : A -> Z;             (* math.ceil *)
  f_leb : A -> A -> bool;      (* <= *)
}.
Arguments Functions {A}. Arguments f_int {A}. Arguments f_pi {A}. Arguments f_sin {A}. Arguments f_exp {A}. Arguments f_expm1 {A}.
Arguments f_log {A}. Arguments f_floor {A}. Arguments f_ceil {A}. Arguments f_leb {A}.

Section Sweeps.
Context {A : Type}.
Variable O : ops A.
Variable M : functions A.
Variable junk : Z -> A.
Variable numexpr : bool.
Notation int := (f_int M).
Notation zero := (o_zero O).
Infix "+." := (o_add O) (at level 50, left associativity).
Infix "-." := (o_sub O) (at level 50, left associativity).
Infix "*." := (o_mul O) (at level 40, left associativity).

(** [x / y] for Python's numbers *)
Definition divide (x y : A) : result A := if o_eqb O y zero then Err ZeroDivisionError else Ok (o_div O x y).
(** [math.log(x)] *)
Definition logarithm (x : A) : result A := if f_leb M x zero then Err ValueError else Ok (f_log M x).

(** [numpy.linspace(start, stop, num)] for [num >= 0]; not code of /repo *)
Definition linspace_ (start stop : A) (num : Z) : list A :=
  let delta := stop -. start in
  let step := if 0 <? num - 1 then o_div O delta (int (num - 1)) else delta in
  map (fun k => if (1 <? num) && (k =? num - 1) then stop else int k *. step +. start) (zseq 0 num).

(** ** The parameters of sweeps *)

(** _sweep.py:37-44, [general_sweep_parameters(interval, sampling_rate, length)]; the interval is a pair.
    The results are [start], [stop], [t], [sweep_duration] and [sweep_offset]. *)
Definition general_sweep_parameters (a b : num) (rate : A) (length : Z) : result (Z * Z * list A * A * A) :=
  start <- index a length ;;
  stop <- index b length ;;
  sweep_offset <- divide (int start) rate ;;
  let sweep_length := stop - start in
  sweep_duration <- divide (int sweep_length) rate ;;
  last <- divide (int (length - 1)) rate ;;
  let t := linspace_ (o_neg O sweep_offset) (last -. sweep_offset) length in
  Ok (start, stop, t, sweep_duration, sweep_offset).

(** _sweep.py:47-55, [linear_sweep_parameters] *)
Definition linear_sweep_parameters (start_frequency stop_frequency : A) (i j : num) (rate : A) (length : Z)
  : result (Z * Z * list A * A * A * A * A * A) :=
  '(start, stop, t, sweep_duration, sweep_offset) <- general_sweep_parameters i j rate length ;;
  k <- divide (stop_frequency -. start_frequency) sweep_duration ;;
  let a := int 2 *. f_pi M *. start_frequency in
  let b := f_pi M *. k in
  Ok (start, stop, t, sweep_duration, sweep_offset, a, b, k).

(** _sweep.py:58-66, [exponential_sweep_parameters] *)
Definition exponential_sweep_parameters (start_frequency stop_frequency : A) (i j : num) (rate : A) (length : Z)
  : result (Z * Z * list A * A * A * A * A) :=
  '(start, stop, t, sweep_duration, sweep_offset) <- general_sweep_parameters i j rate length ;;
  frequency_ratio <- divide stop_frequency start_frequency ;;
  log <- logarithm frequency_ratio ;;
  l <- divide sweep_duration log ;;
  let a := int 2 *. f_pi M *. start_frequency *. l in
  Ok (start, stop, t, sweep_duration, sweep_offset, l, a).

(** ** The classes *)

(** The attributes of a sweep.  [sw_rate] is the attribute [__l] of exponential sweeps. *)
Record sweep := Sweep {
  sw_signal : signal A;
  sw_minimum : A;
  sw_maximum : A;
  sw_function : A -> result A;
  sw_rate : option A;
}.

(** _sweep.py:90-118 and 154-167, the constructors of the base classes, for one channel.
    _sweep.py:120-148: [minimum_frequency()] and [maximum_frequency()] return the attributes, [instantaneous_frequency(t)] applies the function *)
Definition make_sweep (channel : list A) (rate : A) (offset : Z) (function : A -> result A) (l : option A) : result sweep :=
  a <- function zero ;;
  duration <- divide (int (zlen channel)) rate ;;
  b <- function duration ;;
  let channels := Arr [channel] (zlen channel) in
  if f_leb M a b then Ok (Sweep (mk_signal channels rate offset (Some ["Sweep"])) a b function l)
  else Ok (Sweep (mk_signal channels rate offset (Some ["Inverse sweep"])) b a function l).

(** _sweep.py:247-289.  [t**2] in NumExpr is [t * t]. *)
Definition linear_sweep (start_frequency stop_frequency phase : A) (i j : num) (rate : A) (length : Z) : result sweep :=
  channel <- vector junk length ;;
  '(start, stop, t, _, sweep_offset, a, b, k) <- linear_sweep_parameters start_frequency stop_frequency i j rate length ;;
  let values :=
    if (length <=? 8192) || negb numexpr then map (fun t => f_sin M (t *. t *. b +. a *. t +. phase)) t
    else map (fun t => f_sin M (phase +. a *. t +. b *. (t *. t))) t in
  channel <- vset channel everything values ;;
  make_sweep channel rate 0 (fun tau => Ok (start_frequency +. k *. (tau -. sweep_offset))) None.

(** _sweep.py:310-356.  [s] is a Python float. *)
Definition inverse_linear_sweep (start_frequency stop_frequency phase : A) (i j : num) (rate : A) (length : Z) : result sweep :=
  channel <- vector junk length ;;
  '(start, stop, t, T, sweep_offset, a, b, k) <- linear_sweep_parameters start_frequency stop_frequency i j rate length ;;
  let t := map (fun t => t *. int (-1) +. T) t in
  s <- divide (int 2) (int (stop - start)) ;;
  let values :=
    if (length <=? 8192) || negb numexpr then map (fun t => f_sin M (t *. t *. b +. a *. t +. (phase +. zero)) *. s) t
    else map (fun t => s *. f_sin M (phase +. a *. t +. b *. (t *. t))) t in
  channel <- vset channel everything values ;;
  make_sweep channel rate (- stop - start) (fun tau => Ok (stop_frequency -. k *. (tau -. sweep_offset))) None.

(** _sweep.py:366-410 *)
Definition exponential_sweep (start_frequency stop_frequency phase : A) (i j : num) (rate : A) (length : Z) : result sweep :=
  channel <- vector junk length ;;
  '(start, stop, t, _, sweep_offset, l, a) <- exponential_sweep_parameters start_frequency stop_frequency i j rate length ;;
  let values :=
    if (length <=? 8192) || negb numexpr then map (fun t => f_sin M (f_expm1 M (o_div O t l) *. a +. phase)) t
    else map (fun t => f_sin M (a *. f_expm1 M (o_div O t l) +. phase)) t in
  channel <- vset channel everything values ;;
  make_sweep channel rate 0 (fun tau => x <- divide (tau -. sweep_offset) l ;; Ok (start_frequency *. f_exp M x)) (Some l).

(** _sweep.py:431-491 *)
Definition inverse_exponential_sweep (start_frequency stop_frequency phase : A) (i j : num) (rate : A) (length : Z) : result sweep :=
  channel <- vector junk length ;;
  '(start, stop, t, T, sweep_offset, l, a) <- exponential_sweep_parameters start_frequency stop_frequency i j rate length ;;
  s <- divide (int 2 *. start_frequency) l ;;
  s <- divide s (stop_frequency -. start_frequency) ;;
  s <- divide s rate ;;
  let exponents := map (fun t => o_div O (T -. t) l) t in
  let values :=
    if (length <=? 8192) || negb numexpr then map (fun e => (f_exp M e *. s) *. f_sin M (f_expm1 M e *. a +. phase)) exponents
    else map (fun e => (s *. f_exp M e) *. f_sin M (a *. f_expm1 M e +. phase)) exponents in
  channel <- vset channel everything values ;;
  make_sweep channel rate (- stop - start) (fun tau => x <- divide (o_neg O tau +. sweep_offset) l ;; Ok (stop_frequency *. f_exp M x)) (Some l).

(** ** Stationary waves *)

(** The attributes of a wave: _waves.py:30-39 *)
Record wave := Wave { w_signal : signal A; w_periods : A }.

(** _waves.py:60-69 and 83-93, where [f] is the function of the angle, after the sine has been computed; _waves.py:39: the periods;
    _signal.py:281-286: the duration *)
Definition make_wave (f : A -> A) (label : string) (frequency phase rate : A) (length : Z) : result wave :=
  channel <- vector junk length ;;
  duration <- divide (int (length - 1)) rate ;;
  let angles := linspace_ phase (int 2 *. f_pi M *. frequency *. duration +. phase) length in
  channel <- vset channel everything (map (fun x => f (f_sin M x)) angles) ;;
  duration <- divide (int (zlen channel)) rate ;;
  Ok (Wave (mk_signal (Arr [channel] (zlen channel)) rate 0 (Some [label])) (duration *. frequency)).

Definition sine_wave : A -> A -> A -> Z -> result wave := make_wave (fun x => x) "Sine".

(** [numpy.sign] *)
Definition sign (x : A) : A := if f_leb M x zero then (if f_leb M zero x then zero else int (-1)) else int 1.
Definition square_wave : A -> A -> A -> Z -> result wave := make_wave sign "Square wave".

(** ** Constants: _signals/_constant.py:29-42 *)
Definition constant_signal (value rate : A) (length : Z) : result (signal A) :=
  channel <- vector junk length ;;
  Ok (mk_signal (Arr [vfill channel everything value] length) rate 0 (Some ["Constant"])).

End Sweeps.

(** _spectrums/_constant.py:29-40 *)
Definition constant_spectrum {K R} (junk : Z -> K) (value : K) (resolution : R) (length : Z) : result (spectrum K R) :=
  channel <- vector junk length ;;
  Ok (mk_spectrum (Arr [vfill channel everything value] length) resolution (Some ["Constant"])).

(** _spectrograms/_constant.py:29-49 *)
Definition constant_spectrogram {K R} (junk : Z -> Z -> Z -> K) (value : K) (resolution rate : R) (number_of_frequencies length : Z) : result (spectrogram K R) :=
  channels <- allocate3 junk 1 number_of_frequencies length ;;
  channels <- set3 channels everything everything everything (scalar3 value) ;;
  Ok (mk_spectrogram channels resolution rate 0 (Some ["Constant"])).

(** ** The impulse responses of harmonics *)
Section Harmonics.
Context {A K : Type}.
Variable O : ops A.
Variable M : functions A.
Variable X : transforms A K.
Variable N : numbers A K.
Variable junk : Z -> Z -> A.
Notation int := (f_int M).

(** _sweep.py:69-82, [apply_delay(channels, sampling_rate, delay, out)]: what is written to [out] *)
Definition apply_delay (channels : arr A) (rate delay : A) (out : arr A) : result (arr A) :=
  if (nrows channels =? 0) || (cols channels =? 0) then set_block out everything everything channels
  else
    spectrum <- rfft_rows X channels ;;
    let f := linspace_ O M (o_zero O) (o_div O rate (int 2)) (cols spectrum) in
    let factors := map (fun f => c_exp N (c_make N (o_zero O) (o_mul O (o_mul O (o_mul O (int 2) (f_pi M)) f) delay))) f in
    spectrum <- ufunc2_into (o_mul (c_ops N)) spectrum (Arr [factors] (zlen factors)) spectrum everything everything ;;
    signal <- irfft_rows_n X spectrum (cols channels) ;;
    set_block out everything (between 0 (cols signal)) (block signal everything (between 0 (cols out))).

(** The result of a method, and what the samples of the argument are after the call *)
Record outcome := Outcome { o_result : signal A; o_argument : arr A }.

(** [a / b] for Python's numbers, as above *)
Notation divide := (divide O).

(** _sweep.py:186-205: which samples are cut out; [None] means, that the slice has no end.  The last component is the remaining delay. *)
Definition harmonic_cut (l rate : A) (offset harmonic : Z) : result (Z * option Z * option A) :=
  if harmonic =? 1 then Ok (- offset, None, None)
  else
    log <- logarithm O M (int harmonic) ;;
    let delay := o_mul O log l in
    let shift := f_ceil M (o_mul O delay rate) in
    let start := - shift - offset in
    d <- divide (int shift) rate ;;
    let remaining_delay := o_sub O d delay in
    stop <- (if harmonic =? 2 then Ok (- offset)
             else log <- logarithm O M (int (harmonic - 1)) ;;
                  Ok (- f_floor M (o_mul O (o_mul O log l) rate) - offset)) ;;
    let stop := if (stop =? 0) || ((start <? 0) && (0 <=? stop)) then None else Some stop in
    Ok (start, stop, Some remaining_delay).

(** _sweep.py:169-237, [harmonic_impulse_response(impulse_response, harmonic, length)].
    The array [channels] is a view of the samples of the impulse response until another array is allocated: what is written to it by _sweep.py:227-231,
    is written to the samples of the impulse response. *)
Definition harmonic_impulse_response (l : A) (impulse_response : signal A) (harmonic : Z) (length : option Z) : result outcome :=
  let samples := Signal.channels impulse_response in
  let rate := sampling_rate impulse_response in
  '(start, stop, remaining_delay) <- harmonic_cut l rate (offset impulse_response) harmonic ;;
  let cut := match stop with None => from start | Some stop => between start stop end in
  let channels := block samples everything cut in
  '(channels, samples) <-
    match length with
    | Some length =>
        let channel_count := nrows channels in
        let harmonic_length := cols channels in
        if harmonic_length <? length then
          new_channels <- allocate junk channel_count length ;;
          new_channels <- set_block new_channels everything (between 0 harmonic_length) channels ;;
          new_channels <- set_block new_channels everything (from harmonic_length) (scalar (o_zero O)) ;;
          new_channels <- match remaining_delay with
                          | Some delay => apply_delay new_channels rate delay new_channels
                          | None => Ok new_channels
                          end ;;
          Ok (new_channels, samples)
        else if channel_count <? harmonic_length then
          match remaining_delay with
          | Some delay =>
              new_channels <- allocate junk channel_count length ;;
              new_channels <- apply_delay channels rate delay new_channels ;;
              Ok (new_channels, samples)
          | None => Ok (block channels everything (between 0 length), samples)
          end
        else Ok (channels, samples)
    | None =>
        match remaining_delay with
        | Some delay =>
            channels <- apply_delay channels rate delay channels ;;
            samples <- set_block samples everything cut channels ;;
            Ok (channels, samples)
        | None => Ok (channels, samples)
        end
    end ;;
  let h := counting_number harmonic in
  Ok (Outcome (mk_signal channels rate 0 (Some (map (fun l => l ++ " (" ++ h ++ " harmonic)")%string (labels impulse_response)))) samples).

End Harmonics.
