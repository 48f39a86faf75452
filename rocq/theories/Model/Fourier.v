(** Model of the Fourier transforms, the inversion and the levels of signals and spectrums: /repo/sumpf/_data/_signals/_signal.py:231-254,
    381-500 and 573-586, /repo/sumpf/_data/_spectrums/_spectrum.py:350-387, /repo/sumpf/_internal/_functions.py:112-139.

    [junk] and [cjunk] are the contents of freshly allocated memory.  Floating point numbers are exact.  The division by zero, that
    gives inf or nan with a warning in NumPy, is the division of [ops]. *)

From Coq Require Import String ZArith List Bool.
From Verif.Model Require Import Py Numpy Vector Functions Signal Spectrum Fft.
Import ListNotations.
Open Scope Z_scope.

(** Functions of real numbers [A] and complex numbers [K] *)
Record numbers (A K : Type) := Numbers {
  n_int : Z -> A;          (* float(i) *)
  n_pi : A;                (* math.pi *)
  n_sqrt : A -> A;         (* math.sqrt *)
  c_ops : ops K;
  c_make : A -> A -> K;    (* a complex number from its real part and its imaginary part *)
  c_exp : K -> K;          (* numpy.exp *)
  c_abs : K -> A;          (* numpy.abs *)
}.
Arguments Numbers {A K}. Arguments n_int {A K}. Arguments n_pi {A K}. Arguments n_sqrt {A K}. Arguments c_ops {A K}. Arguments c_make {A K}.
Arguments c_exp {A K}. Arguments c_abs {A K}.

(** [range(start, stop, step)] *)
Definition range (start stop step : Z) : result (list Z) :=
  if step =? 0 then Err ValueError
  else let n := if 0 <? step then (stop - start + step - 1) / step else (start - stop - step - 1) / - step in
       Ok (map (fun k => start + k * step) (zseq 0 n)).

Section Fourier.
Context {A K : Type}.
Variable O : ops A.
Variable X : transforms A K.
Variable N : numbers A K.
Variable junk : Z -> Z -> A.
Variable cjunk : Z -> Z -> K.
Notation int := (n_int N).
Notation cint := (fun i : Z => c_make N (n_int N i) (o_zero O)).

(** [numpy.linspace(0.0, stop, num, dtype=numpy.complex128)] *)
Definition linspace (stop : K) (num : Z) : list K :=
  let step := if 0 <? num - 1 then o_div (c_ops N) stop (cint (num - 1)) else stop in
  map (fun k => if (1 <? num) && (k =? num - 1) then stop else o_add (c_ops N) (o_mul (c_ops N) (cint k) step) (o_zero (c_ops N))) (zseq 0 num).

(** _signal.py:435-437 and 473-475: the factors [exp(linspace(0.0, max_compensation, length))], where
    [max_compensation = (length - 1) * resolution * -2j * math.pi * offset / sampling_rate] *)
Definition compensation (length : Z) (resolution : A) (offset : Z) (rate : A) : arr K :=
  let imaginary := o_div O (o_mul O (o_mul O (o_mul O (o_mul O (int (length - 1)) resolution) (int (-2))) (n_pi N)) (int offset)) rate in
  Arr [map (c_exp N) (linspace (c_make N (o_zero O) imaginary) length)] length.

(** _signal.py:419-439, [__full_fourier_transform()] *)
Definition full_fourier_transform (s : signal A) : result (arr K * A) :=
  let length' := length s / 2 + 1 in
  if count s =? 0 then
    channels <- allocate cjunk 0 length' ;;
    Ok (channels, o_div O (sampling_rate s) (int (Z.max (length s) 1)))
  else if length s =? 0 then
    channels <- allocate cjunk (count s) 1 ;;
    channels <- set_block channels everything everything (scalar (o_zero (c_ops N))) ;;
    Ok (channels, sampling_rate s)
  else
    let resolution := o_div O (sampling_rate s) (int (length s)) in
    channels <- allocate cjunk (count s) length' ;;
    spectrum <- rfft_rows X (Signal.channels s) ;;
    channels <-
      (if offset s =? 0 then set_block channels everything everything spectrum
       else ufunc2_into (o_mul (c_ops N)) spectrum (compensation length' resolution (offset s) (sampling_rate s)) channels everything everything) ;;
    Ok (channels, resolution).

(** _functions.py:112-139, [scaling_factor(signal, overlap)] *)
Definition channel_sum (l : list A) : A := sum_over O l (fun x => x).
Definition scaling_factor (window : signal A) (overlap : num) : result (list A) :=
  let length := length window in
  overlap <- index overlap length ;;
  let step := length - overlap in
  if step =? 0 then Ok (map (fun _ => o_zero O) (rows (channels window)))
  else
    shifts <- range step length step ;;
    let added := fold_left (fun added shift =>
                   map2 (o_add O)
                     (map2 (o_add O) added (map channel_sum (rows (block (channels window) everything (between 0 (length - shift))))))
                     (map channel_sum (rows (block (channels window) everything (from shift)))))
                   shifts (map channel_sum (rows (channels window))) in
    Ok (map (fun a => o_div O (int length) a) added).

(** One iteration of the loops in _signal.py:460-498, after the block has been windowed: _signal.py:472-478 *)
Definition add_block (windowed : arr A) (length : Z) (resolution : A) (offset : Z) (rate : A) (channels : arr K) : result (arr K) :=
  spectrum <- rfft_rows X windowed ;;
  compensated <- broadcast (compensation length resolution offset rate) (nrows channels) length ;;
  compensated <- ufunc2_into (o_mul (c_ops N)) compensated spectrum compensated everything everything ;;
  ufunc2_into (o_add (c_ops N)) channels compensated channels everything everything.

(** _signal.py:441-499, [__block_wise_fourier_transform(window, overlap, pad)], after the window has been made by [get_window].
    The compensated factors are computed from the real part 0, as above; the order of the multiplications in [max_compensation]
    differs from the full transform only in where the offset is multiplied. *)
Definition block_wise_fourier_transform (s window : signal A) (overlap : num) (pad : bool) : result (arr K * A) :=
  let window_length := length window in
  let length' := window_length / 2 + 1 in
  let rows' := Z.max (count s) (count window) in
  if (count s =? 0) || (count window =? 0) || (window_length =? 0) then
    let resolution := o_div O (sampling_rate window) (int (Z.max window_length 1)) in
    channels <- allocate cjunk rows' length' ;;
    channels <- set_block channels everything everything (scalar (o_zero (c_ops N))) ;;
    Ok (channels, resolution)
  else
    overlap <- index overlap window_length ;;
    let resolution := o_div O (sampling_rate window) (int window_length) in
    channels <- allocate cjunk rows' length' ;;
    channels <- set_block channels everything everything (scalar (o_zero (c_ops N))) ;;
    windowed <- allocate junk rows' window_length ;;
    let step := window_length - overlap in
    let state := (windowed, channels) in
    let finish i windowed channels :=
      channels <- add_block windowed length' resolution (offset s + i) (sampling_rate s) channels ;;
      Ok (windowed, channels) in
    state <-
      (if pad then
         blocks <- range (- step) (- window_length) (- step) ;;
         for_each blocks (fun '(windowed, channels) i =>
           let l := Z.min (window_length + i) (length s) in
           windowed <- set_block windowed everything (between 0 (- i)) (scalar (o_zero O)) ;;
           windowed <- set_block windowed everything (from (l - i)) (scalar (o_zero O)) ;;
           windowed <- ufunc2_into (o_mul O) (block (Signal.channels s) everything (between 0 l))
                         (block (Signal.channels window) everything (between (- i) (l - i)))
                         windowed everything (between (- i) (l - i)) ;;
           finish i windowed channels) state
       else Ok state) ;;
    blocks <- range 0 (length s - window_length + 1) step ;;
    state <- for_each blocks (fun '(windowed, channels) i =>
               windowed <- ufunc2_into (o_mul O) (block (Signal.channels s) everything (between i (window_length + i)))
                             (Signal.channels window) windowed everything everything ;;
               finish i windowed channels) state ;;
    let i := last blocks 0 in
    state <-
      (if pad then
         blocks <- range (i + step) (length s) step ;;
         for_each blocks (fun '(windowed, channels) i =>
           let k := length s - i in
           windowed <- set_block windowed everything (from k) (scalar (o_zero O)) ;;
           windowed <- ufunc2_into (o_mul O) (block (Signal.channels s) everything (from i))
                         (block (Signal.channels window) everything (between 0 k))
                         windowed everything (between 0 k) ;;
           finish i windowed channels) state
       else Ok state) ;;
    let channels := snd state in
    factors <- scaling_factor window (NInt overlap) ;;
    (* channels.transpose()[:] *= factors: one factor for each row *)
    channels <- ufunc2_into (o_mul (c_ops N)) channels (Arr (map (fun f => [c_make N f (o_zero O)]) factors) 1) channels everything everything ;;
    Ok (channels, resolution).

(** _signal.py:381-417, [fourier_transform(window, overlap, pad)]; [None] is no window, otherwise the window is the result of [get_window]. *)
Definition fourier_transform (s : signal A) (window : option (signal A)) (overlap : num) (pad : bool) : result (spectrum K A) :=
  r <- match window with
       | None => full_fourier_transform s
       | Some window => block_wise_fourier_transform s window overlap pad
       end ;;
  Ok (mk_spectrum (fst r) (snd r) (Some (labels s))).

(** _spectrum.py:350-367, [inverse_fourier_transform()] *)
Definition inverse_fourier_transform (s : spectrum K A) : result (signal A) :=
  if sp_length s =? 0 then
    channels <- allocate junk (sp_count s) 0 ;;
    Ok (mk_signal channels (o_zero O) 0 (Some (sp_labels s)))
  else
    let length := Z.max 1 ((sp_length s - 1) * 2) in
    let rate := o_mul O (resolution s) (int length) in
    channels <- allocate junk (sp_count s) length ;;
    computed <- irfft_rows_n X (sp_channels s) length ;;
    channels <- set_block channels everything everything computed ;;
    Ok (mk_signal channels rate 0 (Some (sp_labels s))).

(** _signal.py:231-254, [~signal] *)
Definition signal_invert (s : signal A) : result (signal A) :=
  channels <- allocate junk (count s) (length s) ;;
  channels <-
    (if length s mod 2 =? 0 then
       spectrum <- rfft_rows X (Signal.channels s) ;;
       inverse <- irfft_rows X (ufunc1 (x_inverse X) spectrum) ;;
       set_block channels everything everything inverse
     else
       padded <- allocate junk (count s) (2 * length s) ;;
       padded <- set_block padded everything (between 0 (length s)) (Signal.channels s) ;;
       padded <- set_block padded everything (from (length s)) (scalar (o_zero O)) ;;
       spectrum <- rfft_rows X padded ;;
       padded <- irfft_rows X (ufunc1 (x_inverse X) spectrum) ;;
       channels <- set_block channels everything everything (block padded everything (between 0 (length s))) ;;
       ufunc2_into (o_add O) channels (block padded everything (from (length s))) channels everything everything) ;;
  Ok (mk_signal channels (sampling_rate s) (- offset s) (Some (labels s))).

(** ** Levels *)

(** The sum of squares, of which [numpy.linalg.norm] takes the square root *)
Definition square_sum (l : list A) : A := sum_over O l (fun x => o_mul O x x).

(** _signal.py:573-586, [level(single_value=False)] and [level(single_value=True)] *)
Definition signal_level (s : signal A) : list A :=
  map (fun r => o_div O (n_sqrt N (square_sum r)) (n_sqrt N (int (length s)))) (rows (channels s)).
Definition signal_total_level (s : signal A) : A :=
  o_div O (n_sqrt N (square_sum (concat (rows (channels s))))) (n_sqrt N (int (count s * length s))).

(** _spectrum.py:382 and 385, [math.fsum((math.fsum(c[1:-1]) * 2, c[0], c[-1]))] for a channel with the squares of the absolute values *)
Definition energy (c : list A) : result A :=
  first <- getitem c 0 ;;
  last <- getitem c (-1) ;;
  Ok (o_add O (o_add O (o_mul O (sum_over O (subseq (between 1 (-1)) c) (fun x => x)) (int 2)) first) last).

Definition squares (s : spectrum K A) : list (list A) :=
  map (map (fun z => o_mul O (c_abs N z) (c_abs N z))) (rows (sp_channels s)).

(** _spectrum.py:369-387 *)
Definition spectrum_level (s : spectrum K A) : result (list A) :=
  let signal_length := Z.max 1 ((sp_length s - 1) * 2) in
  sequence (map (fun c => e <- energy c ;; Ok (o_div O (n_sqrt N e) (int signal_length))) (squares s)).
Definition spectrum_total_level (s : spectrum K A) : result A :=
  let signal_length := Z.max 1 ((sp_length s - 1) * 2) in
  energies <- sequence (map energy (squares s)) ;;
  if sp_count s =? 0 then Err ZeroDivisionError
  else Ok (o_div O (n_sqrt N (o_div O (sum_over O energies (fun x => x)) (int (sp_count s)))) (int signal_length)).

End Fourier.
