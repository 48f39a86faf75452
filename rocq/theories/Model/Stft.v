(** Model of the short time Fourier transform and its inverse: /repo/sumpf/_data/_signals/_signal.py:503-571 and
    /repo/sumpf/_data/_spectrograms/_spectrogram.py:408-456, with the parts of SciPy that they use.

    Floating point numbers are exact, [junk] and [cjunk] are the contents of freshly allocated memory.  The window is a signal, that has
    been made by [get_window] (Model/Windows.v).  Signals without channels or samples and spectrograms without channels, frequencies or
    samples are left out: for these, SciPy returns arrays, that do not have the number of dimensions, which the constructors expect.  *)

From Coq Require Import String ZArith QArith List Bool.
From Verif.Model Require Import Py Numpy Vector Functions Signal Spectrum Fft Fourier Cube Spectrogram Windows.
Import ListNotations.
Open Scope Z_scope.

Section Stft.
Context {A K : Type}.
Variable O : ops A.
Variable X : transforms A K.
Variable N : numbers A K.
(** [less_equal x y] is [x <= y] *)
Variable less_equal : A -> A -> bool.
Variable junk : Z -> Z -> A.
Variable cjunk : Z -> Z -> Z -> K.
Notation int := (n_int N).

(** [numpy.sqrt(1.0 / window.sum()**2)] *)
Definition stft_scale (window : list A) : A :=
  let s := channel_sum O window in n_sqrt N (o_div O (int 1) (o_mul O s s)).

(** [scipy.signal.stft(x, fs, window=window, nperseg=len(window), noverlap=overlap, boundary="zeros" if pad else None, padded=pad)[2]] for
    one channel: scipy/signal/_spectral_py.py, [_spectral_helper] with [mode='stft'], [scaling='spectrum'] and [detrend=False], for real
    samples.  The result is the list of the segments' spectrums (SciPy moves the axis of the segments to the end). *)
Definition scipy_stft (x window : list A) (overlap : Z) (pad : bool) : result (list (list K)) :=
  let nperseg := zlen window in
  if nperseg <? 1 then Err ValueError
  else if zlen x <? nperseg then Err ValueError
  else if nperseg <=? overlap then Err ValueError
  else
    let step := nperseg - overlap in
    let x := if pad then zrepeat (o_zero O) (nperseg / 2) ++ x ++ zrepeat (o_zero O) (nperseg / 2) else x in
    let x := if pad then x ++ zrepeat (o_zero O) (((- (zlen x - nperseg)) mod step) mod nperseg) else x in
    sequence (map (fun m =>
        windowed <- vmap2 (o_mul O) window (subseq (between (m * step) (m * step + nperseg)) x) ;;
        Ok (map (fun z => o_mul (c_ops N) z (c_make N (stft_scale window) (o_zero O))) (x_rfft X windowed)))
      (zseq 0 ((zlen x - overlap) / step))).

(** [zip(self._channels, window.channels())], where a window with one channel is used for all channels: _signal.py:534-553,
    _spectrogram.py:435-451 *)
Definition with_windows {B C} (f : B -> list A -> result C) (channels : list B) (windows : list (list A)) : result (list C) :=
  match windows with
  | [w] => sequence (map (fun c => f c w) channels)
  | _ => sequence (map2 f channels windows)
  end.

(** The three dimensional array, that is given by the list of the spectrums of each channel's segments.  All channels have the same number
    of segments and all segments have the same length. *)
Definition stacked (l : list (list (list K))) (frequencies segments : Z) : cube K :=
  Cube (zlen l) frequencies segments (fun c f m =>
    match zth l c with
    | Some segments => match zth segments m with Some spectrum => zth spectrum f | None => None end
    | None => None
    end).

(** _signal.py:560-566: the compensation for an offset, that is not a multiple of the step *)
Definition stft_compensation (window_length : Z) (resolution : A) (remainder : Z) (rate : A) : list K :=
  let max_frequency := o_mul O (int (window_length - 1)) resolution in
  let factor := o_mul O (o_mul O (int (-2)) (n_pi N)) (o_div O (int remainder) rate) in
  map (fun z => c_exp N (o_mul (c_ops N) z (c_make N (o_zero O) factor)))
    (linspace O N (c_make N max_frequency (o_zero O)) (window_length / 2 + 1)).

(** _signal.py:503-571, [Signal.short_time_fourier_transform(window, overlap, pad)], after the window has been made *)
Definition short_time_fourier_transform (s window : signal A) (overlap : num) (pad : bool) : result (spectrogram K A) :=
  let window_length := length window in
  overlap <- index overlap window_length ;;
  let step := window_length - overlap in
  segments <- with_windows (fun c w => scipy_stft c w overlap pad) (rows (channels s)) (rows (channels window)) ;;
  let stft := stacked segments (window_length / 2 + 1) (match segments with l :: _ => zlen l | [] => 0 end) in
  result <- allocate3 cjunk (dim0 stft) (dim1 stft) (dim2 stft) ;;
  result <- set3 result everything everything everything stft ;;
  let resolution := o_div O (sampling_rate s) (int window_length) in
  let rounded := py_round (inject_Z (offset s) / inject_Z step) in
  let remainder := offset s - rounded * step in
  result <-
    (if remainder =? 0 then Ok result
     else
       let compensation := stft_compensation window_length resolution remainder (sampling_rate s) in
       for_each (zseq 0 (dim0 result)) (fun result c =>
         t <- layer result c ;;
         t <- ufunc3_view (o_mul (c_ops N)) (transpose Axes021 t) (cube_of (Arr [compensation] (zlen compensation))) Axes021 t everything everything everything ;;
         set3 result (between c (c + 1)) everything everything t) result) ;;
  Ok (mk_spectrogram result resolution (o_div O (sampling_rate s) (int step)) rounded (Some (labels s))).

(** [scipy.signal.istft(z, fs, window=window, nperseg=nperseg, noverlap=overlap, boundary=pad)[1]] for one channel, which is given by the
    list of the segments' spectrums; [frequencies] is the number of the frequencies. *)
Definition scipy_istft (frequencies : Z) (z : list (list K)) (window : list A) (nperseg overlap : Z) (pad : bool) : result (list A) :=
  let n_default := 2 * (frequencies - 1) in
  if nperseg <? 1 then Err ValueError
  else
    let nfft := if nperseg =? n_default + 1 then nperseg else n_default in
    if nfft <? 1 then Err ValueError
    else if nperseg <=? overlap then Err ValueError
    else
      let step := nperseg - overlap in
      if negb (zlen window =? nperseg) then Err ValueError
      else
        let sum := channel_sum O window in
        let xsubs := map (fun spectrum => map (fun v => o_mul O v sum) (subseq (between 0 nperseg) (x_irfft X spectrum nfft))) z in
        let outputlength := nperseg + (zlen z - 1) * step in
        if outputlength <? 0 then Err ValueError
        else
          let zeros := zrepeat (o_zero O) outputlength in
          state <- for_each (zseq 0 (zlen z)) (fun '(x, norm) m =>
                     xsub <- getitem xsubs m ;;
                     p <- vmap2 (o_mul O) xsub window ;;
                     x <- vadd O x (between (m * step) (m * step + nperseg)) p ;;
                     norm <- vadd O norm (between (m * step) (m * step + nperseg)) (map (fun w => o_mul O w w) window) ;;
                     Ok (x, norm)) (zeros, zeros) ;;
          let '(x, norm) := state in
          let '(x, norm) := if pad then (subseq (between (nperseg / 2) (- (nperseg / 2))) x, subseq (between (nperseg / 2) (- (nperseg / 2))) norm)
                            else (x, norm) in
          vmap2 (o_div O) x (map (fun n => if less_equal n (o_div O (int 1) (int 10000000000)) then int 1 else n) norm).

(** The spectrums of the segments of a spectrogram's channels *)
Definition segments_of (m : cube K) : list (list (list K)) :=
  map (fun c => map (fun t => flat_map (fun f => match cell m c f t with Some x => [x] | None => [] end)
    (zseq 0 (dim1 m))) (zseq 0 (dim2 m))) (zseq 0 (dim0 m)).

(** _spectrogram.py:408-456, [Spectrogram.inverse_short_time_fourier_transform(window, overlap, pad)], after the window has been made *)
Definition inverse_short_time_fourier_transform (s : spectrogram K A) (window : signal A) (overlap : num) (pad : bool) : result (signal A) :=
  let window_length := length window in
  overlap <- index overlap window_length ;;
  let step := window_length - overlap in
  istft <- with_windows (fun z w => scipy_istft (sg_frequencies s) z w window_length overlap pad) (segments_of (sg_channels s)) (rows (channels window)) ;;
  let columns := match istft with l :: _ => zlen l | [] => 0 end in
  result <- allocate junk (zlen istft) columns ;;
  result <- set_block result everything everything (Arr istft columns) ;;
  Ok (mk_signal result (o_mul O (sg_rate s) (int step)) (sg_offset s * step) (Some (sg_labels s))).

End Stft.
