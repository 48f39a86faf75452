(** Model of the time dependent level and of the statistical parameters of signals:
    /repo/sumpf/_data/_signals/_signal.py:588-659 and 732-801.

    Floating point numbers are exact.  [junk] is the contents of the memory, that [allocate_array] returns, [vjunk] is the contents of an
    array, that has been created with [numpy.empty].  Divisions of arrays by zero do not raise exceptions. *)

From Coq Require Import String ZArith List Bool.
From Verif.Model Require Import Py Numpy Vector Functions Signal Fft Fourier Convolution Sweeps.
Import ListNotations.
Open Scope list_scope.
Open Scope Z_scope.

Section Levels.
Context {A K : Type}.
Variable O : ops A.
Variable N : numbers A K.
Variable M : functions A.
Variable junk : Z -> Z -> A.
Variable vjunk : Z -> A.
Notation int := (f_int M).
Notation zero := (o_zero O).
Notation one := (o_one O).
Infix "+." := (o_add O) (at level 50, left associativity).
Infix "-." := (o_sub O) (at level 50, left associativity).
Infix "*." := (o_mul O) (at level 40, left associativity).
Infix "/." := (o_div O) (at level 40, left associativity).

(** ** The level versus the time *)

(** _signal.py:618-624: the window, that does the averaging; [half] is [half_window_length] and [half_float] is
    [half_window_length_float] *)
Definition averaging_window (w half_float : A) (half : Z) : result (list A) :=
  let remainder := int half -. half_float in
  let window := zrepeat (one /. w) (1 + 2 * half) in
  if o_eqb O remainder zero then Ok window
  else let corner := remainder /. w in
       window <- vput window 0 corner ;;
       vput window (-1) corner.

(** _signal.py:632-634 and 647-649 *)
Definition effective_window_lengths (half_float : A) (half : Z) : list A :=
  linspace_ O M (one +. half_float) (int half +. half_float) half.

(** [numpy.clip(x, 0, a_max)] for one element *)
Definition clip (a_max x : A) : A :=
  let x := if f_leb M zero x then x else zero in
  if f_leb M x a_max then x else a_max.

(** _signal.py:646-654: the correction factors, if no sample's integration interval is covered by the signal.  The slice
    [correction[L - 1:(L + 1) // 2 - 1:-1]], that is assigned to, has the indices from [L - 1] down to [(L + 1) // 2]; the assignment is
    modelled as that of the reversed array to the slice [(L + 1) // 2:L]. *)
Definition half_correction (w half_float : A) (half length : Z) : result (list A) :=
  correction <- vector vjunk length ;;
  correction <- vset correction (between 0 half) (effective_window_lengths half_float half) ;;
  let halved := subseq (between 0 ((length + 1) / 2)) correction in
  let halved := map (clip (int length)) halved in
  let halved := map (fun x => w /. x) halved in
  let halved := map (n_sqrt N) halved in
  correction <- vset correction (between 0 ((length + 1) / 2)) halved ;;
  vset correction (between ((length + 1) / 2) length) (rev (subseq (between 0 (length / 2)) correction)).

(** _signal.py:588-659, [level_vs_time(integration_time, pad)].  The array [channels], that is allocated in line 608, is allocated by
    [rows_of]. *)
Definition level_vs_time (s : signal A) (integration_time : A) (pad : bool) : result (signal A) :=
  let w := integration_time *. sampling_rate s in
  if f_leb M w one then Ok (signal_abs O s)
  else
    let half_float := (w -. one) /. int 2 in
    let half := f_ceil M half_float in
    let length := Signal.length s in
    channels <-
      (if length <=? 1 + half then
         let levels := if pad then map (fun r => n_sqrt N (square_sum O r) /. n_sqrt N w) (rows (Signal.channels s))
                       else signal_level O N s in
         rows_of junk (count s) length (map (fun l => Ok (zrepeat l length)) levels)
       else
         window <- averaging_window w half_float half ;;
         let square := ufunc1 (fun x => x *. x) (Signal.channels s) in
         if zlen window <? length then
           channels <- rows_of junk (count s) length
             (map (fun r => c <- convolve O r window Same ;; Ok (map (n_sqrt N) c)) (rows square)) ;;
           if pad then Ok channels
           else
             let correction := map (fun x => n_sqrt N (w /. x)) (effective_window_lengths half_float half) in
             channels <- ufunc2_into (o_mul O) (block channels everything (between 0 half)) (Arr [correction] (zlen correction))
                           channels everything (between 0 half) ;;
             ufunc2_into (o_mul O) (block channels everything (from (- half))) (Arr [rev correction] (zlen correction))
               channels everything (from (- half))
         else
           let a := (zlen window + 1 - length) / 2 in
           let b := a + length in
           channels <- rows_of junk (count s) length
             (map (fun r => c <- convolve O r window Same ;; Ok (map (n_sqrt N) (subseq (between a b) c))) (rows square)) ;;
           if pad then Ok channels
           else
             correction <- half_correction w half_float half length ;;
             ufunc2_into (o_mul O) channels (Arr [correction] (zlen correction)) channels everything everything) ;;
    Ok (mk_signal channels (sampling_rate s) (offset s) (Some (labels s))).

(** ** Statistical parameters

    [numpy.mean], [numpy.var], [numpy.std], [scipy.stats.skew] and [scipy.stats.kurtosis] of a sequence; not code of /repo.
    [resolution] is [numpy.finfo(float).resolution]; [undefined] is the result of the functions of SciPy for sequences of equal elements. *)
Variables resolution undefined : A.

Definition mean_of (l : list A) : A := sum_over O l (fun x => x) /. int (zlen l).
(** The central moments, for the second, third and fourth power of the deviation *)
Definition moment2 (l : list A) : A := let m := mean_of l in mean_of (map (fun x => (x -. m) *. (x -. m)) l).
Definition moment3 (l : list A) : A := let m := mean_of l in mean_of (map (fun x => (x -. m) *. (x -. m) *. (x -. m)) l).
Definition moment4 (l : list A) : A := let m := mean_of l in mean_of (map (fun x => ((x -. m) *. (x -. m)) *. ((x -. m) *. (x -. m))) l).
Definition constant_values (l : list A) : bool :=
  let tolerance := resolution *. mean_of l in f_leb M (moment2 l) (tolerance *. tolerance).
Definition skew (l : list A) : A :=
  if constant_values l then undefined else moment3 l /. (moment2 l *. n_sqrt N (moment2 l)).
Definition kurtosis_of (l : list A) : A :=
  if constant_values l then undefined else moment4 l /. (moment2 l *. moment2 l) -. int 3.

(** A statistical parameter of each channel ([axis=1]) and of all samples ([axis=None]) *)
Definition of_channels (f : list A -> A) (s : signal A) : list A := map f (rows (Signal.channels s)).
Definition of_all_samples (f : list A -> A) (s : signal A) : A := f (concat (rows (Signal.channels s))).

(** _signal.py:732-743 *)
Definition signal_mean : signal A -> list A := of_channels mean_of.
Definition signal_total_mean : signal A -> A := of_all_samples mean_of.
(** _signal.py:745-756 *)
Definition signal_standard_deviation : signal A -> list A := of_channels (fun l => n_sqrt N (moment2 l)).
Definition signal_total_standard_deviation : signal A -> A := of_all_samples (fun l => n_sqrt N (moment2 l)).
(** _signal.py:758-769 *)
Definition signal_variance : signal A -> list A := of_channels moment2.
Definition signal_total_variance : signal A -> A := of_all_samples moment2.
(** _signal.py:771-785 *)
Definition signal_skewness : signal A -> list A := of_channels skew.
Definition signal_total_skewness : signal A -> A := of_all_samples skew.
(** _signal.py:787-801 *)
Definition signal_kurtosis : signal A -> list A := of_channels kurtosis_of.
Definition signal_total_kurtosis : signal A -> A := of_all_samples kurtosis_of.

End Levels.
