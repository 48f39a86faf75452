(** Model of generated signals and spectrums: windows (/repo/sumpf/_data/_signals/_windows.py), fades (_fade.py),
    energy decay curves (_energy_decay.py), maximum length sequences (_mls.py) and Rudin-Shapiro noise
    (/repo/sumpf/_data/_spectrums/_rudinshapiro.py).

    [junk] is the contents of freshly allocated memory; [rate] is the sampling rate. *)

From Coq Require Import String ZArith QArith List Bool.
From Verif.Model Require Import Py Numpy Functions Signal Spectrum Vector.
Import ListNotations.
Open Scope string_scope.
Open Scope list_scope.
Open Scope Z_scope.

Section Generators.
Context {A : Type}.
Variable O : ops A.
Variable junk : Z -> A.
Variable rate : A.

(** A signal with one channel, as all of the following constructors make it. *)
Definition one_channel (channel : list A) (length : Z) (label : string) : signal A :=
  mk_signal (Arr [channel] length) rate 0 (Some [label]).

(** ** Windows: _windows.py:36-68; [w] is the method [_function] of the subclass and [label] its label *)
Definition window (w : Z -> list A) (label : string) (plateau : num) (length : Z) (symmetric : bool) : result (signal A) :=
  plateau <- index plateau length ;;
  channel <- vector junk length ;;
  channel <-
    (if plateau =? 0 then
       if symmetric then vset channel everything (w length)
       else vset channel everything (subseq (between 0 (-1)) (w (length + 1)))
     else
       let fade_length := (length - plateau) / 2 in
       let fade := if symmetric then w (2 * fade_length) else w (2 * fade_length + 1) in
       channel <- vset channel (between 0 fade_length) (subseq (between 0 fade_length) fade) ;;
       let channel := vfill channel (between fade_length (length - fade_length)) (o_one O) in
       vset channel (from (length - fade_length)) (subseq (between fade_length (2 * fade_length)) fade)) ;;
  Ok (one_channel channel length label).

(** ** Fades *)

(** _fade.py:150-180, [fade_in_out(function, rise_stop, fall_start, fall_length, out)] *)
Definition fade_in_out (w : Z -> list A) (rise_stop fall_start fall_length : Z) (out : list A) : result (list A) :=
  let length := zlen out in
  if rise_stop =? fall_start then
    if rise_stop =? fall_length then vset out everything (w length)
    else
      out <- vset out (between 0 rise_stop) (subseq (between 0 rise_stop) (w (2 * rise_stop))) ;;
      vset out (from fall_start) (subseq (from fall_length) (w (2 * fall_length)))
  else
    let '(fade_in, fade_out) :=
      if rise_stop =? fall_length then
        let fade := w (rise_stop + fall_length) in
        (subseq (between 0 rise_stop) fade, subseq (from rise_stop) fade)
      else
        (subseq (between 0 rise_stop) (w (2 * rise_stop)), subseq (from fall_length) (w (2 * fall_length))) in
    if rise_stop <=? fall_start then
      out <- vset out (between 0 rise_stop) fade_in ;;
      let out := vfill out (between rise_stop fall_start) (o_one O) in
      vset out (from fall_start) fade_out
    else
      let fall_stop := fall_start + fall_length in
      out <- vset out (between 0 fall_start) (subseq (between 0 fall_start) fade_in) ;;
      if length <=? fall_stop then
        let overlap_length := rise_stop - fall_start in
        product <- vmap2 (o_mul O) (subseq (between fall_start rise_stop) fade_in) (subseq (between 0 overlap_length) fade_out) ;;
        out <- vset out (between fall_start rise_stop) product ;;
        vset out (from rise_stop) (subseq (from overlap_length) fade_out)
      else
        product <- vmap2 (o_mul O) (subseq (between fall_start fall_stop) fade_in) fade_out ;;
        out <- vset out (between fall_start fall_stop) product ;;
        Ok (vfill out (from fall_stop) (o_zero O)).

(** _fade.py:183-205, [fade_out_in(function, fall_stop, rise_start, rise_length, out)] *)
Definition fade_out_in (w : Z -> list A) (fall_stop rise_start rise_length : Z) (out : list A) : result (list A) :=
  let '(fade_out, fade_in) :=
    if fall_stop =? rise_length then
      let fade := w (fall_stop + rise_length) in
      (subseq (from fall_stop) fade, subseq (between 0 rise_length) fade)
    else
      (subseq (from fall_stop) (w (2 * fall_stop)), subseq (between 0 rise_length) (w (2 * rise_length))) in
  if fall_stop <=? rise_start then
    out <- vset out (between 0 fall_stop) fade_out ;;
    let out := vfill out (between fall_stop rise_start) (o_zero O) in
    vset out (from rise_start) fade_in
  else
    let rise_stop := rise_start + rise_length in
    out <- vset out (between 0 rise_start) (subseq (between 0 rise_start) fade_out) ;;
    if zlen out <=? rise_stop then
      let overlap_length := fall_stop - rise_start in
      total <- vmap2 (o_add O) (subseq (between rise_start fall_stop) fade_out) (subseq (between 0 overlap_length) fade_in) ;;
      out <- vset out (between rise_start fall_stop) total ;;
      vset out (from fall_stop) (subseq (from overlap_length) fade_in)
    else
      total <- vmap2 (o_add O) (subseq (between rise_start rise_stop) fade_out) fade_in ;;
      out <- vset out (between rise_start rise_stop) total ;;
      vset out (from rise_stop) (map (fun x => o_add O x (o_one O)) (subseq (from rise_stop) fade_out)).

(** What can be passed as an interval: nothing, a number or a pair of numbers.  (Other iterables raise an exception.) *)
Inductive interval := INone | INumber (n : num) | IPair (a b : num).

(** _fade.py:87-92 *)
Definition rise_indices (i : interval) (length : Z) : result (option (Z * Z)) :=
  match i with
  | INone => Ok None
  | INumber n => b <- index n length ;; Ok (Some (0, b))
  | IPair a b => a <- index a length ;; b <- index b length ;; Ok (Some (a, b))
  end.

(** _fade.py:93-98 *)
Definition fall_indices (i : interval) (length : Z) : result (option (Z * Z)) :=
  match i with
  | INone => Ok None
  | INumber n => a <- index n length ;; Ok (Some (a, length))
  | IPair a b => a <- index a length ;; b <- index b length ;; Ok (Some (a, b))
  end.

(** [f(..., out=channel[a:b])]: the view is replaced by what the function has written to it. *)
Definition write_view (channel : list A) (b : bounds) (f : list A -> result (list A)) : result (list A) :=
  view <- f (subseq b channel) ;; vset channel b view.

(** _fade.py:99-141, the channel for the given indices *)
Definition fade_channel (w : Z -> list A) (rise fall : option (Z * Z)) (channel : list A) : result (list A * string) :=
  match rise, fall with
  | None, None => Ok (vfill channel everything (o_one O), "Fade")
  | None, Some (a, b) =>
      let fall_length := b - a in
      let channel := vfill channel (between 0 a) (o_one O) in
      channel <- vset channel (between a b) (subseq (from fall_length) (w (2 * fall_length))) ;;
      Ok (vfill channel (from b) (o_zero O), "Fade out")
  | Some (a, b), None =>
      let rise_length := b - a in
      let channel := vfill channel (between 0 a) (o_zero O) in
      channel <- vset channel (between a b) (subseq (between 0 rise_length) (w (2 * rise_length))) ;;
      Ok (vfill channel (from b) (o_one O), "Fade in")
  | Some (r0, r1), Some (f0, f1) =>
      if (r0 <? f0) || ((r0 =? r1) && (r1 =? f0) && negb (f0 =? f1)) then
        let '(a, b, c, d) := (r0, r1, f0, f1) in
        let start := Z.min a c in
        let stop := Z.max b d in
        let channel := vfill channel (between 0 start) (o_zero O) in
        channel <- write_view channel (between start stop) (fade_in_out w (b - start) (c - start) (d - c)) ;;
        Ok (vfill channel (from stop) (o_zero O), "Fade in-out")
      else
        let '(a, b, c, d) := (f0, f1, r0, r1) in
        let start := Z.min a c in
        let stop := Z.max b d in
        let channel := vfill channel (between 0 start) (o_one O) in
        channel <- write_view channel (between (Z.min a c) (Z.max b d)) (fade_out_in w (b - a) (c - a) (d - c)) ;;
        Ok (vfill channel (from stop) (o_one O), "Fade out-in")
  end.

(** _fade.py:55-143, the constructor *)
Definition fade (w : Z -> list A) (rise fall : interval) (length : Z) : result (signal A) :=
  channel <- vector junk length ;;
  rise <- rise_indices rise length ;;
  fall <- fall_indices fall length ;;
  r <- fade_channel w rise fall channel ;;
  Ok (one_channel (fst r) length (snd r)).

(** ** Energy decay curves *)

(** [numpy.cumsum] of a sequence, after the sum [acc] *)
Fixpoint cumsum (acc : A) (l : list A) : list A :=
  match l with
  | [] => []
  | x :: t => let s := o_add O acc x in s :: cumsum s t
  end.

(** _energy_decay.py:46-58, the constructor; the first partial sum of [numpy.cumsum] is the first element. *)
Definition decay_row (l : list A) : list A :=
  match rev (map (fun x => o_mul O x x) l) with
  | [] => []
  | x :: t => rev (x :: cumsum x t)
  end.

Definition energy_decay (s : signal A) : signal A :=
  mk_signal (Arr (map decay_row (rows (channels s))) (length s)) (sampling_rate s) (offset s) (Some (labels s)).

(** ** Maximum length sequences: _mls.py:48-70

    [initial] is what [random.choice] returns for a number of bits and [position] what [random.integers] returns
    for an upper limit (which is excluded; the lower limit is 0).  [max_len_seq] is SciPy's function. *)
Definition mls (initial : Z -> list bool) (position : Z -> Z) (max_len_seq : Z -> list bool -> Z -> result (list bool))
  (bits length : option Z) : result (signal A * Z) :=
  let '(bits, length) :=
    match length, bits with
    | None, None => (16, 2 ^ 16 - 1)
    | None, Some bits => (bits, 2 ^ bits - 1)
    | Some length, None => (Z.log2_up (length + 1), length)
    | Some length, Some bits => (bits, length)
    end in
  let state := initial bits in
  state <- (if existsb (fun b => b) state then Ok state
            else if zlen state - 1 <=? 0 then Err ValueError
            else vput state (position (zlen state - 1)) true) ;;
  sequence <- max_len_seq bits state length ;;
  let channel := map (fun b : bool => if b then o_one O else o_zero O) sequence in
  let two := o_add O (o_one O) (o_one O) in
  let channel := map (fun x => o_sub O (o_mul O x two) (o_one O)) channel in
  Ok (mk_signal (Arr [channel] (zlen sequence)) rate 0 (Some ["MLS"]), bits).

(** ** Rudin-Shapiro noise *)

(** The loop in _rudinshapiro.py:63-69, cut off after [fuel] iterations *)
Fixpoint rudin_shapiro_loop (fuel : nat) (offset sequence_length i : Z) (channel : list A) : result (list A) :=
  if i <? sequence_length then
    match fuel with
    | 0%nat => Err Hangs
    | S k =>
        let j := Z.min (i / 2) (sequence_length - i) in
        channel <- vset channel (between (offset + i) (offset + i + j)) (subseq (between offset (offset + j)) channel) ;;
        channel <-
          (if i + i / 2 <? sequence_length then
             let j := Z.min i (sequence_length - i) in
             vset channel (between (offset + i + i / 2) (offset + i + j))
               (map (o_neg O) (subseq (between (offset + i / 2) (offset + j)) channel))
           else Ok channel) ;;
        rudin_shapiro_loop k offset sequence_length (i * 2) channel
    end
  else Ok channel.

(** _rudinshapiro.py:38-73, the constructor; frequencies and resolution are rational numbers.
    The result is the spectrum and the sequence length. *)
Definition rudin_shapiro (start_frequency : Q) (stop_frequency : option Q) (resolution : Q) (length : Z)
  : result (spectrum A Q * Z) :=
  let offset := Z.min (py_round (start_frequency / resolution)) length in
  let sequence_length :=
    match stop_frequency with
    | None => length - offset
    | Some stop_frequency => Z.min (py_round (stop_frequency / resolution)) length - offset
    end in
  channel <- vector junk length ;;
  let channel := vfill channel (between 0 offset) (o_zero O) in
  channel <-
    (if (offset <? length) && (0 <? sequence_length) then
       channel <- vput channel offset (o_one O) ;;
       if (offset + 1 <? length) && (1 <? sequence_length) then
         channel <- vput channel (offset + 1) (o_one O) ;;
         rudin_shapiro_loop (Z.to_nat sequence_length) offset sequence_length 2 channel
       else Ok channel
     else Ok channel) ;;
  let channel := vfill channel (from (offset + sequence_length)) (o_zero O) in
  Ok (mk_spectrum (Arr [channel] length) resolution (Some ["Noise"]), sequence_length).

End Generators.
