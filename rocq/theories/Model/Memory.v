(** Model of the memory, in which the samples of signals are: which methods of /repo/sumpf/_data/_signals/_signal.py and of the blocks in /repo/sumpf/_blocks
    return the same object, an object that shares samples with another one, or an object in newly allocated memory.

    The other files model arrays as values.  Here, an array is the table of the addresses of its samples, so that slicing an array (basic slicing in NumPy
    returns a view) means slicing this table.  Simplification: a method, that allocates an array, first reads the samples of its arguments, then stores
    the result; the code fills the new array step by step, while nothing else is written. *)

From Coq Require Import String ZArith List Bool.
From Verif.Model Require Import Py Numpy Functions Signal Spectrum Fft Fourier Text Merge Concatenate Sweeps.
Import ListNotations.
Open Scope Z_scope.

Section Memory.
Context {A : Type}.
Variable O : ops A.
Variable junk : Z -> Z -> A.

(** What is in the memory, and the first address that has not been allocated *)
Record memory := Memory { cells : Z -> A; next : Z }.

(** A signal: _signal.py:82-93, _sampled_data.py:26-33; the array is not copied by the constructor. *)
Record object := Object { locations : arr Z; rate_of : A; offset_of : Z; labels_of : list string }.

(** The samples, that a user sees *)
Definition values (m : memory) (x : object) : signal A := Signal (ufunc1 (cells m) (locations x)) (rate_of x) (offset_of x) (labels_of x).

(** Writing to a list of addresses *)
Definition poke (c : Z -> A) (p : Z * A) : Z -> A := fun a => if a =? fst p then snd p else c a.
Definition write (c : Z -> A) (addresses : list Z) (xs : list A) : Z -> A := fold_left poke (combine addresses xs) c.

(** [allocate_array]: _internal/_functions.py:29-43; the addresses of a new array are counted row by row. *)
Fixpoint numbered {B} (n : Z) (l : list (list B)) : list (list Z) :=
  match l with
  | [] => []
  | r :: l => zseq n (zlen r) :: numbered (n + zlen r) l
  end.
Definition store (m : memory) (s : signal A) : memory * object :=
  let addresses := numbered (next m) (rows (channels s)) in
  (Memory (write (cells m) (concat addresses) (concat (rows (channels s)))) (next m + zlen (concat addresses)),
   Object (Arr addresses (cols (channels s))) (sampling_rate s) (offset s) (labels s)).

(** The methods that slice the array and give the result to the constructor; the sampling rate is a number, not an address. *)
Definition frame (x : object) : signal Z := Signal (locations x) 0 (offset_of x) (labels_of x).
Definition view (x : object) (s : signal Z) : object := Object (channels s) (rate_of x) (offset s) (labels s).

(** What a program can do with the signals, that it has got so far; these are identified by their positions. *)
Inductive action :=
| Getitem (x : Z) (k : key)
| Reversed (x : Z)
| Shift (x : Z) (shift : option Z) (mode : shift_mode)
| Pad (x : Z) (length : Z) (value : A)
| Abs (x : Z)
| Neg (x : Z)
| Op (p : operator) (x y : Z)
| OpArray (p : operator) (x : Z) (y : arr A)
| OpArrayRight (p : operator) (x : arr A) (y : Z)
| MergeOutput (mode : merge_mode) (xs : list Z)
| ConcatenateOutput (xs : list Z)
| Compute (f : list (signal A) -> result (signal A)) (xs : list Z).

Definition fetch {B} (env : list B) (i : Z) : result B := match zth env i with Some x => Ok x | None => Err NameError end.
Definition fetch_all {B} (env : list B) (l : list Z) : result (list B) := sequence (map (fetch env) l).

(** A result in new memory *)
Definition new (m : memory) (r : result (signal A)) : result (memory * object) := rmap (store m) r.

Definition perform (m : memory) (env : list object) (a : action) : result (memory * object) :=
  match a with
  | Getitem i k =>                      (* _signal.py:99-120 *)
      x <- fetch env i ;;
      s <- signal_getitem (frame x) k ;;
      Ok (m, view x s)
  | Reversed i =>                       (* _signal.py:179-192 *)
      x <- fetch env i ;;
      s <- signal_reversed (frame x) ;;
      Ok (m, view x s)
  | Shift i shift mode =>               (* _signal.py:323-376 *)
      x <- fetch env i ;;
      match shift, mode with
      | Some 0, _ => Ok (m, x)
      | None, SHIFT_OFFSET => Ok (m, view x (mk_signal (locations x) 0 0 (Some (labels_of x))))
      | Some k, SHIFT_OFFSET => Ok (m, view x (mk_signal (locations x) 0 (offset_of x + k) (Some (labels_of x))))
      | _, _ => new m (signal_shift O junk (values m x) shift mode)
      end
  | Pad i length value =>               (* _signal.py:301-321 *)
      x <- fetch env i ;;
      if length =? cols (locations x) then Ok (m, x)
      else new m (signal_pad junk (values m x) length value)
  | Abs i =>                            (* _signal.py:168-177 *)
      x <- fetch env i ;;
      new m (Ok (signal_abs O (values m x)))
  | Neg i =>                            (* _signal.py:194-203 *)
      x <- fetch env i ;;
      new m (Ok (signal_neg O (values m x)))
  | Op p i j =>                         (* _sampled_data.py:99-137, _signal.py:209-225, 856-967 *)
      x <- fetch env i ;;
      y <- fetch env j ;;
      new m (signal_op O junk p (values m x) (values m y))
  | OpArray p i y =>                    (* _signal.py:969-979 *)
      x <- fetch env i ;;
      new m (signal_op_array O junk p (values m x) y)
  | OpArrayRight p x j =>               (* _signal.py:878-893 *)
      y <- fetch env j ;;
      new m (signal_op_array_right O junk p (values m y) x)
  | MergeOutput mode l =>               (* _merge.py:57-88 *)
      xs <- fetch_all env l ;;
      match xs with
      | [x] => Ok (m, x)
      | _ => new m (merge_signals O junk mode (map (values m) xs))
      end
  | ConcatenateOutput l =>              (* _concatenate.py:50-146 *)
      xs <- fetch_all env l ;;
      match xs with
      | [x] => Ok (m, x)
      | _ => new m (concatenate_signals O junk (map (values m) xs))
      end
  | Compute f l =>                      (* the other methods, which allocate an array for their result: _signal.py:231-254, 585-660, _convolution.py *)
      xs <- fetch_all env l ;;
      new m (f (map (values m) xs))
  end.

(** A program is a sequence of actions; it ends with the first exception. *)
Fixpoint run (m : memory) (env : list object) (program : list action) : result (memory * list object) :=
  match program with
  | [] => Ok (m, env)
  | a :: program =>
      r <- perform m env a ;;
      run (fst r) (env ++ [snd r]) program
  end.

(** [x.channels()[c, t] = v], with which a user writes to the array of a signal: _sampled_data.py:143-148 *)
Definition assign (m : memory) (x : object) (c t : Z) (v : A) : result memory :=
  r <- getitem (rows (locations x)) c ;;
  a <- getitem r t ;;
  Ok (Memory (poke (cells m) (a, v)) (next m)).

End Memory.
Arguments memory : clear implicits. Arguments object : clear implicits. Arguments action : clear implicits.

(** _sweep.py:169-237 with the memory; see [harmonic_impulse_response] in Sweeps.v. *)
Section Harmonics.
Context {A K : Type}.
Variable O : ops A.
Variable M : functions A.
Variable X : transforms A K.
Variable N : numbers A K.
Variable junk : Z -> Z -> A.

Definition perform_harmonic (m : memory A) (l : A) (x : object A) (harmonic : Z) (length : option Z) : result (memory A * object A) :=
  let rate := rate_of x in
  '(start, stop, remaining_delay) <- harmonic_cut O M l rate (offset_of x) harmonic ;;
  let cut := match stop with None => from start | Some stop => between start stop end in
  let channels := block (locations x) everything cut in
  let labels := Some (map (fun l => l ++ " (" ++ counting_number harmonic ++ " harmonic)")%string (labels_of x)) in
  let shared (channels : arr Z) := view x (mk_signal channels 0 0 labels) in
  let copied (r : result (arr A)) := new m (rmap (fun channels => mk_signal channels rate 0 labels) r) in
  let samples := ufunc1 (cells m) channels in
  match length with
  | Some length =>
      let channel_count := nrows channels in
      let harmonic_length := cols channels in
      if harmonic_length <? length then
        copied (new_channels <- allocate junk channel_count length ;;
                new_channels <- set_block new_channels everything (between 0 harmonic_length) samples ;;
                new_channels <- set_block new_channels everything (from harmonic_length) (scalar (o_zero O)) ;;
                match remaining_delay with
                | Some delay => apply_delay O M X N new_channels rate delay new_channels
                | None => Ok new_channels
                end)
      else if channel_count <? harmonic_length then
        match remaining_delay with
        | Some delay => copied (new_channels <- allocate junk channel_count length ;; apply_delay O M X N samples rate delay new_channels)
        | None => Ok (m, shared (block channels everything (between 0 length)))
        end
      else Ok (m, shared channels)
  | None =>
      match remaining_delay with
      | Some delay =>
          out <- apply_delay O M X N samples rate delay samples ;;
          Ok (Memory (write (cells m) (concat (rows channels)) (concat (rows out))) (next m), shared channels)
      | None => Ok (m, shared channels)
      end
  end.

End Harmonics.
