(** Model of the memory, in which the samples of spectrums are: which methods of /repo/sumpf/_data/_spectrums/_spectrum.py and of
    /repo/sumpf/_blocks/_merge.py return the same object, an object that shares samples with another one, or an object in newly allocated memory.

    As in Memory.v, an array is the table of the addresses of its samples; and a method, that allocates an array, first reads the samples of its
    arguments, then stores the result (simplification: the code fills the new array step by step, while nothing else is written). *)

From Coq Require Import String ZArith List Bool.
From Verif.Model Require Import Py Numpy Functions Signal Spectrum Merge Memory.
Import ListNotations.
Open Scope Z_scope.

Section SpectrumMemory.
Context {A R : Type}.
Variable O : ops A.
Variable conj : A -> A.
Variable junk : Z -> Z -> A.

(** A spectrum: _spectrum.py:79-86, _sampled_data.py:26-33; the array is not copied by the constructor. *)
Record spectrum_object := SpectrumObject { sp_locations : arr Z; sp_resolution_of : R; sp_labels_of : list string }.

(** The samples, that a user sees *)
Definition sp_values (m : memory A) (x : spectrum_object) : spectrum A R :=
  Spectrum (ufunc1 (cells m) (sp_locations x)) (sp_resolution_of x) (sp_labels_of x).

(** [allocate_array]: _internal/_functions.py:29-43; the addresses of a new array are counted row by row. *)
Definition sp_store (m : memory A) (s : spectrum A R) : memory A * spectrum_object :=
  let addresses := numbered (next m) (rows (sp_channels s)) in
  (Memory (write (cells m) (concat addresses) (concat (rows (sp_channels s)))) (next m + zlen (concat addresses)),
   SpectrumObject (Arr addresses (cols (sp_channels s))) (resolution s) (sp_labels s)).

(** The method that slices the array and gives the result to the constructor *)
Definition sp_frame (x : spectrum_object) : spectrum Z R := Spectrum (sp_locations x) (sp_resolution_of x) (sp_labels_of x).
Definition sp_view (s : spectrum Z R) : spectrum_object := SpectrumObject (sp_channels s) (resolution s) (sp_labels s).

(** What a program can do with the spectrums, that it has got so far; these are identified by their positions. *)
Inductive spectrum_action :=
| SpGetitem (x : Z) (k : key)
| SpPad (x : Z) (length : Z) (value : A)
| SpAbs (x : Z)
| SpNeg (x : Z)
| SpConjugate (x : Z)
| SpInvert (x : Z)
| SpOp (p : operator) (x y : Z)
| SpOpArray (p : operator) (x : Z) (y : arr A)
| SpOpArrayRight (p : operator) (x : arr A) (y : Z)
| SpMergeOutput (mode : merge_mode) (xs : list Z)
| SpCompute (f : list (spectrum A R) -> result (spectrum A R)) (xs : list Z).

(** A result in new memory *)
Definition sp_new (m : memory A) (r : result (spectrum A R)) : result (memory A * spectrum_object) := rmap (sp_store m) r.

Definition sp_perform (m : memory A) (env : list spectrum_object) (a : spectrum_action) : result (memory A * spectrum_object) :=
  match a with
  | SpGetitem i k =>                    (* _spectrum.py:92-106 *)
      x <- fetch env i ;;
      s <- spectrum_getitem (sp_frame x) k ;;
      Ok (m, sp_view s)
  | SpPad i length value =>             (* _spectrum.py:316-335 *)
      x <- fetch env i ;;
      if length =? cols (sp_locations x) then Ok (m, x)
      else sp_new m (spectrum_pad junk (sp_values m x) length value)
  | SpAbs i =>                          (* _spectrum.py:150-158 *)
      x <- fetch env i ;;
      sp_new m (Ok (spectrum_abs O (sp_values m x)))
  | SpNeg i =>                          (* _spectrum.py:160-168 *)
      x <- fetch env i ;;
      sp_new m (Ok (spectrum_neg O (sp_values m x)))
  | SpConjugate i =>                    (* _spectrum.py:337-344 *)
      x <- fetch env i ;;
      sp_new m (Ok (spectrum_conjugate conj (sp_values m x)))
  | SpInvert i =>                       (* _spectrum.py:240-250 *)
      x <- fetch env i ;;
      sp_new m (spectrum_invert O junk (sp_values m x))
  | SpOp p i j =>                       (* _sampled_data.py:99-137, _spectrum.py:174-207 *)
      x <- fetch env i ;;
      y <- fetch env j ;;
      sp_new m (spectrum_op O junk p (sp_values m x) (sp_values m y))
  | SpOpArray p i y =>                  (* _spectrum.py:208-216 *)
      x <- fetch env i ;;
      sp_new m (spectrum_op_array O junk p (sp_values m x) y)
  | SpOpArrayRight p x j =>             (* _spectrum.py:218-234 *)
      y <- fetch env j ;;
      sp_new m (spectrum_op_array_right O junk p (sp_values m y) x)
  | SpMergeOutput mode l =>             (* _merge.py:57-70 and 89-100 *)
      xs <- fetch_all env l ;;
      match xs with
      | [x] => Ok (m, x)
      | _ => sp_new m (merge_spectrums O junk mode (map (sp_values m) xs))
      end
  | SpCompute f l =>                    (* other computations, that allocate an array for their result *)
      xs <- fetch_all env l ;;
      sp_new m (f (map (sp_values m) xs))
  end.

(** A program is a sequence of actions; it ends with the first exception. *)
Fixpoint sp_run (m : memory A) (env : list spectrum_object) (program : list spectrum_action) : result (memory A * list spectrum_object) :=
  match program with
  | [] => Ok (m, env)
  | a :: program =>
      r <- sp_perform m env a ;;
      sp_run (fst r) (env ++ [snd r]) program
  end.

(** [x.channels()[c, t] = v], with which a user writes to the array of a spectrum: _sampled_data.py:143-148 *)
Definition sp_assign (m : memory A) (x : spectrum_object) (c t : Z) (v : A) : result (memory A) :=
  r <- getitem (rows (sp_locations x)) c ;;
  a <- getitem r t ;;
  Ok (Memory (poke (cells m) (a, v)) (next m)).

End SpectrumMemory.
Arguments spectrum_object : clear implicits. Arguments spectrum_action : clear implicits.
