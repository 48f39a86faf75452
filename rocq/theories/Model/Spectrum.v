(** Model of /repo/sumpf/_data/_spectrums/_spectrum.py and the parts of
    /repo/sumpf/_data/_sampled_data.py that it inherits: construction, slicing,
    comparison, operators and padding of spectrums.

    The sample type [A] (complex numbers) and the type [R] of the resolution are
    arbitrary.  The inverse Fourier transform and the level are in Fourier.v. *)

From Coq Require Import String ZArith List Bool.
From Verif.Model Require Import Py Numpy Functions Signal.
Import ListNotations.
Open Scope Z_scope.

(** The attributes of a spectrum: _spectrum.py:85-86, _sampled_data.py:31-33. *)
Record spectrum (A R : Type) := Spectrum {
  sp_channels : arr A;
  resolution : R;
  sp_labels : list string;
}.
Arguments Spectrum {A R}. Arguments sp_channels {A R}. Arguments resolution {A R}. Arguments sp_labels {A R}.

(** Well formed: what the constructor establishes. *)
Definition wf_spectrum {A R} (s : spectrum A R) : Prop :=
  wf (sp_channels s) /\ zlen (sp_labels s) = nrows (sp_channels s).

(** _sampled_data.py:39-44 *)
Definition sp_count {A R} (s : spectrum A R) : Z := nrows (sp_channels s).
(** _sampled_data.py:161-166 *)
Definition sp_length {A R} (s : spectrum A R) : Z := cols (sp_channels s).

(** _spectrum.py:79-86, the constructor. *)
Definition mk_spectrum {A R} (channels : arr A) (resolution : R) (labels : option (list string)) : spectrum A R :=
  Spectrum channels resolution (sanitize_labels labels (nrows channels)).

Section Spectrum.
Context {A R : Type}.
Variable O : ops A.
Variable R_eqb : R -> R -> bool.
Variable conj : A -> A.
Variable junk : Z -> Z -> A.

(** _spectrum.py:92-106; a tuple with one key slices only the channels. *)
Definition spectrum_getitem (s : spectrum A R) (k : key) : result (spectrum A R) :=
  match k with
  | KOne k1 =>
      c <- key_to_slice k1 (sp_count s) ;;
      m <- channels_slice (sp_channels s) c (Slice None None None) ;;
      l <- getslice (sp_labels s) c ;;
      Ok (mk_spectrum m (resolution s) (Some l))
  | KTuple ks =>
      sl <- keys_to_slices ks [sp_count s; sp_length s] ;;
      c <- getitem sl 0 ;;
      let t := match zth sl 1 with Some t => t | None => Slice None None None end in
      m <- channels_slice (sp_channels s) c t ;;
      l <- getslice (sp_labels s) c ;;
      Ok (mk_spectrum m (resolution s) (Some l))
  end.

(** _spectrum.py:134-140 and _sampled_data.py:46-54 *)
Definition spectrum_eqb (s t : spectrum A R) : bool :=
  if negb (R_eqb (resolution s) (resolution t)) then false
  else sampled_eqb O (sp_channels s) (sp_labels s) (sp_channels t) (sp_labels t).

(** _spectrum.py:142-144 and _sampled_data.py:60-64 *)
Definition spectrum_hash {H} (hash_number : A -> H) (hash_float : R -> H) (hash_int : Z -> H) (hash_str : string -> H)
  (hash_tuple : list H -> H) (s : spectrum A R) : H :=
  let m := sp_channels s in
  hash_tuple
    [ hash_tuple [ hash_tuple [hash_int (nrows m); hash_int (cols m)];
                   hash_tuple (map hash_number (concat (rows m)));
                   hash_tuple (map hash_str (sp_labels s)) ];
      hash_float (resolution s) ].

(** _spectrum.py:150-168 and 337-344; the allocated output array is overwritten completely. *)
Definition spectrum_abs (s : spectrum A R) : spectrum A R :=
  mk_spectrum (ufunc1 (o_abs O) (sp_channels s)) (resolution s) (Some (sp_labels s)).
Definition spectrum_neg (s : spectrum A R) : spectrum A R :=
  mk_spectrum (ufunc1 (o_neg O) (sp_channels s)) (resolution s) (Some (sp_labels s)).
Definition spectrum_conjugate (s : spectrum A R) : spectrum A R :=
  mk_spectrum (ufunc1 conj (sp_channels s)) (resolution s) (Some (sp_labels s)).

(** _spectrum.py:174-205, the other operand is a spectrum. *)
Definition spectrum_algebra (f : A -> A -> A) (pivot : option A) (label : string) (s o : spectrum A R)
  : result (spectrum A R) :=
  m <- (if sp_count s =? 1 then
          m <- allocate junk (sp_count o) (sp_length s) ;;
          v <- row (sp_channels s) 0 ;;
          ufunc2_into f v (sp_channels o) m everything everything
        else if sp_count o =? 1 then
          m <- allocate junk (sp_count s) (sp_length s) ;;
          v <- row (sp_channels o) 0 ;;
          ufunc2_into f (sp_channels s) v m everything everything
        else if sp_count s <? sp_count o then
          m <- allocate junk (sp_count o) (sp_length s) ;;
          m <- ufunc2_into f (sp_channels s) (block (sp_channels o) (between 0 (sp_count s)) everything)
                           m (between 0 (sp_count s)) everything ;;
          match pivot with
          | None => set_block m (from (sp_count s)) everything
                              (block (sp_channels o) (from (sp_count s)) everything)
          | Some p => ufunc2_into f (scalar p) (block (sp_channels o) (from (sp_count s)) everything)
                                  m (from (sp_count s)) everything
          end
        else
          m <- allocate junk (sp_count s) (sp_length s) ;;
          m <- ufunc2_into f (block (sp_channels s) (between 0 (sp_count o)) everything) (sp_channels o)
                           m (between 0 (sp_count o)) everything ;;
          set_block m (from (sp_count o)) everything (block (sp_channels s) (from (sp_count o)) everything)) ;;
  Ok (mk_spectrum m (resolution s) (Some (zrepeat label (nrows m)))).

(** _spectrum.py:208-216, a number or an array as right operand. *)
Definition spectrum_algebra_array (f : A -> A -> A) (s : spectrum A R) (x : arr A) : result (spectrum A R) :=
  m <- allocate junk (sp_count s) (sp_length s) ;;
  m <- ufunc2_into f (sp_channels s) x m everything everything ;;
  Ok (mk_spectrum m (resolution s) (Some (sp_labels s))).

(** _spectrum.py:218-234, a number or an array as left operand. *)
Definition spectrum_algebra_array_right (f : A -> A -> A) (s : spectrum A R) (x : arr A) : result (spectrum A R) :=
  m <- allocate junk (sp_count s) (sp_length s) ;;
  m <- ufunc2_into f x (sp_channels s) m everything everything ;;
  Ok (mk_spectrum m (resolution s) (Some (sp_labels s))).

(** The operators: _sampled_data.py:99-137. *)
Definition spectrum_op (p : operator) (s o : spectrum A R) : result (spectrum A R) :=
  spectrum_algebra (op_function O p) (op_pivot O p) (op_label p) s o.
Definition spectrum_op_array (p : operator) (s : spectrum A R) (x : arr A) : result (spectrum A R) :=
  spectrum_algebra_array (op_function O p) s x.
Definition spectrum_op_array_right (p : operator) (s : spectrum A R) (x : arr A) : result (spectrum A R) :=
  spectrum_algebra_array_right (op_function O p) s x.

(** _spectrum.py:240-250 *)
Definition spectrum_invert (s : spectrum A R) : result (spectrum A R) :=
  m <- allocate junk (sp_count s) (sp_length s) ;;
  m <- ufunc2_into (o_div O) (scalar (o_one O)) (sp_channels s) m everything everything ;;
  Ok (mk_spectrum m (resolution s) (Some (sp_labels s))).

(** _spectrum.py:316-335 *)
Definition spectrum_pad (s : spectrum A R) (len : Z) (value : A) : result (spectrum A R) :=
  if len =? sp_length s then Ok s
  else
    m <- allocate junk (sp_count s) len ;;
    m <- (if len <? sp_length s then
            set_block m everything everything (block (sp_channels s) everything (between 0 len))
          else
            m <- set_block m everything (between 0 (sp_length s)) (sp_channels s) ;;
            set_block m everything (from (sp_length s)) (scalar value)) ;;
    Ok (mk_spectrum m (resolution s) (Some (sp_labels s))).

End Spectrum.
