(** Model of the bands filter: /repo/sumpf/_data/_filters/_bands.py, and of the tables, in which bands filters are stored:
    /repo/sumpf/_internal/_persistence/_filter_writers.py:119-145, 161-187, 207-405, 445-504 and _filter_readers.py:170-316.

    Frequencies and values are numbers, that have a type in Python: [is_float f] says, that a frequency is a floating point number (and not one
    of NumPy's integers), [is_real y] says, that a value is neither complex nor one of NumPy's integers.  The values are finite. *)

From Coq Require Import String ZArith List Bool.
From Verif.Model Require Import Py Functions Signal Terms Filter.
From Verif.Model Require Pcm.
Import ListNotations.
Open Scope Z_scope.

(** The parameters [interpolations] and [extrapolations]: one flag or a sequence of flags *)
Inductive flags := OneFlag (i : interpolation) | Flags (l : list interpolation).

Section Bands.
Context {K X : Type}.
Variable A : arithmetic K X.
Notation O := (k_ops A).
Notation filter := (filter K X).

(** ** Dictionaries, the keys of which are frequencies, in the order of the insertion *)
Definition dict (V : Type) : Type := list (X * V).

(** [d.get(x)] *)
Fixpoint dict_get {V} (d : dict V) (x : X) : option V :=
  match d with [] => None | (y, v) :: d => if x_eqb A y x then Some v else dict_get d x end.

(** [d[x] = v] *)
Fixpoint dict_set {V} (d : dict V) (x : X) (v : V) : dict V :=
  match d with
  | [] => [(x, v)]
  | (y, w) :: d => if x_eqb A y x then (y, v) :: d else (y, w) :: dict_set d x v
  end.

(** [sorted(d.items())], where the keys are different; [sorted(d.keys())] are the keys of the result *)
Fixpoint insert {V} (p : X * V) (d : dict V) : dict V :=
  match d with [] => [p] | q :: d' => if x_ltb A (fst p) (fst q) then p :: d else q :: insert p d' end.
Definition sorted {V} (d : dict V) : dict V := fold_right insert [] d.

(** ** The class *)

(** _bands.py:84-91, the attributes.  (The flags are stored as integers, which are converted to flags again.) *)
Record bands := MkBands {
  b_filter : filter;
  b_bands : list (dict K);
  b_interpolations : list interpolation;
  b_extrapolations : list interpolation
}.

(** _bands.py:63-70 *)
Definition extended_flags (f : flags) (n : Z) : result (list interpolation) :=
  match f with
  | OneFlag i => Ok (zrepeat i n)
  | Flags l =>
      if zlen l <? n then
        match rev l with [] => Err IndexError | i :: _ => Ok (l ++ zrepeat i (n - zlen l)) end
      else Ok l
  end.

(** _bands.py:71-74, for a sequence of labels *)
Definition extended_labels (labels : list string) (n : Z) : list string :=
  if zlen labels <? n then labels ++ zrepeat (match labels with l :: _ => l | [] => "Bands"%string end) (n - zlen labels) else labels.

(** [b[x]] *)
Definition dict_item (d : dict K) (x : X) : result K := match dict_get d x with Some v => Ok v | None => Err KeyError end.

(** _bands.py:77-83 *)
Definition bands_term (b : dict K) (i e : interpolation) : result (term K X) :=
  let fs := map fst (sorted b) in
  ys <- sequence (map (dict_item b) fs) ;;
  Ok (bands_factory fs ys i e).

(** _bands.py:36-91, the constructor, for a sequence of dictionaries *)
Definition mk_bands (b : list (dict K)) (interpolations extrapolations : flags) (labels : list string) : result bands :=
  interpolations <- extended_flags interpolations (zlen b) ;;
  extrapolations <- extended_flags extrapolations (zlen b) ;;
  let labels := extended_labels labels (zlen b) in
  tfs <- sequence (map2 (fun b ie => bands_term b (fst ie) (snd ie)) b (combine interpolations extrapolations)) ;;
  Ok (MkBands (mk_filter tfs labels) b (subseq (between 0 (zlen tfs)) interpolations) (subseq (between 0 (zlen tfs)) extrapolations)).

(** [numpy.log10] and [10.0 ** x] *)
Variables log10 exp10 : K -> K.

(** _bands.py:121-143 *)
Definition to_db (b : bands) (reference factor : K) : result bands :=
  mk_bands (map (map (fun '(f, y) => (f, o_mul O factor (log10 (o_div O y reference))))) (b_bands b))
    (Flags (b_interpolations b)) (Flags (b_extrapolations b)) (f_labels (b_filter b)).

(** _bands.py:145-162 *)
Definition from_db (b : bands) (reference factor : K) : result bands :=
  mk_bands (map (map (fun '(f, y) => (f, o_mul O reference (exp10 (o_div O y factor))))) (b_bands b))
    (Flags (b_interpolations b)) (Flags (b_extrapolations b)) (f_labels (b_filter b)).

(** ** Tables *)

(** The rows of a table: the frequency, or [None] in the only row of a table for channels without supporting points, and the values of the
    channels, or [None] for a channel, that does not have this supporting point *)
Definition table : Type := list (option X * list (option K)).

(** _filter_writers.py:133-142, the loop body for the channel number [i] *)
Definition add_channel (i : Z) (xs : list X) (ys : list K) (d : dict (list (option K))) : dict (list (option K)) :=
  let d := fold_left (fun d p =>
      match dict_get d (fst p) with
      | None => dict_set d (fst p) (zrepeat None i ++ [Some (snd p)])
      | Some band => dict_set d (fst p) (band ++ [Some (snd p)])
      end) (combine xs ys) d in
  map (fun p => if existsb (x_eqb A (fst p)) xs then p else (fst p, snd p ++ [None])) d.

(** _filter_writers.py:128-142 *)
Fixpoint add_channels (i : Z) (tfs : list (term K X)) (d : dict (list (option K))) : result (dict (list (option K))) :=
  match tfs with
  | [] => Ok d
  | Bands xs ys _ _ :: tfs => add_channels (i + 1) tfs (add_channel i xs ys d)
  | _ :: _ => Err ValueError
  end.

(** _filter_writers.py:122-145, [TableWriter.__call__]: the sorted items of the dictionary, that is passed to [_write] *)
Definition as_table (F : filter) : result table :=
  d <- add_channels 0 (transfer_functions F) [] ;;
  Ok (match d with
      | [] => if f_count F =? 0 then [] else [(None, zrepeat None (f_count F))]
      | _ => map (fun p => (Some (fst p), snd p)) (sorted d)
      end).

(** *** Text tables *)
Variable is_float : X -> bool.
Variable is_real : K -> bool.
Variable zero : X.

(** What is written in a cell of a text table: a real number, a complex number or [nan] *)
Inductive text_cell (T : Type) := CNan | CReal (x : T) | CComplex (x : T).
Arguments CNan {T}. Arguments CReal {T}. Arguments CComplex {T}.

(** The methods [_number]: _filter_writers.py:216-233, 252-269, 288-305, 324-341, 361-372 *)
Definition number {T} (native : T -> bool) (x : option T) : text_cell T :=
  match x with None => CNan | Some x => if native x then CReal x else CComplex x end.

(** _filter_writers.py:169-187, [TextTableWriter._write].  The first line is a comment.  Whether complex numbers are written as [1.0+2.0i] or
    [1.0+2.0j], and which characters are between the cells makes no difference for the reader. *)
Definition write_text (F : filter) : result (list (text_cell X * list (text_cell K))) :=
  t <- as_table F ;; Ok (map (fun r => (number is_float (fst r), map (number is_real) (snd r))) t).

(** [line[0].isdigit() or nan_mask.match(line)]: _filter_readers.py:212-213.  In the format of Gnuplot, a complex number starts with a bracket. *)
Definition starts_table (gnuplot : bool) (c : text_cell X) : bool :=
  match c with
  | CNan => true
  | CReal x => negb (x_ltb A x zero)
  | CComplex x => negb gnuplot && negb (x_ltb A x zero)
  end.

(** _filter_readers.py:214-236, the columns after the first one.  If there are fewer cells than channels, [match] is [None]. *)
Fixpoint read_columns (frequency : option X) (cells : list (text_cell K)) (all_bands : list (dict K)) : result (list (dict K)) :=
  match cells, all_bands with
  | [], [] => Ok []
  | [], _ :: _ => Err AttributeError
  | c :: cells, l =>
      let b := match l with b :: _ => b | [] => [] end in
      let b := match frequency, c with
               | Some f, CReal y | Some f, CComplex y => dict_set b f y
               | _, _ => b
               end in
      rest <- read_columns frequency cells (match l with _ :: l => l | [] => [] end) ;;
      Ok (b :: rest)
  end.

(** _filter_readers.py:209-236, the loop body for a line *)
Definition read_line (gnuplot : bool) (all_bands : list (dict K)) (line : text_cell X * list (text_cell K)) : result (list (dict K)) :=
  if negb (starts_table gnuplot (fst line)) then Err ValueError
  else
    frequency <- (match fst line with CReal x => Ok (Some x) | CNan => Ok None | CComplex _ => Err OSError end) ;;
    read_columns frequency (snd line) all_bands.

(** _filter_readers.py:191-239, [TableReader.__call__] *)
Definition read_text (gnuplot : bool) (path : string) (lines : list (text_cell X * list (text_cell K))) : result bands :=
  b <- for_each lines (read_line gnuplot) [] ;;
  mk_bands b (OneFlag Logarithmic) (OneFlag StairsLin) (map (Pcm.file_label path) (zseq 1 (zlen b))).

(** *** CSV tables: the labels and the rows *)

(** _filter_writers.py:388-405 *)
Definition write_csv (F : filter) : result (list string * table) := t <- as_table F ;; Ok (f_labels F, t).

(** _filter_readers.py:272-281 *)
Definition process_row (b : list (dict K)) (row : option X * list (option K)) : list (dict K) :=
  let b := b ++ zrepeat [] (zlen (snd row) - zlen b) in
  match fst row with
  | None => b
  | Some f =>
      map2 (fun v d => match v with Some y => dict_set d f y | None => d end) (snd row) b ++ zdrop (zlen (snd row)) b
  end.

(** _filter_readers.py:248-270, for a file with labels: the attempt to read the first row as numbers fails after the dictionaries have been
    created. *)
Definition read_csv (file : list string * table) : result bands :=
  let b := fold_left process_row (snd file) (zrepeat [] (zlen (fst file))) in
  mk_bands b (OneFlag Logarithmic) (OneFlag StairsLin) (fst file).

(** *** NumPy files; not a number is [None] *)

(** _filter_writers.py:462-469, 489-497: the number of columns for the channels, and the array *)
Definition array_columns (t : table) : Z := match t with [] => 1 | _ => fold_right Z.max 0 (map (fun r => zlen (snd r)) t) end.
Definition as_array (t : table) : result table :=
  sequence (map (fun r => if zlen (snd r) =? array_columns t then Ok r else Err ValueError) t).

(** _filter_writers.py:451-471, 478-504; the files: the number of columns and the rows, for npz files also the flags and the labels *)
Definition write_npy (F : filter) : result (Z * table) := t <- as_table F ;; a <- as_array t ;; Ok (array_columns t, a).
Definition flags_of (F : filter) : list (interpolation * interpolation) :=
  flat_map (fun t => match t with Bands _ _ i e => [(i, e)] | _ => [] end) (transfer_functions F).
Definition write_npz (F : filter) : result (Z * table * list (interpolation * interpolation) * list string) :=
  f <- write_npy F ;; Ok (f, flags_of F, f_labels F).

(** _filter_readers.py:309-312, [{f: s for f, s in zip(frequencies, c) if not numpy.isnan(s)}] for each channel.  (Rows without a frequency, in
    which there are values, are left out.) *)
Definition array_bands (f : Z * table) : list (dict K) :=
  map (fun c => fold_left (fun d r => match fst r, zth (snd r) c with Some f, Some (Some y) => dict_set d f y | _, _ => d end) (snd f) [])
    (zseq 0 (fst f)).

(** _filter_readers.py:288-316 *)
Definition read_npy (path : string) (f : Z * table) : result bands :=
  mk_bands (array_bands f) (OneFlag Linear) (OneFlag StairsLin) (map (Pcm.file_label path) (zseq 1 (fst f))).
Definition read_npz (f : Z * table * list (interpolation * interpolation) * list string) : result bands :=
  let '(a, ie, labels) := f in
  mk_bands (array_bands a) (Flags (map fst ie)) (Flags (map snd ie)) labels.

End Bands.
Arguments CNan {T}. Arguments CReal {T}. Arguments CComplex {T}.
