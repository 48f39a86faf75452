(** Model of /repo/sumpf/_blocks/_concatenate.py for signals.  The branches for spectrograms
    are in CubeBlocks.v.  The methods add, remove and replace (lines 148-184) are the
    same as those of Merge (Merge.v). *)

From Coq Require Import String DecimalString ZArith List Bool.
From Verif.Model Require Import Py Numpy Functions Signal.
Import ListNotations.
Open Scope Z_scope.

(** _concatenate.py:63-70: the start and stop sample of each data set. *)
Fixpoint spans {D} (offset length : D -> Z) (index : Z) (data : list D) : list ((Z * Z) * D) :=
  match data with
  | [] => []
  | s :: t =>
      let start := index + offset s in
      let stop := start + length s in
      ((start, stop), s) :: spans offset length stop t
  end.

(** _concatenate.py:71, [indices.sort(key=lambda t: (t[0], t[1]))]; Python's sort is stable. *)
Definition span_le (a b : Z * Z) : bool := (fst a <? fst b) || ((fst a =? fst b) && (snd a <=? snd b)).
Fixpoint insert_span {D} (x : (Z * Z) * D) (l : list ((Z * Z) * D)) : list ((Z * Z) * D) :=
  match l with
  | [] => [x]
  | y :: t => if span_le (fst x) (fst y) then x :: y :: t else y :: insert_span x t
  end.
Definition sort_spans {D} (l : list ((Z * Z) * D)) : list ((Z * Z) * D) := fold_right insert_span [] l.

(** [str(n)] for a non-negative integer. *)
Definition decimal (n : Z) : string := NilEmpty.string_of_uint (N.to_uint (Z.to_N n)).

Definition concatenation_labels (n : Z) : list string :=
  map (fun i => String.append "Concatenation " (decimal i)) (zseq 1 n).

Section Concatenate.
Context {A : Type}.
Variable O : ops A.
Variable junk : Z -> Z -> A.

(** [m[r, c] += src] *)
Definition add_block (m : arr A) (r c : bounds) (src : arr A) : result (arr A) :=
  ufunc2_into (o_add O) (block m r c) src m r c.

(** The loop body _concatenate.py:99-134 for signals; the state is the array and [last_index]. *)
Definition concatenate_step (offset number_of_channels : Z) (st : arr A * Z)
  (item : ((Z * Z) * signal A) * ((Z * Z) * signal A)) : result (arr A * Z) :=
  let '(m, last_index) := st in
  let '(((start, stop), s), ((_, previous_stop), _)) := item in
  let d := channels s in
  let start := start - offset in
  let stop := stop - offset in
  let l := nrows d in
  let last_index := Z.max last_index (previous_stop - offset) in
  let copy m start d :=
    m <- set_block m (between 0 l) (between start stop) d ;;
    m <- (if nrows d <? number_of_channels then
            set_block m (from l) (between start stop) (scalar (o_zero O))
          else Ok m) ;;
    Ok (m, last_index) in
  if start <? last_index then
    if stop <=? last_index then
      m <- add_block m (between 0 l) (between start (start + cols d)) d ;;
      Ok (m, last_index)
    else
      m <- add_block m (between 0 l) (between start last_index) (block d everything (between 0 (last_index - start))) ;;
      copy m last_index (block d everything (from (last_index - start)))
  else if last_index <? start then
    m <- set_block m everything (between last_index start) (scalar (o_zero O)) ;;
    copy m start d
  else copy m start d.

(** _concatenate.py:50-146 for signals. *)
Definition concatenate_signals (data : list (signal A)) : result (signal A) :=
  match data with
  | [] => Err RuntimeError
  | [s] => Ok s
  | first :: _ =>
      let number_of_channels := zmaximum 0 (map count data) in
      match sort_spans (spans offset length 0 data) with
      | [] => Err IndexError
      | (((start, stop), d) :: others) as indices =>
          let offset := zminimum start (map (fun i => fst (fst i)) indices) in
          let len := zmaximum stop (map (fun i => snd (fst i)) indices) - offset in
          m <- allocate junk number_of_channels len ;;
          let c := between (start - offset) (stop - offset) in
          m <- set_block m (between 0 (nrows (channels d))) c (channels d) ;;
          m <- (if nrows (channels d) <? number_of_channels then
                  set_block m (from (nrows (channels d))) c (scalar (o_zero O))
                else Ok m) ;;
          st <- for_each (combine others indices) (concatenate_step offset number_of_channels) (m, 0) ;;
          Ok (mk_signal (fst st) (sampling_rate first) offset (Some (concatenation_labels number_of_channels)))
      end
  end.

End Concatenate.
