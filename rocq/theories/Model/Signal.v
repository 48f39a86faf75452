(** Model of /repo/sumpf/_data/_signals/_signal.py and /repo/sumpf/_data/_sampled_data.py:
    construction, slicing, comparison, operators, padding and shifting of signals.

    The sample type [A] is arbitrary; its arithmetic is a parameter ([ops]).  [junk] is
    the contents of freshly allocated memory.  The signal processing methods are
    modelled in Convolution.v and Fourier.v. *)

From Coq Require Import String ZArith List Bool.
From Verif.Model Require Import Py Numpy Functions.
Import ListNotations.
Open Scope string_scope.
Open Scope list_scope.
Open Scope Z_scope.

(** The element-wise NumPy functions that the operators use. *)
Record ops (A : Type) := Ops {
  o_zero : A;              (* 0.0 *)
  o_one : A;               (* 1.0 *)
  o_add : A -> A -> A;     (* numpy.add *)
  o_sub : A -> A -> A;     (* numpy.subtract *)
  o_mul : A -> A -> A;     (* numpy.multiply *)
  o_div : A -> A -> A;     (* numpy.true_divide *)
  o_pow : A -> A -> A;     (* numpy.power *)
  o_mod : A -> A -> A;     (* numpy.mod *)
  o_neg : A -> A;          (* numpy.negative *)
  o_abs : A -> A;          (* numpy.fabs *)
  o_eqb : A -> A -> bool;  (* == *)
}.
Arguments Ops {A}. Arguments o_zero {A}. Arguments o_one {A}. Arguments o_add {A}.
Arguments o_sub {A}. Arguments o_mul {A}. Arguments o_div {A}. Arguments o_pow {A}.
Arguments o_mod {A}. Arguments o_neg {A}. Arguments o_abs {A}. Arguments o_eqb {A}.

(** The attributes of a signal: _signal.py:91-93, _sampled_data.py:31-33. *)
Record signal (A : Type) := Signal {
  channels : arr A;
  sampling_rate : A;
  offset : Z;
  labels : list string;
}.
Arguments Signal {A}. Arguments channels {A}. Arguments sampling_rate {A}.
Arguments offset {A}. Arguments labels {A}.

(** Well formed: what the constructor establishes, when it is given a proper array. *)
Definition wf_signal {A} (s : signal A) : Prop :=
  wf (channels s) /\ zlen (labels s) = nrows (channels s).

(** _sampled_data.py:39-44, [len(signal)] *)
Definition count {A} (s : signal A) : Z := nrows (channels s).
(** _sampled_data.py:161-166 *)
Definition length {A} (s : signal A) : Z := cols (channels s).

(** _signal.py:82-93 and _sampled_data.py:26-33, the constructor. *)
Definition mk_signal {A} (channels : arr A) (rate : A) (offset : Z) (labels : option (list string)) : signal A :=
  Signal channels rate offset (sanitize_labels labels (nrows channels)).

Section Signal.
Context {A : Type}.
Variable O : ops A.
Variable junk : Z -> Z -> A.

(** ** Slicing: _signal.py:99-120 *)

(** [self._channels[slices]] for a tuple of two slices. *)
Definition channels_slice (m : arr A) (c t : slice) : result (arr A) :=
  r <- getslice (rows m) c ;;
  r' <- sequence (map (fun x => getslice x t) r) ;;
  if slice_step t =? 0 then Err ValueError
  else Ok (Arr r' (slice_count t (cols m))).

Definition signal_getitem (s : signal A) (k : key) : result (signal A) :=
  match k with
  | KOne k1 =>
      c <- key_to_slice k1 (count s) ;;
      m <- channels_slice (channels s) c (Slice None None None) ;;
      l <- getslice (labels s) c ;;
      Ok (mk_signal m (sampling_rate s) (offset s) (Some l))
  | KTuple ks =>
      sl <- keys_to_slices ks [count s; length s] ;;
      t <- getitem sl 1 ;;
      let o := match sl_start t with
               | None => offset s
               | Some i => if i =? 0 then offset s
                           else if i <? 0 then offset s + (length s + i)
                           else offset s + i
               end in
      c <- getitem sl 0 ;;
      m <- channels_slice (channels s) c t ;;
      l <- getslice (labels s) c ;;
      Ok (mk_signal m (sampling_rate s) o (Some l))
  end.

(** ** Comparison: _signal.py:150-162, _sampled_data.py:46-64 *)

Definition any_different (a b : arr A) : bool :=
  existsb (fun p => existsb (fun q => negb (o_eqb O (fst q) (snd q))) (combine (fst p) (snd p)))
          (combine (rows a) (rows b)).

Fixpoint labels_eqb (l m : list string) : bool :=
  match l, m with
  | [], [] => true
  | a :: l', b :: m' => String.eqb a b && labels_eqb l' m'
  | _, _ => false
  end.

(** _sampled_data.py:46-54 *)
Definition sampled_eqb (c1 : arr A) (l1 : list string) (c2 : arr A) (l2 : list string) : bool :=
  if negb ((nrows c1 =? nrows c2) && (cols c1 =? cols c2)) then false
  else if any_different c1 c2 then false
  else if negb (labels_eqb l1 l2) then false
  else true.

(** _signal.py:150-158 (for another signal; everything else is unequal) *)
Definition signal_eqb (s t : signal A) : bool :=
  if negb (o_eqb O (sampling_rate s) (sampling_rate t)) then false
  else if negb (offset s =? offset t) then false
  else sampled_eqb (channels s) (labels s) (channels t) (labels t).

(** _sampled_data.py:60-64 and _signal.py:160-162; Python's hash functions for the components are parameters. *)
Definition signal_hash {H} (hash_number : A -> H) (hash_int : Z -> H) (hash_str : string -> H) (hash_tuple : list H -> H)
  (s : signal A) : H :=
  let m := channels s in
  hash_tuple
    [ hash_tuple [ hash_tuple [hash_int (nrows m); hash_int (cols m)];
                   hash_tuple (map hash_number (concat (rows m)));
                   hash_tuple (map hash_str (labels s)) ];
      hash_number (sampling_rate s);
      hash_int (offset s) ].

(** ** Unary operators *)

(** _signal.py:168-177; the freshly allocated output array is overwritten completely. *)
Definition signal_abs (s : signal A) : signal A :=
  mk_signal (ufunc1 (o_abs O) (channels s)) (sampling_rate s) (offset s) (Some (labels s)).

(** _signal.py:194-203 *)
Definition signal_neg (s : signal A) : signal A :=
  mk_signal (ufunc1 (o_neg O) (channels s)) (sampling_rate s) (offset s) (Some (labels s)).

(** _signal.py:179-192 *)
Definition signal_reversed (s : signal A) : result (signal A) :=
  m <- channels_slice (channels s) (Slice None None None) (Slice None None (Some (-1))) ;;
  Ok (mk_signal m (sampling_rate s) (length s - offset s - 1) (Some (labels s))).

(** ** Binary operators *)

(** _signal.py:895-901 *)
Definition algebra_overlap (f : A -> A -> A) (label : string) (s o : signal A) : result (signal A) :=
  m <- allocate junk (count s) (length s) ;;
  m <- ufunc2_into f (channels s) (channels o) m everything everything ;;
  Ok (mk_signal m (sampling_rate s) (offset s) (Some (zrepeat label (count s)))).

(** _signal.py:903-909 *)
Definition algebra_self_one (f : A -> A -> A) (label : string) (s o : signal A) : result (signal A) :=
  m <- allocate junk (count o) (length o) ;;
  v <- row (channels s) 0 ;;
  m <- ufunc2_into f v (channels o) m everything everything ;;
  Ok (mk_signal m (sampling_rate s) (offset s) (Some (zrepeat label (count o)))).

(** _signal.py:911-917 *)
Definition algebra_other_one (f : A -> A -> A) (label : string) (s o : signal A) : result (signal A) :=
  m <- allocate junk (count s) (length s) ;;
  v <- row (channels o) 0 ;;
  m <- ufunc2_into f (channels s) v m everything everything ;;
  Ok (mk_signal m (sampling_rate s) (offset s) (Some (zrepeat label (count s)))).

(** _signal.py:919-967 *)
Definition algebra_different_shapes (f : A -> A -> A) (pivot : option A) (label : string) (s o : signal A)
  : result (signal A) :=
  (* allocate the channels array *)
  let start := Z.min (offset s) (offset o) in
  let stop := Z.max (offset s + length s) (offset o + length o) in
  let len := stop - start in
  let channelcount := Z.max (count s) (count o) in
  m <- allocate junk channelcount len ;;
  (* copy the two signals *)
  m <- set_block m everything everything (scalar (o_zero O)) ;;
  let s_cols := between (offset s - start) (offset s + length s - start) in
  m <- set_block m (between 0 (count s)) s_cols (channels s) ;;
  m <- (if count s =? 1 then
          for_each (zseq 1 (nrows m - 1))
                   (fun m c => v <- row (channels s) 0 ;; set_row_block m c s_cols v) m
        else Ok m) ;;
  let o_cols := between (offset o - start) (offset o + length o - start) in
  m <- (match pivot with
        | None =>
            m <- set_block m (between 0 (count o)) o_cols (channels o) ;;
            if count o =? 1 then
              for_each (zseq 1 (nrows m - 1))
                       (fun m c => v <- row (channels o) 0 ;; set_row_block m c o_cols v) m
            else Ok m
        | Some p =>
            m <- ufunc2_into f (scalar p) (channels o) m (between 0 (count o)) o_cols ;;
            if count o =? 1 then
              for_each (zseq 1 (nrows m - 1))
                       (fun m c => v <- row m 0 ;; set_row_block m c o_cols (block v everything o_cols)) m
            else Ok m
        end) ;;
  (* apply the function to the overlapping parts of the two signals *)
  let overlap_start := Z.max (offset s) (offset o) in
  let overlap_stop := Z.min (offset s + length s) (offset o + length o) in
  let s_part := between (overlap_start - offset s) (overlap_stop - offset s) in
  let o_part := between (overlap_start - offset o) (overlap_stop - offset o) in
  let m_part := between (overlap_start - start) (overlap_stop - start) in
  m <- (if overlap_start <? overlap_stop then
          if count s =? 1 then
            v <- row (channels s) 0 ;;
            ufunc2_into f (block v everything s_part) (block (channels o) everything o_part) m everything m_part
          else if count o =? 1 then
            v <- row (channels o) 0 ;;
            ufunc2_into f (block (channels s) everything s_part) (block v everything o_part) m everything m_part
          else
            let n := Z.min (count s) (count o) in
            ufunc2_into f (block (channels s) (between 0 n) s_part) (block (channels o) (between 0 n) o_part)
                        m (between 0 n) m_part
        else Ok m) ;;
  (* assemble and return the result signal *)
  Ok (mk_signal m (sampling_rate s) start (Some (zrepeat label channelcount))).

(** _signal.py:856-872, the dispatch for another signal. *)
Definition algebra_signal (f : A -> A -> A) (pivot : option A) (label : string) (s o : signal A) : result (signal A) :=
  if (count s =? count o) && (length s =? length o) && (offset s =? offset o) then algebra_overlap f label s o
  else if (count s =? 1) && (length s =? length o) && (offset s =? offset o) then algebra_self_one f label s o
  else if (count o =? 1) && (length s =? length o) && (offset s =? offset o) then algebra_other_one f label s o
  else algebra_different_shapes f pivot label s o.

(** _signal.py:969-979, the other operand is a number or an array ([scalar x] for a number). *)
Definition algebra_array (f : A -> A -> A) (s : signal A) (x : arr A) : result (signal A) :=
  m <- allocate junk (count s) (length s) ;;
  m <- ufunc2_into f (channels s) x m everything everything ;;
  Ok (mk_signal m (sampling_rate s) (offset s) (Some (labels s))).

(** _signal.py:878-893, the reflected operators: the signal is the right operand. *)
Definition algebra_array_right (f : A -> A -> A) (s : signal A) (x : arr A) : result (signal A) :=
  m <- allocate junk (count s) (length s) ;;
  m <- ufunc2_into f x (channels s) m everything everything ;;
  Ok (mk_signal m (sampling_rate s) (offset s) (Some (labels s))).

(** The operators: _sampled_data.py:99-137, _signal.py:209-225. *)
Inductive operator := OpAdd | OpSub | OpMul | OpDiv | OpPow | OpMod.

Definition op_function (p : operator) : A -> A -> A :=
  match p with
  | OpAdd => o_add O | OpSub => o_sub O | OpMul => o_mul O
  | OpDiv => o_div O | OpPow => o_pow O | OpMod => o_mod O
  end.
Definition op_pivot (p : operator) : option A :=
  match p with OpSub => Some (o_zero O) | OpDiv => Some (o_one O) | _ => None end.
Definition op_label (p : operator) : string :=
  match p with
  | OpAdd => "Sum" | OpSub => "Difference" | OpMul => "Product"
  | OpDiv => "Quotient" | OpPow => "Power" | OpMod => "Modulo"
  end.

(** [s op o] for two signals *)
Definition signal_op (p : operator) (s o : signal A) : result (signal A) :=
  algebra_signal (op_function p) (op_pivot p) (op_label p) s o.
(** [s op x] for a number or an array *)
Definition signal_op_array (p : operator) (s : signal A) (x : arr A) : result (signal A) :=
  algebra_array (op_function p) s x.
(** [x op s] for a number or an array *)
Definition signal_op_array_right (p : operator) (s : signal A) (x : arr A) : result (signal A) :=
  algebra_array_right (op_function p) s x.

(** ** Padding: _signal.py:301-321 *)
Definition signal_pad (s : signal A) (len : Z) (value : A) : result (signal A) :=
  if len =? length s then Ok s
  else
    m <- allocate junk (count s) len ;;
    m <- (if len <? length s then
            set_block m everything everything (block (channels s) everything (between 0 len))
          else
            m <- set_block m everything (between 0 (length s)) (channels s) ;;
            set_block m everything (from (length s)) (scalar value)) ;;
    Ok (mk_signal m (sampling_rate s) (offset s) (Some (labels s))).

(** ** Shifting: _signal.py:323-376, the modes are _internal/_enums.py ShiftMode *)
Inductive shift_mode := SHIFT_OFFSET | SHIFT_CROP | SHIFT_PAD | SHIFT_CYCLE.

Definition signal_shift (s : signal A) (shift : option Z) (mode : shift_mode) : result (signal A) :=
  match shift with
  | Some 0 => Ok s
  | _ =>
      match mode with
      | SHIFT_OFFSET =>
          match shift with
          | None => Ok (mk_signal (channels s) (sampling_rate s) 0 (Some (labels s)))
          | Some k => Ok (mk_signal (channels s) (sampling_rate s) (offset s + k) (Some (labels s)))
          end
      | _ =>
          match shift with
          | None => Err TypeError
          | Some k =>
              m <- (match mode with
                    | SHIFT_PAD =>
                        m <- allocate junk (count s) (length s + Z.abs k) ;;
                        if k <? 0 then
                          m <- set_block m everything (between 0 (length s)) (channels s) ;;
                          set_block m everything (from (length s)) (scalar (o_zero O))
                        else
                          m <- set_block m everything (between 0 k) (scalar (o_zero O)) ;;
                          set_block m everything (from k) (channels s)
                    | SHIFT_CYCLE =>
                        m <- allocate junk (count s) (length s) ;;
                        m <- set_block m everything (between 0 k) (block (channels s) everything (from (- k))) ;;
                        set_block m everything (from k) (block (channels s) everything (between 0 (- k)))
                    | _ (* CROP *) =>
                        m <- allocate junk (count s) (length s) ;;
                        if k <? 0 then
                          m <- set_block m everything (between 0 k) (block (channels s) everything (from (- k))) ;;
                          set_block m everything (from k) (scalar (o_zero O))
                        else
                          m <- set_block m everything (between 0 k) (scalar (o_zero O)) ;;
                          set_block m everything (from k) (block (channels s) everything (between 0 (- k)))
                    end) ;;
              Ok (mk_signal m (sampling_rate s) (offset s) (Some (labels s)))
          end
      end
  end.

End Signal.
