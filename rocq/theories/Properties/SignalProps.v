(** The properties C01 - C11: labels, operators, slicing, padding, shifting, reversing
    and comparing signals.  [O] stands for the arithmetic of the samples, [junk] for the
    contents of freshly allocated memory; both are arbitrary. *)

From Coq Require Import String ZArith QArith List Bool Lia ZifyBool.
From Verif.Model Require Import Py Numpy Functions Signal.
From Verif.Spec Require Import TimeSpec SliceSpec Demo.
From Verif.Proofs Require Import PyFacts NumpyFacts SliceFacts SignalAlgebra SignalShape SignalExtra SignalHelpers.
Import ListNotations.
Open Scope Z_scope.

(** * C01 Label sanitation *)

Theorem C01_sanitize_labels : forall (given : option (list string)) (number : Z), 0 <= number ->
  zlen (sanitize_labels given number) = number /\
  forall i, 0 <= i < number ->
    zth (sanitize_labels given number) i =
    Some (match given with
          | None => EmptyString
          | Some l => match zth l i with Some label => label | None => EmptyString end
          end).
Proof. exact sanitize_labels_ok. Qed.
Print Assumptions C01_sanitize_labels.

Theorem C01_signal_labels : forall A (m : arr A) rate offset given, wf m ->
  let s := mk_signal m rate offset given in
  wf_signal s /\ channels s = m /\ sampling_rate s = rate /\ TimeSpec.begins s = offset /\
  zlen (labels s) = count s /\
  forall i, 0 <= i < count s ->
    zth (labels s) i = Some (match given with
                             | None => EmptyString
                             | Some l => match zth l i with Some label => label | None => EmptyString end
                             end).
Proof. exact @mk_signal_labels. Qed.
Print Assumptions C01_signal_labels.

Example C01_example :
  sanitize_labels (Some ["a"; "b"; "c"]) 2 = ["a"; "b"] /\
  sanitize_labels (Some ["a"]) 3 = ["a"; ""; ""] /\ sanitize_labels None 2 = [""; ""].
Proof. repeat split. Qed.

(** * C02 Signal arithmetic is time aligned *)

(** What an operator makes of a sample that only the right operand has. *)
Definition alone_on_the_right {A} (O : ops A) (p : operator) (y : A) : A :=
  match p with
  | OpSub => o_sub O (o_zero O) y
  | OpDiv => o_div O (o_one O) y
  | OpAdd | OpMul | OpPow | OpMod => y
  end.

(** The Python operators. *)
Definition meaning {A} (O : ops A) (p : operator) : A -> A -> A :=
  match p with
  | OpAdd => o_add O | OpSub => o_sub O | OpMul => o_mul O
  | OpDiv => o_div O | OpPow => o_pow O | OpMod => o_mod O
  end.

Theorem C02_signal_arithmetic : forall A (O : ops A) (junk : Z -> Z -> A) (p : operator) (a b : signal A),
  wf_signal a -> wf_signal b -> 1 <= count a -> 1 <= count b ->
  exists r, signal_op O junk p a b = Ok r /\ wf_signal r /\
    sampling_rate r = sampling_rate a /\
    count r = Z.max (count a) (count b) /\
    begins r = Z.min (begins a) (begins b) /\
    ends r = Z.max (ends a) (ends b) /\
    (forall c, 0 <= c < count r -> zth (labels r) c = Some (label_of_result p)) /\
    forall c t, 0 <= c < count r -> begins r <= t < ends r ->
      at_time r c t =
      Some (combination (meaning O p) (alone_on_the_right O p) (o_zero O) (operand_at a c t) (operand_at b c t)).
Proof. exact @signal_op_ok. Qed.
Print Assumptions C02_signal_arithmetic.

Example C02_example : exists r,
  signal_op Zops Zjunk OpSub demo_ab demo_c = Ok r /\
  begins r = -1 /\ ends r = 3 /\ rows (channels r) = [[1; 2; 3 - 10; 0 - 20]; [4; 5; 6 - 10; 0 - 20]].
Proof. eexists. split; [vm_compute; reflexivity|]. repeat split. Qed.

(** * C03 Arithmetic does not depend on operand order *)

Theorem C03_commutative : forall A (O : ops A) (junk junk' : Z -> Z -> A) (p : operator) (a b : signal A),
  p = OpAdd \/ p = OpMul -> (forall x y, meaning O p x y = meaning O p y x) ->
  wf_signal a -> wf_signal b -> 1 <= count a -> 1 <= count b ->
  exists r r', signal_op O junk p a b = Ok r /\ signal_op O junk' p b a = Ok r' /\
    same_samples r r' /\ labels r = labels r' /\ (sampling_rate a = sampling_rate b -> r = r').
Proof. exact @signal_op_comm. Qed.
Print Assumptions C03_commutative.

Example C03_example : exists r, signal_op Zops Zjunk OpMul demo_ab demo_c = Ok r /\ signal_op Zops Zjunk OpMul demo_c demo_ab = Ok r /\
  rows (channels r) = [[1; 2; 30; 20]; [4; 5; 60; 20]].
Proof. eexists. split; [vm_compute; reflexivity|]. split; vm_compute; reflexivity. Qed.

(** * C04 Arithmetic with scalars and arrays, and the unary operators *)

Theorem C04_number : forall A (O : ops A) junk (p : operator) (s : signal A) (x : A), wf_signal s ->
  exists r r', signal_op_array O junk p s (scalar x) = Ok r /\ signal_op_array_right O junk p s (scalar x) = Ok r' /\
    (forall q, q = r \/ q = r' ->
       wf_signal q /\ sampling_rate q = sampling_rate s /\ labels q = labels s /\ count q = count s /\
       begins q = begins s /\ ends q = ends s) /\
    forall c t,
      at_time r c t = option_map (fun a => meaning O p a x) (at_time s c t) /\
      at_time r' c t = option_map (fun a => meaning O p x a) (at_time s c t).
Proof. exact @signal_op_number. Qed.
Print Assumptions C04_number.

(** An array that has the shape of the channels, or only one row, or only one column, or both. *)
Theorem C04_array : forall A (O : ops A) junk (p : operator) (s : signal A) (x : arr A), wf_signal s ->
  wf x -> nrows x = count s \/ nrows x = 1 -> cols x = length s \/ cols x = 1 ->
  exists r r', signal_op_array O junk p s x = Ok r /\ signal_op_array_right O junk p s x = Ok r' /\
    (forall q, q = r \/ q = r' ->
       wf_signal q /\ sampling_rate q = sampling_rate s /\ labels q = labels s /\ count q = count s /\
       begins q = begins s /\ ends q = ends s) /\
    forall c j, 0 <= c < count s -> 0 <= j < length s ->
      exists a b, at_time s c (begins s + j) = Some a /\
        el x (if nrows x =? 1 then 0 else c) (if cols x =? 1 then 0 else j) = Some b /\
        at_time r c (begins s + j) = Some (meaning O p a b) /\
        at_time r' c (begins s + j) = Some (meaning O p b a).
Proof. exact @signal_op_array_ok. Qed.
Print Assumptions C04_array.

Theorem C04_unary : forall A (O : ops A) (s : signal A), wf_signal s ->
  forall q f, (q = signal_neg O s /\ f = o_neg O) \/ (q = signal_abs O s /\ f = o_abs O) ->
    wf_signal q /\ sampling_rate q = sampling_rate s /\ labels q = labels s /\ count q = count s /\
    begins q = begins s /\ ends q = ends s /\
    forall c t, at_time q c t = option_map f (at_time s c t).
Proof. exact @signal_unary. Qed.
Print Assumptions C04_unary.

Example C04_example : exists r r',
  signal_op_array Zops Zjunk OpSub demo_ab (scalar 7) = Ok r /\ rows (channels r) = [[-6; -5; -4]; [-3; -2; -1]] /\
  signal_op_array_right Zops Zjunk OpSub demo_ab (Arr [[1; 0; 0]] 3) = Ok r' /\ rows (channels r') = [[0; -2; -3]; [-3; -5; -6]].
Proof. do 2 eexists. split; [vm_compute; reflexivity|]. split; [reflexivity|]. split; vm_compute; reflexivity. Qed.

(** * C05 Slicing keeps samples at their times and labels with their channels *)

(** Step one: [s[ca:cb, ta:tb]] with integer or omitted bounds.  The start of the time slice has to be
    within the signal (see [C05_offset_refuted]). *)
Theorem C05_slice_times : forall A (s : signal A) (ca cb ta tb : option Z),
  wf_signal s -> match ta with Some a => - length s <= a <= length s | None => True end ->
  exists r, signal_getitem s (KTuple [KSlice (option_map NInt ca) (option_map NInt cb) None;
                                      KSlice (option_map NInt ta) (option_map NInt tb) None]) = Ok r /\
    wf_signal r /\ sampling_rate r = sampling_rate s /\
    forall i t, 0 <= i < count r ->
      selected ca cb (count s) (starts_at ca (count s) + i) /\
      zth (labels r) i = zth (labels s) (starts_at ca (count s) + i) /\
      (selected ta tb (length s) (t - begins s) ->
         at_time r i t = at_time s (starts_at ca (count s) + i) t) /\
      (~ selected ta tb (length s) (t - begins s) -> at_time r i t = None).
Proof. exact @getitem_times. Qed.
Print Assumptions C05_slice_times.

(** Any positive step and arbitrary bounds. *)
Theorem C05_slice_contents : forall A (s : signal A) (ca cb ck ta tb tk : option Z),
  wf_signal s ->
  let cstep := match ck with Some k => k | None => 1 end in
  let tstep := match tk with Some k => k | None => 1 end in
  0 < cstep -> 0 < tstep ->
  exists r, signal_getitem s (KTuple [KSlice (option_map NInt ca) (option_map NInt cb) (option_map NInt ck);
                                      KSlice (option_map NInt ta) (option_map NInt tb) (option_map NInt tk)]) = Ok r /\
    wf_signal r /\ sampling_rate r = sampling_rate s /\
    (forall i, 0 <= i -> (i < count r <-> selected ca cb (count s) (starts_at ca (count s) + i * cstep))) /\
    (forall j, 0 <= j -> (j < length r <-> selected ta tb (length s) (starts_at ta (length s) + j * tstep))) /\
    (forall i, 0 <= i < count r -> zth (labels r) i = zth (labels s) (starts_at ca (count s) + i * cstep)) /\
    (forall i j, 0 <= i < count r -> 0 <= j < length r ->
       el (channels r) i j = el (channels s) (starts_at ca (count s) + i * cstep)
                                             (starts_at ta (length s) + j * tstep)) /\
    (match ta with Some a => - length s <= a <= length s | None => True end ->
     begins r = begins s + starts_at ta (length s)).
Proof. exact @getitem_slices. Qed.
Print Assumptions C05_slice_contents.

(** A float bound is the integer bound that is nearest to the same fraction of the number of
    channels or of the length. *)
Theorem C05_float_bounds : forall A (s : signal A) (x y : Q) (cb tb : option num),
  0 < count s -> 0 < length s -> (0 <= x)%Q -> (0 <= y)%Q ->
  signal_getitem s (KTuple [KSlice (Some (NFloat x)) cb None; KSlice (Some (NFloat y)) tb None]) =
  signal_getitem s (KTuple [KSlice (Some (NInt (py_round (x * inject_Z (count s))))) cb None;
                            KSlice (Some (NInt (py_round (y * inject_Z (length s))))) tb None]) /\
  signal_getitem s (KTuple [KSlice None (Some (NFloat x)) None; KSlice None (Some (NFloat y)) None]) =
  signal_getitem s (KTuple [KSlice None (Some (NInt (py_round (x * inject_Z (count s))))) None;
                            KSlice None (Some (NInt (py_round (y * inject_Z (length s))))) None]).
Proof. exact @getitem_float_bounds. Qed.
Print Assumptions C05_float_bounds.

Example C05_example : exists r, signal_getitem demo_ab (KTuple [KSlice (Some (NInt 1)) None None; KSlice (Some (NInt (-2))) None None]) = Ok r /\
  rows (channels r) = [[5; 6]] /\ labels r = ["b"%string] /\ begins r = 0.
Proof. eexists. split; [vm_compute; reflexivity|]. repeat split. Qed.

(** Without the condition on the start, samples are moved in time: [signal[:, -4:]] of three samples
    has all samples, but they are one sample earlier. *)
Theorem C05_offset_refuted : exists (s r : signal Z) t, wf_signal s /\
  signal_getitem s (KTuple [KSlice None None None; KSlice (Some (NInt (-4))) None None]) = Ok r /\
  selected (Some (-4)) None (length s) (t - begins s) /\ at_time r 0 t <> at_time s 0 t.
Proof. exact getitem_offset_refuted. Qed.
Print Assumptions C05_offset_refuted.

(** * C06 Integer indexing *)

(** Missing for the full statement: the index -1, see [C06_last_refuted]. *)
Theorem C06_integer_index_partial : forall A (s : signal A) (i : Z), wf_signal s ->
  (- count s <= i < count s -> i <> -1 ->
   exists r, signal_getitem s (KOne (KNum (NInt i))) = Ok r /\ wf_signal r /\
     sampling_rate r = sampling_rate s /\ begins r = begins s /\ ends r = ends s /\
     count r = 1 /\ zth (labels r) 0 = zth (labels s) (from_end i (count s)) /\
     forall t, at_time r 0 t = at_time s (from_end i (count s)) t) /\
  (- length s <= i < length s -> i <> -1 ->
   exists r, signal_getitem s (KTuple [KSlice None None None; KNum (NInt i)]) = Ok r /\ wf_signal r /\
     sampling_rate r = sampling_rate s /\ labels r = labels s /\ count r = count s /\
     begins r = begins s + from_end i (length s) /\ ends r = begins r + 1 /\
     forall c, at_time r c (begins r) = at_time s c (begins r)).
Proof. exact @getitem_integer. Qed.
Print Assumptions C06_integer_index_partial.

(** A float selects the channel or the sample at the nearest integer to this fraction of the way from
    the first to the last one. *)
Theorem C06_float_index : forall A (s : signal A) (q : Q), wf_signal s -> (0 <= q)%Q -> (q <= 1)%Q ->
  (1 <= count s ->
   exists r i, signal_getitem s (KOne (KNum (NFloat q))) = Ok r /\ wf_signal r /\
     nearest_integer (q * inject_Z (count s - 1)) i /\ 0 <= i < count s /\
     sampling_rate r = sampling_rate s /\ begins r = begins s /\ ends r = ends s /\
     count r = 1 /\ zth (labels r) 0 = zth (labels s) i /\
     forall t, at_time r 0 t = at_time s i t) /\
  (1 <= length s ->
   exists r i, signal_getitem s (KTuple [KSlice None None None; KNum (NFloat q)]) = Ok r /\ wf_signal r /\
     nearest_integer (q * inject_Z (length s - 1)) i /\ 0 <= i < length s /\
     sampling_rate r = sampling_rate s /\ labels r = labels s /\ count r = count s /\
     begins r = begins s + i /\ ends r = begins r + 1 /\
     forall c, at_time r c (begins r) = at_time s c (begins r)).
Proof. exact @getitem_float. Qed.
Print Assumptions C06_float_index.

Example C06_float_example : exists r, signal_getitem demo_ab (KTuple [KSlice None None None; KNum (NFloat 1)]) = Ok r /\
  rows (channels r) = [[3]; [6]].
Proof. eexists. split; vm_compute; reflexivity. Qed.

Example C06_example : exists r, signal_getitem demo_ab (KOne (KNum (NInt (-2)))) = Ok r /\ rows (channels r) = [[1; 2; 3]].
Proof. eexists. split; vm_compute; reflexivity. Qed.

(** [signal[-1]] and [signal[:, -1]] are empty for each signal. *)
Theorem C06_last_refuted : forall A (s : signal A), wf_signal s ->
  (exists r, signal_getitem s (KOne (KNum (NInt (-1)))) = Ok r /\ count r = 0) /\
  (exists r, signal_getitem s (KTuple [KSlice None None None; KNum (NInt (-1))]) = Ok r /\ length r = 0).
Proof. exact @getitem_last. Qed.
Print Assumptions C06_last_refuted.

(** * C07 index() *)

Theorem C07_index_integer : forall z n, 0 < n ->
  exists r, index (NInt z) n = Ok r /\ 0 <= r /\ (0 <= z -> r = z) /\ (z < 0 -> r < n) /\ exists k, r = z + k * n.
Proof. exact index_int_ok. Qed.
Print Assumptions C07_index_integer.

(** A float is a fraction of the length; it is rounded to a nearest integer [z], ties going to an even one. *)
Theorem C07_index_float : forall q n, 0 < n ->
  exists z r, index (NFloat q) n = Ok r /\ 0 <= r /\ (0 <= z -> r = z) /\ (z < 0 -> r < n) /\ (exists k, r = z + k * n) /\
    (inject_Z (2 * z - 1) <= 2 * (q * inject_Z n) <= inject_Z (2 * z + 1))%Q /\
    ((2 * (q * inject_Z n) == inject_Z (2 * z - 1) \/ 2 * (q * inject_Z n) == inject_Z (2 * z + 1))%Q -> Z.even z = true).
Proof. exact index_float_ok. Qed.
Print Assumptions C07_index_float.

Theorem C07_index_sequence : forall l n, 0 < n ->
  exists r, index_list l n = Ok r /\ zlen r = zlen l /\
    forall i x, zth l i = Some x -> exists y, zth r i = Some y /\ index x n = Ok y.
Proof. exact index_list_ok. Qed.
Print Assumptions C07_index_sequence.

(** Without a positive length the loop for negative indices never ends: no number of iterations suffices. *)
Theorem C07_no_termination : forall z n, z < 0 -> n <= 0 -> forall iterations, index_loop iterations z n = None.
Proof. exact (fun z n Hz Hn k => index_loop_diverges k z n Hz Hn). Qed.
Print Assumptions C07_no_termination.

Example C07_example : index (NInt (-7)) 3 = Ok 2 /\ index (NFloat (1 # 2)) 5 = Ok 2 /\ index (NFloat (- (1 # 2))) 3 = Ok 1.
Proof. repeat split. Qed.

(** * C08 Padding and cropping *)

Theorem C08_pad : forall A (junk : Z -> Z -> A) (s : signal A) (n : Z) (value : A), wf_signal s -> 0 <= n ->
  exists r, signal_pad junk s n value = Ok r /\ wf_signal r /\
    sampling_rate r = sampling_rate s /\ begins r = begins s /\ labels r = labels s /\
    count r = count s /\ length r = n /\
    forall c t, 0 <= c < count s -> begins s <= t < begins s + n ->
      at_time r c t = Some (match at_time s c t with Some x => x | None => value end).
Proof. exact @pad_ok. Qed.
Print Assumptions C08_pad.

Theorem C08_crop_after_pad : forall A (junk : Z -> Z -> A) (s : signal A) (n : Z) (v v' : A), wf_signal s -> length s <= n ->
  exists r, signal_pad junk s n v = Ok r /\ signal_pad junk r (length s) v' = Ok s.
Proof. exact @crop_after_pad. Qed.
Print Assumptions C08_crop_after_pad.

Theorem C08_pad_negative : forall A (junk : Z -> Z -> A) (s : signal A) (n : Z) (value : A), wf_signal s -> n < 0 ->
  signal_pad junk s n value = Err ValueError.
Proof. exact @pad_negative. Qed.
Print Assumptions C08_pad_negative.

Example C08_example : exists r r', signal_pad Zjunk demo_ab 5 7 = Ok r /\ rows (channels r) = [[1; 2; 3; 7; 7]; [4; 5; 6; 7; 7]] /\
  signal_pad Zjunk demo_ab 1 7 = Ok r' /\ rows (channels r') = [[1]; [4]].
Proof. do 2 eexists. split; [vm_compute; reflexivity|]. split; [reflexivity|]. split; vm_compute; reflexivity. Qed.

(** * C09 Shift modes *)

Theorem C09_shift_offset : forall A (O : ops A) junk (s : signal A) (k : Z), wf_signal s ->
  exists r, signal_shift O junk s (Some k) SHIFT_OFFSET = Ok r /\ wf_signal r /\
    sampling_rate r = sampling_rate s /\ labels r = labels s /\ count r = count s /\ length r = length s /\
    begins r = begins s + k /\ forall c t, at_time r c t = at_time s c (t - k).
Proof. exact @shift_offset_ok. Qed.
Print Assumptions C09_shift_offset.

Theorem C09_shift_none : forall A (O : ops A) junk (s : signal A), wf_signal s ->
  exists r, signal_shift O junk s None SHIFT_OFFSET = Ok r /\ wf_signal r /\
    sampling_rate r = sampling_rate s /\ labels r = labels s /\ channels r = channels s /\ begins r = 0.
Proof. exact @shift_none_ok. Qed.
Print Assumptions C09_shift_none.

Theorem C09_shift_crop : forall A (O : ops A) junk (s : signal A) (k : Z), wf_signal s ->
  exists r, signal_shift O junk s (Some k) SHIFT_CROP = Ok r /\ wf_signal r /\
    sampling_rate r = sampling_rate s /\ begins r = begins s /\ labels r = labels s /\
    count r = count s /\ length r = length s /\
    forall c t, 0 <= c < count s -> begins s <= t < ends s ->
      at_time r c t = Some (match at_time s c (t - k) with Some x => x | None => o_zero O end).
Proof. exact @shift_crop_ok. Qed.
Print Assumptions C09_shift_crop.

Theorem C09_shift_pad : forall A (O : ops A) junk (s : signal A) (k : Z), wf_signal s -> 0 <= k ->
  exists r, signal_shift O junk s (Some k) SHIFT_PAD = Ok r /\ wf_signal r /\
    sampling_rate r = sampling_rate s /\ begins r = begins s /\ labels r = labels s /\
    count r = count s /\ length r = length s + k /\
    forall c t, 0 <= c < count s -> begins s <= t < ends s + k ->
      at_time r c t = Some (match at_time s c (t - k) with Some x => x | None => o_zero O end).
Proof. exact @shift_pad_ok. Qed.
Print Assumptions C09_shift_pad.

(** A negative shift in the mode PAD appends zeros and moves nothing. *)
Theorem C09_shift_pad_negative : forall A (O : ops A) junk (s : signal A) (k : Z), wf_signal s -> k < 0 ->
  exists r, signal_shift O junk s (Some k) SHIFT_PAD = Ok r /\ wf_signal r /\
    sampling_rate r = sampling_rate s /\ begins r = begins s /\ labels r = labels s /\
    count r = count s /\ length r = length s - k /\
    forall c t, 0 <= c < count s -> begins s <= t < ends s - k ->
      at_time r c t = Some (match at_time s c t with Some x => x | None => o_zero O end).
Proof. exact @shift_pad_negative. Qed.
Print Assumptions C09_shift_pad_negative.

(** A rotation, if the shift is not larger than the signal; otherwise nothing is moved. *)
Theorem C09_shift_cycle : forall A (O : ops A) junk (s : signal A) (k : Z), wf_signal s ->
  exists r, signal_shift O junk s (Some k) SHIFT_CYCLE = Ok r /\ wf_signal r /\
    sampling_rate r = sampling_rate s /\ begins r = begins s /\ labels r = labels s /\
    count r = count s /\ length r = length s /\
    forall c t, 0 <= c < count s -> begins s <= t < ends s ->
      at_time r c t =
      if Z.abs k <=? length s then at_time s c (begins s + (t - begins s - k) mod length s)
      else at_time s c t.
Proof. exact @shift_cycle_ok. Qed.
Print Assumptions C09_shift_cycle.

(** Hence the mode CYCLE is not a rotation for every shift. *)
Theorem C09_shift_cycle_refuted : exists (s r : signal Z) k c t, wf_signal s /\
  signal_shift Zops Zjunk s (Some k) SHIFT_CYCLE = Ok r /\ 0 <= c < count s /\ begins s <= t < ends s /\
  at_time r c t <> at_time s c (begins s + (t - begins s - k) mod length s).
Proof. exact shift_cycle_refuted. Qed.
Print Assumptions C09_shift_cycle_refuted.

(** ... and a negative PAD shift does not shift. *)
Theorem C09_shift_pad_negative_refuted : exists (s r : signal Z) k c t x, wf_signal s /\
  signal_shift Zops Zjunk s (Some k) SHIFT_PAD = Ok r /\ at_time s c (t - k) = Some x /\ at_time r c t <> Some x /\
  begins r <= t < ends r.
Proof. exact shift_pad_refuted. Qed.
Print Assumptions C09_shift_pad_negative_refuted.

Example C09_example : exists r r', signal_shift Zops Zjunk demo_ab (Some (-1)) SHIFT_CYCLE = Ok r /\ rows (channels r) = [[2; 3; 1]; [5; 6; 4]] /\
  signal_shift Zops Zjunk demo_ab (Some 2) SHIFT_CROP = Ok r' /\ rows (channels r') = [[0; 0; 1]; [0; 0; 4]].
Proof. do 2 eexists. split; [vm_compute; reflexivity|]. split; [reflexivity|]. split; vm_compute; reflexivity. Qed.

(** * C10 Time reversal *)

Theorem C10_reversed : forall A (s : signal A), wf_signal s ->
  exists r, signal_reversed s = Ok r /\ wf_signal r /\
    sampling_rate r = sampling_rate s /\ labels r = labels s /\ count r = count s /\ length r = length s /\
    (forall c j, el (channels r) c j = el (channels s) c (length s - 1 - j)) /\
    signal_reversed r = Ok s.
Proof. exact @reversed_both. Qed.
Print Assumptions C10_reversed.

(** The documentation says that the values are those of the original at the negated times; the offset,
    that the method computes, mirrors about the sample number [length - 1] instead. *)
Theorem C10_mirror_time : forall A (s r : signal A), wf_signal s -> signal_reversed s = Ok r ->
  forall c t, at_time r c t = at_time s c (2 * (length s - 1) - t).
Proof. exact @reversed_times. Qed.
Print Assumptions C10_mirror_time.

Theorem C10_negated_time_refuted : exists (s r : signal Z) c t, wf_signal s /\
  signal_reversed s = Ok r /\ at_time r c t <> at_time s c (- t).
Proof. exact reversed_refuted. Qed.
Print Assumptions C10_negated_time_refuted.

Example C10_example : exists r, signal_reversed demo_ab = Ok r /\ rows (channels r) = [[3; 2; 1]; [6; 5; 4]] /\ labels r = labels demo_ab.
Proof. eexists. split; [vm_compute; reflexivity|]. split; reflexivity. Qed.

(** * C11 Equality and hashing *)

Theorem C11_equality : forall A (O : ops A) (s o : signal A), wf_signal s -> wf_signal o ->
  (signal_eqb O s o = true <->
   o_eqb O (sampling_rate s) (sampling_rate o) = true /\ begins s = begins o /\ ends s = ends o /\
   count s = count o /\ labels s = labels o /\
   forall c t x y, at_time s c t = Some x -> at_time o c t = Some y -> o_eqb O x y = true).
Proof. exact @signal_eqb_times. Qed.
Print Assumptions C11_equality.

Theorem C11_equivalence : forall A (O : ops A),
  (forall x, o_eqb O x x = true) -> (forall x y, o_eqb O x y = o_eqb O y x) ->
  (forall x y z, o_eqb O x y = true -> o_eqb O y z = true -> o_eqb O x z = true) ->
  forall a b c : signal A, wf_signal a -> wf_signal b -> wf_signal c ->
  signal_eqb O a a = true /\ signal_eqb O a b = signal_eqb O b a /\
  (signal_eqb O a b = true -> signal_eqb O b c = true -> signal_eqb O a c = true).
Proof. exact @signal_equivalence. Qed.
Print Assumptions C11_equivalence.

(** Hash values of equal signals are equal, provided that Python's hash values of equal numbers are. *)
Theorem C11_hash : forall A (O : ops A) H (hash_number : A -> H) hash_int hash_str hash_tuple (s o : signal A),
  wf_signal s -> wf_signal o -> (forall x y, o_eqb O x y = true -> hash_number x = hash_number y) ->
  signal_eqb O s o = true ->
  signal_hash hash_number hash_int hash_str hash_tuple s = signal_hash hash_number hash_int hash_str hash_tuple o.
Proof. exact @signal_hash_equal. Qed.
Print Assumptions C11_hash.

Example C11_example : signal_eqb Zops demo_ab demo_ab = true /\ signal_eqb Zops demo_ab demo_c = false /\
  signal_eqb Zops demo_ab (Signal (channels demo_ab) 48000 0 (labels demo_ab)) = false.
Proof. repeat split. Qed.
