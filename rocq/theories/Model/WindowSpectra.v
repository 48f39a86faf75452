(** Model of the measures of windows that are computed from their spectrums, and of the recommended overlap
    (/repo/sumpf/_data/_signals/_windows.py:86-167).

    Floating point numbers are exact.  [int] is the conversion of an integer to a float, [less] is the comparison of two numbers, [root2] is
    math.sqrt(2.0), [magnitude] is the absolute value of a complex number.  [junk] is the contents of freshly allocated memory.
    NumPy divides by zero with a warning and yields infinity or not a number: this outcome is [None]. *)

From Coq Require Import ZArith List Bool.
From Verif.Model Require Import Py Numpy Vector Functions Signal Fft Generators Windows.
Import ListNotations.
Open Scope Z_scope.

Section WindowSpectra.
Context {A K : Type}.
Variable O : ops A.
Variable X : transforms A K.
Variable int : Z -> A.
Variable less : A -> A -> bool.
Variable root2 : A.
Variable magnitude : K -> A.
Variable junk : Z -> A.
Variable is_zero : K -> bool.

(** The division of two numbers *)
Definition quotient (a b : A) : option A := if o_eqb O b (o_zero O) then None else Some (o_div O a b).

(** _windows.py:108-110 and 139-141, the window with appended zeros *)
Definition padded_channel (w : signal A) (factor : Z) : result (list A) :=
  let length := length w in
  v <- vector junk (factor * length) ;;
  v <- vset v (between 0 length) (first_channel w) ;;
  Ok (vfill v (from length) (o_zero O)).

(** [numpy.fft.rfft(v)] for an array with one dimension *)
Definition rfft_vector (v : list A) : result (list K) := if zlen v <? 1 then Err ValueError else Ok (x_rfft X v).

(** _windows.py:114-118, the loop [for i, m in enumerate(magnitude[1:])] from the index [k] on *)
Fixpoint first_below (threshold : A) (i : Z) (m : A) (k : Z) (rest : list A) : Z * A :=
  match rest with
  | [] => (i, m)
  | y :: rest => if less y threshold then (k, y) else first_below threshold k y (k + 1) rest
  end.

(** _windows.py:86-123, [bandwidth(oversampling)] *)
Definition bandwidth (w : signal A) (oversampling : Z) : result (option A) :=
  padded <- padded_channel w oversampling ;;
  spectrum <- rfft_vector padded ;;
  let magnitudes := map magnitude spectrum in
  m0 <- getitem magnitudes 0 ;;
  let threshold := o_div O m0 root2 in
  let '(i, m) := first_below threshold 0 (o_zero O) 0 (zdrop 1 magnitudes) in
  let y2 := o_abs O m in
  mi <- getitem magnitudes i ;;
  let y1 := o_abs O mi in
  match quotient (o_sub O threshold y1) (o_sub O y2 y1) with
  | None => Ok None
  | Some fraction =>
      let frequency_bin := o_mul O (int 2) (o_add O (int i) fraction) in
      let duration := o_div O (int (length w)) (sampling_rate w) in
      let resolution := o_div O (o_div O (o_one O) duration) (int oversampling) in
      Ok (Some (o_mul O frequency_bin resolution))
  end.

(** _windows.py:125-146, [scalloping_loss()] *)
Definition scalloping_loss (w : signal A) : result (option A) :=
  padded <- padded_channel w 2 ;;
  spectrum <- rfft_vector padded ;;
  s1 <- getitem spectrum 1 ;;
  s0 <- getitem spectrum 0 ;;
  Ok (if is_zero s0 then None else Some (magnitude (x_mul X s1 (x_inverse X s0)))).

(** [numpy.argmax(v)]: the index of the first maximum; [i] is the best index so far, [x] its element, [k] is the index of the first element of [rest] *)
Fixpoint argmax_from (i : Z) (x : A) (k : Z) (rest : list A) : Z :=
  match rest with
  | [] => i
  | y :: rest => if less x y then argmax_from k y (k + 1) rest else argmax_from i x (k + 1) rest
  end.
Definition argmax (v : list A) : result Z := match v with [] => Err ValueError | x :: rest => Ok (argmax_from 0 x 1 rest) end.

(** _windows.py:148-167, [recommended_overlap()]; [numpy.vectorize] calls the function for each overlap, the minimum of one number is this number *)
Definition recommended_overlap (w : signal A) : result Z :=
  let overlap := zseq 0 (length w) in
  af <- sequence (map (fun k => amplitude_flatness O less junk w (NInt k)) overlap) ;;
  oc <- sequence (map (fun k => overlap_correlation O w (NInt k)) overlap) ;;
  d <- vmap2 (o_sub O) af oc ;;
  argmax d.

End WindowSpectra.
