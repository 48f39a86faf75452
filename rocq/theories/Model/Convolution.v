(** Model of /repo/sumpf/_internal/_convolution.py and of Signal.convolve and Signal.correlate
    (/repo/sumpf/_data/_signals/_signal.py:661-726 and 981-1005).

    [junk] is the contents of freshly allocated memory. *)

From Coq Require Import String ZArith List Bool.
From Verif.Model Require Import Py Numpy Vector Functions Signal Fft.
Import ListNotations.
Open Scope string_scope.
Open Scope list_scope.
Open Scope Z_scope.

(** _internal/_enums.py:28-46, ConvolutionMode *)
Inductive convolution_mode := FULL | SAME | VALID | SPECTRUM | SPECTRUM_PADDED.

Section Convolution.
Context {A K : Type}.
Variable O : ops A.
Variable X : transforms A K.
Variable junk : Z -> Z -> A.

(** [for ..., channel in zip(..., channels): channel[:] = ...] with the list of the computed rows *)
Fixpoint fill_rows (computed : list (result (list A))) (channels : list (list A)) : result (list (list A)) :=
  match computed, channels with
  | r :: computed', channel :: channels' =>
      x <- r ;;
      x <- vset channel everything x ;;
      t <- fill_rows computed' channels' ;;
      Ok (x :: t)
  | _, _ => Ok channels
  end.

(** [allocate_array(shape=(r, c))] and such a loop *)
Definition rows_of (r c : Z) (computed : list (result (list A))) : result (arr A) :=
  m <- allocate junk r c ;;
  rs <- fill_rows computed (rows m) ;;
  Ok (Arr rs c).

(** ** Padding and cyclic shifting: _convolution.py:590-719 *)

(** _convolution.py:590-595 *)
Definition pad_vector (v : list A) (v_length padded_length : Z) : result (list A) :=
  r <- vector (junk 0) padded_length ;;
  r <- vset r (between 0 v_length) v ;;
  Ok (vfill r (from v_length) (o_zero O)).

(** _convolution.py:598-603 *)
Definition shift_vector (v : list A) (v_length padded_length : Z) : result (list A) :=
  r <- vector (junk 0) padded_length ;;
  let r := vfill r (between 0 (- v_length)) (o_zero O) in
  vset r (from (- v_length)) v.

(** _convolution.py:606-613 *)
Definition pad_and_shift_vector (v : list A) (v_length padded_length shift : Z) : result (list A) :=
  let v_length1 := v_length + shift in
  r <- vector (junk 0) padded_length ;;
  let r := vfill r (between 0 shift) (o_zero O) in
  r <- vset r (between shift v_length1) v ;;
  Ok (vfill r (from v_length1) (o_zero O)).

(** _convolution.py:616-621 *)
Definition cycle_vector (v : list A) (v_length shift : Z) : result (list A) :=
  r <- vector (junk 0) v_length ;;
  r <- vset r (between 0 shift) (subseq (from (- shift)) v) ;;
  vset r (from shift) (subseq (between 0 (- shift)) v).

(** _convolution.py:624-637 *)
Definition pad_and_cycle_vector (v : list A) (v_length padded_length shift : Z) : result (list A) :=
  r <- vector (junk 0) padded_length ;;
  r <- (if shift <? v_length then
          let v_length1 := v_length + shift in
          r <- vset r (between 0 v_length1) (subseq (from (- shift)) v) ;;
          Ok (vfill r (between v_length1 shift) (o_zero O))
        else Ok (vfill r (between 0 shift) (o_zero O))) ;;
  vset r (from shift) (subseq (between 0 (- shift)) v).

(** _convolution.py:640-653 *)
Definition shift_and_cycle_vector (v : list A) (v_length padded_length shift : Z) : result (list A) :=
  r <- vector (junk 0) padded_length ;;
  r <- vset r (between 0 shift) (subseq (from (- shift)) v) ;;
  if shift <? v_length then
    let v_length1 := v_length - shift in
    let r := vfill r (between shift (- v_length1)) (o_zero O) in
    vset r (from (- v_length1)) (subseq (between 0 (- shift)) v)
  else Ok (vfill r (from shift) (o_zero O)).

(** _convolution.py:656-661 *)
Definition pad_matrix (m : arr A) (m_length n padded_length : Z) : result (arr A) :=
  r <- allocate junk n padded_length ;;
  r <- set_block r everything (between 0 m_length) (block m (between 0 n) everything) ;;
  set_block r everything (from m_length) (scalar (o_zero O)).

(** _convolution.py:664-669 *)
Definition shift_matrix (m : arr A) (m_length n padded_length : Z) : result (arr A) :=
  r <- allocate junk n padded_length ;;
  r <- set_block r everything (between 0 (- m_length)) (scalar (o_zero O)) ;;
  set_block r everything (from (- m_length)) (block m (between 0 n) everything).

(** _convolution.py:672-679 *)
Definition pad_and_shift_matrix (m : arr A) (m_length n padded_length shift : Z) : result (arr A) :=
  let m_length1 := m_length + shift in
  r <- allocate junk n padded_length ;;
  r <- set_block r everything (between 0 shift) (scalar (o_zero O)) ;;
  r <- set_block r everything (between shift m_length1) (block m (between 0 n) everything) ;;
  set_block r everything (from m_length1) (scalar (o_zero O)).

(** _convolution.py:682-687 *)
Definition cycle_matrix (m : arr A) (m_length n shift : Z) : result (arr A) :=
  r <- allocate junk n m_length ;;
  r <- set_block r everything (between 0 shift) (block m (between 0 n) (from (- shift))) ;;
  set_block r everything (from shift) (block m (between 0 n) (between 0 (- shift))).

(** _convolution.py:690-703 *)
Definition pad_and_cycle_matrix (m : arr A) (m_length n padded_length shift : Z) : result (arr A) :=
  r <- allocate junk n padded_length ;;
  r <- (if shift <? m_length then
          let m_length1 := m_length + shift in
          r <- set_block r everything (between 0 m_length1) (block m (between 0 n) (from (- shift))) ;;
          set_block r everything (between m_length1 shift) (scalar (o_zero O))
        else set_block r everything (between 0 shift) (scalar (o_zero O))) ;;
  set_block r everything (from shift) (block m (between 0 n) (between 0 (- shift))).

(** _convolution.py:706-719 *)
Definition shift_and_cycle_matrix (m : arr A) (m_length n padded_length shift : Z) : result (arr A) :=
  r <- allocate junk n padded_length ;;
  r <- set_block r everything (between 0 shift) (block m (between 0 n) (from (- shift))) ;;
  if shift <? m_length then
    let m_length1 := m_length - shift in
    r <- set_block r everything (between shift (- m_length1)) (scalar (o_zero O)) ;;
    set_block r everything (from (- m_length1)) (block m (between 0 n) (between 0 (- shift)))
  else set_block r everything (from shift) (scalar (o_zero O)).

(** ** Products of spectrums *)

(** [channels = allocate_array(shape=(r, rl)); channels[:] = numpy.fft.irfft(p)[:, part]] *)
Definition inverse_into (r rl : Z) (p : arr K) (part : bounds) : result (arr A) :=
  m <- allocate junk r rl ;;
  i <- irfft_rows X p ;;
  set_block m everything everything (block i everything part).

(** [rfft(m)], [rfft(v)] of a matrix and a vector; the function [f] is applied to the first and [g] to the second one; the product. *)
Definition vector_product (f g : K -> K) (m : arr A) (v : list A) : result (arr K) :=
  ms <- rfft_rows X m ;;
  vs <- rfft_rows X (Arr [v] (zlen v)) ;;
  ufunc2 (x_mul X) (ufunc1 f ms) (ufunc1 g vs) (nrows m) (cols ms).

(** The same with the vector's spectrum on the left side of the multiplication *)
Definition vector_product2 (f g : K -> K) (v : list A) (m : arr A) : result (arr K) :=
  vs <- rfft_rows X (Arr [v] (zlen v)) ;;
  ms <- rfft_rows X m ;;
  ufunc2 (x_mul X) (ufunc1 f vs) (ufunc1 g ms) (nrows m) (cols vs).

(** The same for two matrices, both of which are cut to [c] rows *)
Definition matrix_product (f g : K -> K) (a b : arr A) (c : Z) : result (arr K) :=
  as_ <- rfft_rows X (block a (between 0 c) everything) ;;
  bs <- rfft_rows X (block b (between 0 c) everything) ;;
  ufunc2 (x_mul X) (ufunc1 f as_) (ufunc1 g bs) (nrows as_) (cols as_).

Definition same (k : K) : K := k.

(** ** Convolution

    Each function returns the channels and the offset of the result; [oa] and [ob] are the elements of [offsets]. *)

(** _convolution.py:55-66, FullConvolution.with_vector *)
Definition full_convolution_vector (m : arr A) (v : list A) (oa ob : Z) : result (arr A * Z) :=
  ch <- rows_of (nrows m) (cols m + zlen v - 1) (map (fun c => convolve O c v Full) (rows m)) ;;
  Ok (ch, oa + ob).

(** _convolution.py:68-80, FullConvolution.with_matrix *)
Definition full_convolution_matrix (a b : arr A) (oa ob : Z) : result (arr A * Z) :=
  ch <- rows_of (Z.min (nrows a) (nrows b)) (cols a + cols b - 1) (map2 (fun c d => convolve O c d Full) (rows a) (rows b)) ;;
  Ok (ch, oa + ob).

(** _convolution.py:88-100, SameConvolution.with_vector *)
Definition same_convolution_vector (m : arr A) (v : list A) (oa ob : Z) : result (arr A * Z) :=
  let ml := cols m in
  let vl := zlen v in
  ch <- rows_of (nrows m) (Z.max ml vl) (map (fun c => convolve O c v Same) (rows m)) ;;
  Ok (ch, oa + ob + (Z.min ml vl - 1) / 2).

(** _convolution.py:102-114, SameConvolution.with_matrix *)
Definition same_convolution_matrix (a b : arr A) (oa ob : Z) : result (arr A * Z) :=
  let al := cols a in
  let bl := cols b in
  ch <- rows_of (Z.min (nrows a) (nrows b)) (Z.max al bl) (map2 (fun c d => convolve O c d Same) (rows a) (rows b)) ;;
  Ok (ch, oa + ob + (Z.min al bl - 1) / 2).

(** _convolution.py:122-134, ValidConvolution.with_vector *)
Definition valid_convolution_vector (m : arr A) (v : list A) (oa ob : Z) : result (arr A * Z) :=
  let ml := cols m in
  let vl := zlen v in
  ch <- rows_of (nrows m) (Z.abs (ml - vl) + 1) (map (fun c => convolve O c v Valid) (rows m)) ;;
  Ok (ch, oa + ob + (Z.min ml vl - 1)).

(** _convolution.py:136-148, ValidConvolution.with_matrix *)
Definition valid_convolution_matrix (a b : arr A) (oa ob : Z) : result (arr A * Z) :=
  let al := cols a in
  let bl := cols b in
  ch <- rows_of (Z.min (nrows a) (nrows b)) (Z.abs (al - bl) + 1) (map2 (fun c d => convolve O c d Valid) (rows a) (rows b)) ;;
  Ok (ch, oa + ob + (Z.min al bl - 1)).

(** _convolution.py:156-177, SpectrumConvolution.with_vector *)
Definition spectrum_convolution_vector (m : arr A) (v : list A) (oa ob : Z) : result (arr A * Z) :=
  let mc := nrows m in
  let ml := cols m in
  let vl := zlen v in
  let rl := Z.max ml vl in
  let pl := if rl mod 2 =? 0 then rl else rl + 1 in
  m <- (if ml <? pl then pad_matrix m ml mc pl else Ok m) ;;
  v <- (if vl <? pl then pad_vector v vl pl else Ok v) ;;
  p <- vector_product same same m v ;;
  ch <- inverse_into mc rl p (between 0 rl) ;;
  Ok (ch, oa + ob).

(** _convolution.py:179-201, SpectrumConvolution.with_matrix *)
Definition spectrum_convolution_matrix (a b : arr A) (oa ob : Z) : result (arr A * Z) :=
  let al := cols a in
  let bl := cols b in
  let c := Z.min (nrows a) (nrows b) in
  let rl := Z.max al bl in
  let pl := if rl mod 2 =? 0 then rl else rl + 1 in
  a <- (if al <? pl then pad_matrix a al c pl else Ok a) ;;
  b <- (if bl <? pl then pad_matrix b bl c pl else Ok b) ;;
  p <- matrix_product same same a b c ;;
  ch <- inverse_into c rl p (between 0 rl) ;;
  Ok (ch, oa + ob).

(** _convolution.py:210-229, SpectrumPaddedConvolution.with_vector *)
Definition padded_convolution_vector (m : arr A) (v : list A) (oa ob : Z) : result (arr A * Z) :=
  let mc := nrows m in
  let ml := cols m in
  let vl := zlen v in
  let rl := ml + vl - 1 in
  let pl := if rl mod 2 =? 1 then rl + 1 else rl + 2 in
  m <- pad_matrix m ml mc pl ;;
  v <- pad_vector v vl pl ;;
  p <- vector_product same same m v ;;
  ch <- inverse_into mc rl p (between 0 rl) ;;
  Ok (ch, oa + ob).

(** _convolution.py:231-251, SpectrumPaddedConvolution.with_matrix *)
Definition padded_convolution_matrix (a b : arr A) (oa ob : Z) : result (arr A * Z) :=
  let al := cols a in
  let bl := cols b in
  let c := Z.min (nrows a) (nrows b) in
  let rl := al + bl - 1 in
  let pl := if rl mod 2 =? 1 then rl + 1 else rl + 2 in
  a <- pad_matrix a al c pl ;;
  b <- pad_matrix b bl c pl ;;
  p <- matrix_product same same a b c ;;
  ch <- inverse_into c rl p (between 0 rl) ;;
  Ok (ch, oa + ob).

(** ** Correlation *)

(** [numpy.correlate(a, v, mode)[::-1]] *)
Definition correlate_reversed (a v : list A) (mode : numpy_mode) : result (list A) := rmap (@rev A) (correlate O a v mode).

(** _convolution.py:259-270, FullCorrelation.with_vector *)
Definition full_correlation_vector (m : arr A) (v : list A) (oa ob : Z) : result (arr A * Z) :=
  let ml := cols m in
  ch <- rows_of (nrows m) (ml + zlen v - 1) (map (fun c => correlate_reversed c v Full) (rows m)) ;;
  Ok (ch, ob - oa - ml + 1).

(** _convolution.py:272-284, FullCorrelation.with_vector2 *)
Definition full_correlation_vector2 (v : list A) (m : arr A) (oa ob : Z) : result (arr A * Z) :=
  let ml := cols m in
  let vl := zlen v in
  ch <- rows_of (nrows m) (ml + vl - 1) (map (fun c => correlate_reversed v c Full) (rows m)) ;;
  Ok (ch, ob - oa - vl + 1).

(** _convolution.py:286-298, FullCorrelation.with_matrix *)
Definition full_correlation_matrix (a b : arr A) (oa ob : Z) : result (arr A * Z) :=
  let al := cols a in
  ch <- rows_of (Z.min (nrows a) (nrows b)) (al + cols b - 1) (map2 (fun c d => correlate_reversed c d Full) (rows a) (rows b)) ;;
  Ok (ch, ob - oa - al + 1).

(** _convolution.py:306-319, SameCorrelation.with_vector *)
Definition same_correlation_vector (m : arr A) (v : list A) (oa ob : Z) : result (arr A * Z) :=
  let ml := cols m in
  let vl := zlen v in
  let rl := Z.max ml vl in
  ch <- rows_of (nrows m) rl (map (fun c => convolve O (rev c) v Same) (rows m)) ;;
  Ok (ch, ob - oa + vl - rl - Z.min ml vl / 2).

(** _convolution.py:321-335, SameCorrelation.with_vector2 *)
Definition same_correlation_vector2 (v : list A) (m : arr A) (oa ob : Z) : result (arr A * Z) :=
  let vl := zlen v in
  let ml := cols m in
  let rl := Z.max ml vl in
  let v := rev v in
  ch <- rows_of (nrows m) rl (map (fun c => convolve O v c Same) (rows m)) ;;
  Ok (ch, ob - oa + ml - rl - Z.min vl ml / 2).

(** _convolution.py:337-350, SameCorrelation.with_matrix *)
Definition same_correlation_matrix (a b : arr A) (oa ob : Z) : result (arr A * Z) :=
  let al := cols a in
  let bl := cols b in
  let rl := Z.max al bl in
  ch <- rows_of (Z.min (nrows a) (nrows b)) rl (map2 (fun c d => convolve O (rev c) d Same) (rows a) (rows b)) ;;
  Ok (ch, ob - oa + bl - rl - Z.min al bl / 2).

(** _convolution.py:358-371, ValidCorrelation.with_vector *)
Definition valid_correlation_vector (m : arr A) (v : list A) (oa ob : Z) : result (arr A * Z) :=
  let ml := cols m in
  let vl := zlen v in
  let rl := Z.abs (ml - vl) + 1 in
  ch <- rows_of (nrows m) rl (map (fun c => correlate_reversed c v Valid) (rows m)) ;;
  Ok (ch, ob - oa - (ml - vl + rl) / 2).

(** _convolution.py:373-386, ValidCorrelation.with_vector2 *)
Definition valid_correlation_vector2 (v : list A) (m : arr A) (oa ob : Z) : result (arr A * Z) :=
  let vl := zlen v in
  let ml := cols m in
  let rl := Z.abs (vl - ml) + 1 in
  ch <- rows_of (nrows m) rl (map (fun c => correlate_reversed v c Valid) (rows m)) ;;
  Ok (ch, ob - oa - (vl - ml + rl) / 2).

(** _convolution.py:388-401, ValidCorrelation.with_matrix *)
Definition valid_correlation_matrix (a b : arr A) (oa ob : Z) : result (arr A * Z) :=
  let al := cols a in
  let bl := cols b in
  let rl := Z.abs (al - bl) + 1 in
  ch <- rows_of (Z.min (nrows a) (nrows b)) rl (map2 (fun c d => correlate_reversed c d Valid) (rows a) (rows b)) ;;
  Ok (ch, ob - oa - (al - bl + rl) / 2).

(** _convolution.py:409-435, SpectrumCorrelation.with_vector *)
Definition spectrum_correlation_vector (m : arr A) (v : list A) (oa ob : Z) : result (arr A * Z) :=
  let mc := nrows m in
  let ml := cols m in
  let vl := zlen v in
  let rl := Z.max ml vl in
  mv <- (if rl mod 2 =? 1 then
           let pl := rl + 1 in
           m <- shift_matrix m ml mc pl ;;
           v <- pad_vector v vl pl ;;
           Ok (m, v)
         else if ml <? rl then m <- shift_and_cycle_matrix m ml mc rl 1 ;; Ok (m, v)
         else if vl <? rl then v <- pad_and_cycle_vector v vl rl (-1) ;; Ok (m, v)
         else v <- cycle_vector v vl (-1) ;; Ok (m, v)) ;;
  p <- vector_product (x_conj X) same (fst mv) (snd mv) ;;
  ch <- inverse_into mc rl p (from (- rl)) ;;
  Ok (ch, ob - oa - ml + 1).

(** _convolution.py:437-463, SpectrumCorrelation.with_vector2 *)
Definition spectrum_correlation_vector2 (v : list A) (m : arr A) (oa ob : Z) : result (arr A * Z) :=
  let vl := zlen v in
  let mc := nrows m in
  let ml := cols m in
  let rl := Z.max ml vl in
  vm <- (if rl mod 2 =? 1 then
           let pl := rl + 1 in
           v <- shift_vector v vl pl ;;
           m <- pad_matrix m ml mc pl ;;
           Ok (v, m)
         else if vl <? rl then v <- shift_and_cycle_vector v vl rl 1 ;; Ok (v, m)
         else if ml <? rl then m <- pad_and_cycle_matrix m ml mc rl (-1) ;; Ok (v, m)
         else m <- cycle_matrix m vl mc (-1) ;; Ok (v, m)) ;;
  p <- vector_product2 (x_conj X) same (fst vm) (snd vm) ;;
  ch <- inverse_into mc rl p (from (- rl)) ;;
  Ok (ch, ob - oa - vl + 1).

(** _convolution.py:465-492, SpectrumCorrelation.with_matrix *)
Definition spectrum_correlation_matrix (a b : arr A) (oa ob : Z) : result (arr A * Z) :=
  let al := cols a in
  let bl := cols b in
  let c := Z.min (nrows a) (nrows b) in
  let rl := Z.max al bl in
  ab <- (if rl mod 2 =? 1 then
           let pl := rl + 1 in
           a <- shift_matrix a al c pl ;;
           b <- pad_matrix b bl c pl ;;
           Ok (a, b)
         else if al <? rl then a <- shift_and_cycle_matrix a al c rl 1 ;; Ok (a, b)
         else if bl <? rl then b <- pad_and_cycle_matrix b bl c rl (-1) ;; Ok (a, b)
         else b <- cycle_matrix b bl c (-1) ;; Ok (a, b)) ;;
  p <- matrix_product (x_conj X) same (fst ab) (snd ab) c ;;
  ch <- inverse_into c rl p (from (- rl)) ;;
  Ok (ch, ob - oa - al + 1).

(** _convolution.py:501-524, SpectrumPaddedCorrelation.with_vector *)
Definition padded_correlation_vector (m : arr A) (v : list A) (oa ob : Z) : result (arr A * Z) :=
  let mc := nrows m in
  let ml := cols m in
  let vl := zlen v in
  let rl := ml + vl - 1 in
  pm <- (if rl mod 2 =? 1 then m <- pad_and_shift_matrix m ml mc (rl + 1) 1 ;; Ok (rl + 1, m)
         else m <- pad_and_shift_matrix m ml mc (rl + 2) 2 ;; Ok (rl + 2, m)) ;;
  v <- shift_vector v vl (fst pm) ;;
  p <- vector_product (x_conj X) same (snd pm) v ;;
  ch <- inverse_into mc rl p (between 0 rl) ;;
  Ok (ch, ob - oa - ml + 1).

(** _convolution.py:526-549, SpectrumPaddedCorrelation.with_vector2 *)
Definition padded_correlation_vector2 (v : list A) (m : arr A) (oa ob : Z) : result (arr A * Z) :=
  let vl := zlen v in
  let mc := nrows m in
  let ml := cols m in
  let rl := ml + vl - 1 in
  pv <- (if rl mod 2 =? 1 then v <- pad_and_shift_vector v vl (rl + 1) 1 ;; Ok (rl + 1, v)
         else v <- pad_and_shift_vector v vl (rl + 2) 2 ;; Ok (rl + 2, v)) ;;
  m <- shift_matrix m ml mc (fst pv) ;;
  p <- vector_product2 (x_conj X) same (snd pv) m ;;
  ch <- inverse_into mc rl p (between 0 rl) ;;
  Ok (ch, ob - oa - vl + 1).

(** _convolution.py:551-575, SpectrumPaddedCorrelation.with_matrix *)
Definition padded_correlation_matrix (a b : arr A) (oa ob : Z) : result (arr A * Z) :=
  let al := cols a in
  let bl := cols b in
  let c := Z.min (nrows a) (nrows b) in
  let rl := al + bl - 1 in
  pa <- (if rl mod 2 =? 1 then a <- pad_and_shift_matrix a al c (rl + 1) 1 ;; Ok (rl + 1, a)
         else a <- pad_and_shift_matrix a al c (rl + 2) 2 ;; Ok (rl + 2, a)) ;;
  b <- shift_matrix b bl c (fst pa) ;;
  p <- matrix_product (x_conj X) same (snd pa) b c ;;
  ch <- inverse_into c rl p (between 0 rl) ;;
  Ok (ch, ob - oa - al + 1).

(** ** The choice of the function *)

(** The classes, among which the dictionaries [convolution] and [correlation] choose: _convolution.py:26-47 and 578-587 *)
Record methods := Methods {
  with_vector : arr A -> list A -> Z -> Z -> result (arr A * Z);
  with_vector2 : list A -> arr A -> Z -> Z -> result (arr A * Z);
  with_matrix : arr A -> arr A -> Z -> Z -> result (arr A * Z);
}.

(** The base class Convolution, _convolution.py:26-47, implements [with_vector2] with [with_vector]. *)
Definition commutative (v : arr A -> list A -> Z -> Z -> result (arr A * Z)) (m : arr A -> arr A -> Z -> Z -> result (arr A * Z)) : methods :=
  Methods v (fun a b oa ob => v b a oa ob) m.

Definition convolution (mode : convolution_mode) : methods :=
  match mode with
  | FULL => commutative full_convolution_vector full_convolution_matrix
  | SAME => commutative same_convolution_vector same_convolution_matrix
  | VALID => commutative valid_convolution_vector valid_convolution_matrix
  | SPECTRUM => commutative spectrum_convolution_vector spectrum_convolution_matrix
  | SPECTRUM_PADDED => commutative padded_convolution_vector padded_convolution_matrix
  end.

Definition correlation (mode : convolution_mode) : methods :=
  match mode with
  | FULL => Methods full_correlation_vector full_correlation_vector2 full_correlation_matrix
  | SAME => Methods same_correlation_vector same_correlation_vector2 same_correlation_matrix
  | VALID => Methods valid_correlation_vector valid_correlation_vector2 valid_correlation_matrix
  | SPECTRUM => Methods spectrum_correlation_vector spectrum_correlation_vector2 spectrum_correlation_matrix
  | SPECTRUM_PADDED => Methods padded_correlation_vector padded_correlation_vector2 padded_correlation_matrix
  end.

(** The second argument of [convolve] and [correlate] *)
Inductive other :=
| Number (x : A)
| Array1 (v : list A)
| Array2 (m : arr A)
| OtherSignal (s : signal A).

(** _signal.py:1002-1005 *)
Definition convolve_with_scalar (s : signal A) (x : A) : result (arr A * Z) :=
  m <- allocate junk (count s) (length s) ;;
  m <- ufunc2_into (o_mul O) (channels s) (scalar x) m everything everything ;;
  Ok (m, offset s).

(** _signal.py:981-1000, for a two dimensional array: [with_vector] gets [other[0]], [with_vector2] gets [self._channels[0]] *)
Definition convolve_with_matrix (s : signal A) (x : arr A) (other_offset : Z) (f : methods) : result (arr A * Z) :=
  if nrows x =? 1 then v <- getitem (rows x) 0 ;; with_vector f (channels s) v (offset s) other_offset
  else if count s =? 1 then v <- getitem (rows (channels s)) 0 ;; with_vector2 f v x (offset s) other_offset
  else with_matrix f (channels s) x (offset s) other_offset.

(** _signal.py:673-688 and 711-726: [convolve] and [correlate], which differ in the table of functions and in the label *)
Definition convolve_or_correlate (f : methods) (label : string) (s : signal A) (x : other) : result (signal A) :=
  match x with
  | OtherSignal o =>
      ch <- convolve_with_matrix s (channels o) (offset o) f ;;
      Ok (mk_signal (fst ch) (sampling_rate s) (snd ch) (Some (zrepeat label (count s))))
  | _ =>
      ch <- (match x with
             | Number k => convolve_with_scalar s k
             | Array1 v => with_vector f (channels s) v (offset s) 0
             | Array2 m => convolve_with_matrix s m 0 f
             | OtherSignal o => convolve_with_matrix s (channels o) (offset o) f
             end) ;;
      Ok (mk_signal (fst ch) (sampling_rate s) (snd ch) (Some (labels s)))
  end.

(** _signal.py:661-688 *)
Definition signal_convolve (s : signal A) (x : other) (mode : convolution_mode) : result (signal A) :=
  convolve_or_correlate (convolution mode) "Convolution" s x.

(** _signal.py:690-726 *)
Definition signal_correlate (s : signal A) (x : other) (mode : convolution_mode) : result (signal A) :=
  convolve_or_correlate (correlation mode) "Correlation" s x.

End Convolution.
