(** Model of the windows that are sums of cosines, of the Gaussian and of the exponential window
    (/repo/sumpf/_data/_signals/_windows_scipy.py:119-354).

    Floating point numbers are exact; a literal is the rational number that is written in the program.  [int] is the conversion of an integer to
    a float, [pi] is the number that numpy.pi approximates, [cosine] and [exponential] are numpy.cos and numpy.exp, [log10] is [math.log(10)].
    The functions of SciPy are modelled by what their documentation says.  Not modelled: the other windows of SciPy, including the default
    function of [FlatTopWindow], whose coefficients are not in /repo, and values for [function] that are not in the enumeration (ValueError). *)

From Coq Require Import String ZArith List Bool.
From Verif.Model Require Import Py Numpy Vector Functions Signal Generators Windows.
Import ListNotations.
Open Scope string_scope.
Open Scope list_scope.
Open Scope Z_scope.

(** The flags in _enums.py:119-125 and 180-198 except for [DEFAULT] *)
Inductive flat_top := SFT3F | SFT4F | SFT5F | SFT3M | SFT4M | SFT5M | FTNI | FTHP | FTSRS | HFT70 | HFT90D | HFT95 | HFT116D | HFT144D | HFT169D | HFT196D | HFT223D | HFT248D.
Inductive nuttall := NUTTALL3 | NUTTALL3A | NUTTALL3B | NUTTALL4 | NUTTALL4A | NUTTALL4B | NUTTALL4C.

(** The coefficients as fractions: _windows_scipy.py:211-246 *)
Definition flat_top_coefficients (f : flat_top) : list (Z * Z) :=
  match f with
  | SFT3F => [(26526, 100000); (5, 10); (23474, 100000)]
  | SFT4F => [(21706, 100000); (42103, 100000); (28294, 100000); (7897, 100000)]
  | SFT5F => [(1881, 10000); (36923, 100000); (28702, 100000); (13077, 100000); (2488, 100000)]
  | SFT3M => [(28235, 100000); (52105, 100000); (19659, 100000)]
  | SFT4M => [(241906, 1000000); (460841, 1000000); (255381, 1000000); (41872, 1000000)]
  | SFT5M => [(209671, 1000000); (407331, 1000000); (281225, 1000000); (92669, 1000000); (91036, 10000000)]
  | FTNI => [(2810639, 10000000); (5208972, 10000000); (1980399, 10000000)]
  | FTHP => [(1, 1); (1912510941, 1000000000); (1079173272, 1000000000); (1832630879, 10000000000)]
  | FTSRS => [(1, 1); (193, 100); (129, 100); (388, 1000); (28, 1000)]
  | HFT70 => [(1, 1); (190796, 100000); (107349, 100000); (18199, 100000)]
  | HFT90D => [(1, 1); (1942604, 1000000); (1340318, 1000000); (440811, 1000000); (43097, 1000000)]
  | HFT95 => [(1, 1); (19383379, 10000000); (13045202, 10000000); (402827, 1000000); (350665, 10000000)]
  | HFT116D => [(1, 1); (19575375, 10000000); (14780705, 10000000); (6367431, 10000000); (1228389, 10000000); (66288, 10000000)]
  | HFT144D => [(1, 1); (196760033, 100000000); (157983607, 100000000); (81123644, 100000000); (22583558, 100000000); (2773848, 100000000); (9036, 10000000)]
  | HFT169D => [(1, 1); (197441842, 100000000); (165409888, 100000000); (95788186, 100000000); (3367342, 10000000); (6364621, 100000000); (521942, 100000000); (10599, 100000000)]
  | HFT196D => [(1, 1); (197928042, 100000000); (1710288951, 1000000000); (1081629853, 1000000000); (448734314, 1000000000); (112376628, 1000000000); (15122992, 1000000000); (871252, 1000000000); (11896, 1000000000)]
  | HFT223D => [(1, 1); (198298997309, 100000000000); (175556083063, 100000000000); (119037717712, 100000000000); (56155440797, 100000000000); (17296769663, 100000000000); (3233247087, 100000000000); (324954578, 100000000000); (1380104, 10000000000); (132725, 100000000000)]
  | HFT248D => [(1, 1); (1985844164102, 1000000000000); (1791176438506, 1000000000000); (1282075284005, 1000000000000); (667777530266, 1000000000000); (240160796576, 1000000000000); (56656381764, 1000000000000); (8134974479, 1000000000000); (62454465, 100000000000); (19808998, 1000000000000); (132974, 1000000000000)]
  end.
(** The numbers by which the sums are divided: _windows_scipy.py:211-246 *)
Definition flat_top_divisor (f : flat_top) : option (Z * Z) :=
  match f with
  | SFT3F => None
  | SFT4F => None
  | SFT5F => None
  | SFT3M => None
  | SFT4M => None
  | SFT5M => None
  | FTNI => None
  | FTHP => Some (41749473009, 10000000000)
  | FTSRS => Some (4635999999999999, 1000000000000000)
  | HFT70 => Some (41634400000000005, 10000000000000000)
  | HFT90D => Some (4766830000000001, 1000000000000000)
  | HFT95 => Some (4680751600000001, 1000000000000000)
  | HFT116D => Some (52018188, 10000000)
  | HFT144D => Some (56131505, 10000000)
  | HFT169D => Some (599210498, 100000000)
  | HFT196D => Some (6348316306, 1000000000)
  | HFT223D => Some (669917143974, 100000000000)
  | HFT248D => Some (7032470056319999, 1000000000000000)
  end.
(** _windows_scipy.py:336-349 *)
Definition nuttall_coefficients (f : nuttall) : list (Z * Z) :=
  match f with
  | NUTTALL3 => [(375, 1000); (5, 10); (125, 1000)]
  | NUTTALL3A => [(40897, 100000); (5, 10); (9103, 100000)]
  | NUTTALL3B => [(4243801, 10000000); (4973406, 10000000); (782793, 10000000)]
  | NUTTALL4 => [(3125, 10000); (46875, 100000); (1875, 10000); (3125, 100000)]
  | NUTTALL4A => [(338946, 1000000); (481973, 1000000); (161054, 1000000); (18027, 1000000)]
  | NUTTALL4B => [(355768, 1000000); (487396, 1000000); (144232, 1000000); (12604, 1000000)]
  | NUTTALL4C => [(3635819, 10000000); (4891775, 10000000); (1365995, 10000000); (106411, 10000000)]
  end.

Section CosineWindows.
Context {A : Type}.
Variable O : ops A.
Variable int : Z -> A.
Variable pi : A.
Variable cosine exponential : A -> A.
Variable log10 : A.
Variable junk : Z -> A.

Definition fraction (q : Z * Z) : A := ratio O int (fst q) (snd q).

(** What the window functions of SciPy have in common: [numpy.ones(M)] for lengths up to one.  Not code of /repo. *)
Definition scipy_window (f : Z -> A) (M : Z) : list A := if M <=? 1 then ones O M else map f (zseq 0 M).

(** [scipy.signal.windows.general_cosine(M, a)]: the sum of [a[k] * cos(k * fac)], where [fac] is [linspace(-pi, pi, M)].  Not code of /repo. *)
Definition general_cosine (a : list (Z * Z)) (M : Z) : list A :=
  scipy_window (fun n =>
    let fac := o_add O (o_neg O pi) (o_mul O (int n) (o_div O (o_mul O (int 2) pi) (int (M - 1)))) in
    fold_left (fun w k => match zth a k with Some q => o_add O w (o_mul O (fraction q) (cosine (o_mul O (int k) fac))) | None => w end)
              (zseq 0 (zlen a)) (o_zero O)) M.

(** [scipy.signal.windows.gaussian(M, std)]: [exp(-1/2 * ((n - (M - 1) / 2) / std) ** 2)].  Not code of /repo. *)
Definition gaussian (std : A) (M : Z) : list A :=
  scipy_window (fun n =>
    let d := o_div O (o_sub O (int n) (ratio O int (M - 1) 2)) std in
    exponential (o_neg O (o_div O (o_mul O d d) (int 2)))) M.

(** [scipy.signal.windows.exponential(M, tau=tau)]: [exp(-abs(n - (M - 1) / 2) / tau)].  Not code of /repo. *)
Definition exponential_decay (tau : A) (M : Z) : list A :=
  scipy_window (fun n => exponential (o_div O (o_neg O (o_abs O (o_sub O (int n) (ratio O int (M - 1) 2)))) tau)) M.

Inductive cosine_window := FlatTop (f : flat_top) | Nuttall (f : nuttall) | Gaussian (standard_deviation : A) | Exponential (decay : A).

(** The methods [_function]: _windows_scipy.py:206-248, 335-351, 286-288, 150-155 *)
Definition cosine_window_function (c : cosine_window) (length : Z) : list A :=
  match c with
  | FlatTop f =>
      let w := general_cosine (flat_top_coefficients f) length in
      match flat_top_divisor f with Some d => map (fun x => o_div O x (fraction d)) w | None => w end
  | Nuttall f => general_cosine (nuttall_coefficients f) length
  | Gaussian standard_deviation =>
      let std := o_div O (o_mul O standard_deviation (int (length - 1))) (int 2) in
      gaussian std length
  | Exponential decay =>
      if (length =? 1) || o_eqb O decay (o_zero O) then ones O length
      else
        let tau := o_div O (o_mul O (int (-10)) (int (length - 1))) (o_mul O log10 (o_neg O decay)) in
        exponential_decay tau length
  end.

(** The methods [_label]: _windows_scipy.py:250-251, 353-354, 290-291, 157-158 *)
Definition cosine_window_label (c : cosine_window) : string :=
  match c with
  | FlatTop _ => "Flat top window" | Nuttall _ => "Nuttall window" | Gaussian _ => "Gaussian window" | Exponential _ => "Exponential window"
  end.

(** The constructors: _windows_scipy.py:131-148, 181-204, 310-333, 263-284 *)
Definition make_cosine_window (c : cosine_window) (rate : A) (plateau : num) (length : Z) (symmetric : bool) : result (signal A) :=
  window O junk rate (cosine_window_function c) (cosine_window_label c) plateau length symmetric.

End CosineWindows.
Arguments cosine_window : clear implicits. Arguments FlatTop {A}. Arguments Nuttall {A}. Arguments Gaussian {A}. Arguments Exponential {A}.
