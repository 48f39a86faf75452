(** Model of filters: /repo/sumpf/_data/_filters/_base/_filter.py, and of their representation as dictionaries: the methods [as_dict]
    of the terms and /repo/sumpf/_internal/_persistence/_filter_readers.py:34-84, 131-138 and _filter_writers.py:428-441.

    The JSON text, to which the dictionaries are converted, is modelled in Model/Json.v and Model/JsonFiles.v. *)

From Coq Require Import String ZArith List Bool.
From Verif.Model Require Import Py Numpy Functions Signal Spectrum Terms.
Import ListNotations.
Open Scope Z_scope.

(** The attributes of a filter: _filter.py:122-128 *)
Record filter (K X : Type) := Filter {
  transfer_functions : list (term K X);
  f_labels : list string
}.
Arguments Filter {K X}. Arguments transfer_functions {K X}. Arguments f_labels {K X}.

(** _filter.py:122-128, the constructor *)
Definition mk_filter {K X} (transfer_functions : list (term K X)) (labels : list string) : filter K X :=
  Filter transfer_functions (sanitize_labels (Some labels) (zlen transfer_functions)).

(** _filter.py:160-166, [len] *)
Definition f_count {K X} (F : filter K X) : Z := zlen (transfer_functions F).

Section Filter.
Context {K X : Type}.
Variable A : arithmetic K X.
Notation O := (k_ops A).
Notation term := (term K X).
Notation filter := (filter K X).
Variable junk : K.

(** _filter.py:134-143.  Tuples of keys are converted to tuples of slices, with which a sequence cannot be indexed. *)
Definition filter_getitem (F : filter) (k : key) : result filter :=
  match k with
  | KOne k =>
      s <- key_to_slice k (f_count F) ;;
      t <- getslice (transfer_functions F) s ;;
      l <- getslice (f_labels F) s ;;
      Ok (mk_filter t l)
  | KTuple ks => _ <- keys_to_slices ks [f_count F] ;; Err TypeError
  end.

(** _filter.py:145-158, [__call__] with a number.  All channels are computed with the same instance of [S], so the sample can have been noted
    as invalid by a previous channel. *)
Fixpoint call_channels (f : X) (tfs : list term) (invalid : bool) : list (option K) :=
  match tfs with
  | [] => []
  | t :: tfs => let '(r, invalid) := call A junk f t false invalid in r :: call_channels f tfs invalid
  end.
Definition filter_call (F : filter) (f : X) : list (option K) := call_channels f (transfer_functions F) false.

(** _filter.py:145-158, [__call__] with an array of frequencies, and the loop in lines 419-421 *)
Fixpoint call_arrays (fs : list X) (tfs : list term) (invalid : list bool) : list (list (option K)) :=
  match tfs with
  | [] => []
  | t :: tfs =>
      let r := map2 (fun f i => call A junk f t false i) fs invalid in
      map fst r :: call_arrays fs tfs (map snd r)
  end.
Definition filter_call_array (F : filter) (fs : list X) : list (list (option K)) :=
  call_arrays fs (transfer_functions F) (zrepeat false (zlen fs)).

(** _filter.py:186-196 *)
Definition filter_eqb (F G : filter) : bool :=
  (f_count F =? f_count G) && forallb (fun p => equal A (fst p) (snd p)) (combine (transfer_functions F) (transfer_functions G))
  && (if list_eq_dec string_dec (f_labels F) (f_labels G) then true else false).

(** _filter.py:206-221 and 376-383 *)
Definition filter_map (op : term -> result term) (F : filter) : result filter :=
  l <- sequence (map op (transfer_functions F)) ;; Ok (mk_filter l (f_labels F)).
Definition filter_abs : filter -> result filter := filter_map (fun t => Ok (abs_ A t)).
Definition filter_neg : filter -> result filter := filter_map (negate A).
Definition filter_invert : filter -> result filter := filter_map (invert A).

(** _filter.py:227-252, [__algebra_function] *)
Definition filter_algebra (function : term -> term -> result term) (label : string) (F G : filter) : result filter :=
  match transfer_functions F, transfer_functions G with
  | [t], us => l <- sequence (map (fun u => function t u) us) ;; Ok (mk_filter l (zrepeat label (zlen us)))
  | ts, [u] => l <- sequence (map (fun t => function t u) ts) ;; Ok (mk_filter l (zrepeat label (zlen ts)))
  | ts, us =>
      if zlen ts =? zlen us then l <- sequence (map2 function ts us) ;; Ok (mk_filter l (zrepeat label (zlen us)))
      else Err ValueError
  end.

(** _filter.py:254-376, the operators; a number on either side *)
Definition filter_add := filter_algebra (plus A) "Sum".
Definition filter_sub := filter_algebra (minus A) "Difference".
Definition filter_mul := filter_algebra (times A) "Product".
Definition filter_div := filter_algebra (div A) "Quotient".
Definition filter_add_number (F : filter) (v : K) : result filter :=
  if is_null A v then Ok F else filter_map (fun t => plus A t (Constant v)) F.
Definition filter_sub_number (F : filter) (v : K) : result filter :=
  if is_null A v then Ok F else filter_map (fun t => minus A t (Constant v)) F.
Definition filter_rsub_number (F : filter) (v : K) : result filter := filter_map (fun t => minus A (Constant v) t) F.
Definition filter_mul_number (F : filter) (v : K) : result filter :=
  if o_eqb O v (o_one O) then Ok F else filter_map (fun t => times A t (Constant v)) F.
Definition filter_div_number (F : filter) (v : K) : result filter :=
  if o_eqb O v (o_one O) then Ok F else filter_map (fun t => div A t (Constant v)) F.
Definition filter_rdiv_number (F : filter) (v : K) : result filter := filter_map (fun t => div A (Constant v) t) F.

(** ** Spectrums *)

(** [numpy.linspace(0.0, (length - 1) * resolution, length)], where [multiple k x] is [k * x].  (A negative length raises a [ValueError].) *)
Variable multiple : Z -> X -> X.
Definition linspace (resolution : X) (length : Z) : list X := map (fun k => multiple k resolution) (zseq 0 length).

(** _filter.py:407-422 *)
Definition filter_spectrum (F : filter) (resolution : X) (length : Z) : result (spectrum (option K) X) :=
  if length <? 0 then Err ValueError
  else Ok (mk_spectrum (Arr (filter_call_array F (linspace resolution length)) length) resolution (Some (f_labels F))).

(** The arithmetic of samples, which might not be finite.  (A product with a factor, that is not finite, is not finite.) *)
Definition lifted_ops : ops (option K) :=
  {| o_zero := Some (o_zero O); o_one := Some (o_one O);
     o_add := binary (o_add O); o_sub := binary (o_sub O); o_mul := binary (o_mul O); o_div := divide A;
     o_pow := binary (o_pow O); o_mod := binary (o_mod O); o_neg := unary (o_neg O); o_abs := unary (o_abs O);
     o_eqb := fun x y => match x, y with Some x, Some y => o_eqb O x y | _, _ => false end |}.

(** _filter.py:323-326, [__mul__] with a spectrum: the filter is sampled with the spectrum's resolution and length. *)
Definition filter_mul_spectrum (memory : Z -> Z -> option K) (F : filter) (s : spectrum (option K) X) : result (spectrum (option K) X) :=
  p <- filter_spectrum F (resolution s) (sp_length s) ;;
  spectrum_op lifted_ops memory OpMul p s.

(** ** Dictionaries *)

(** The values in dictionaries, that are written to JSON files.  (Frequencies and values of the transfer function are both numbers in Python, but
    they are never mixed up.  Tuples and lists are not distinguished.) *)
Inductive data :=
| DStr (s : string)
| DBool (b : bool)
| DInt (z : Z)
| DNum (x : K)
| DFrequency (x : X)
| DList (l : list data)
| DDict (l : list (string * data)).

(** The enumeration [Interpolations] is an [IntEnum], whose values start with 1: _enums.py:201-238 *)
Definition interpolation_int (i : interpolation) : Z :=
  match i with Zero => 1 | One => 2 | Linear => 3 | Logarithmic => 4 | LogX => 5 | LogY => 6 | StairsLin => 7 | StairsLog => 8 end.
Definition interpolation_of_int (z : Z) : result interpolation :=
  match z with
  | 1 => Ok Zero | 2 => Ok One | 3 => Ok Linear | 4 => Ok Logarithmic | 5 => Ok LogX | 6 => Ok LogY | 7 => Ok StairsLin | 8 => Ok StairsLog
  | _ => Err ValueError
  end.

(** Whether the values of a [Bands] instance are stored in an array with complex numbers; the real part and the imaginary part
    of a value; the imaginary unit *)
Variable complex_array : list K -> bool.
Variables real imag : K -> K.
Variable unit : K.

Definition entry (name : string) (d : data) : string * data := (name, d).

(** The methods [as_dict]: _primitive.py:162-165, 305-309, 381-385, 611-622, _unary.py:102-106, 188-192, _binary.py:134-138, 258-263,
    379-383, 479-484 *)
Fixpoint as_dict (t : term) : data :=
  match t with
  | Constant v => DDict [entry "type" (DStr "Constant"); entry "value" (DNum v)]
  | Polynomial c x => DDict [entry "type" (DStr "Polynomial"); entry "coefficients" (DList (map DNum c)); entry "transform" (DBool x)]
  | Exp c x => DDict [entry "type" (DStr "Exp"); entry "coefficient" (DNum c); entry "transform" (DBool x)]
  | Bands xs ys i e =>
      let ys := if complex_array ys then DDict [entry "real" (DList (map (fun y => DNum (real y)) ys)); entry "imaginary" (DList (map (fun y => DNum (imag y)) ys))]
                else DList (map DNum ys) in
      DDict [entry "type" (DStr "Bands"); entry "xs" (DList (map DFrequency xs)); entry "ys" ys;
             entry "interpolation" (DInt (interpolation_int i)); entry "extrapolation" (DInt (interpolation_int e))]
  | Absolute v x => DDict [entry "type" (DStr "Absolute"); entry "value" (as_dict v); entry "transform" (DBool x)]
  | Negative v x => DDict [entry "type" (DStr "Negative"); entry "value" (as_dict v); entry "transform" (DBool x)]
  | Sum l x => DDict [entry "type" (DStr "Sum"); entry "summands" (DList (map as_dict l)); entry "transform" (DBool x)]
  | Difference m s x =>
      DDict [entry "type" (DStr "Difference"); entry "minuend" (as_dict m); entry "subtrahend" (as_dict s); entry "transform" (DBool x)]
  | Product l x => DDict [entry "type" (DStr "Product"); entry "factors" (DList (map as_dict l)); entry "transform" (DBool x)]
  | Quotient a b x =>
      DDict [entry "type" (DStr "Quotient"); entry "numerator" (as_dict a); entry "denominator" (as_dict b); entry "transform" (DBool x)]
  end.

(** A parameter, that is passed to a factory *)
Inductive parameter :=
| PTerm (t : term)
| PData (d : data)
| PArray (l : list K)
| PList (l : list parameter).

Fixpoint lookup {Y} (name : string) (l : list (string * Y)) : option Y :=
  match l with [] => None | (n, y) :: l => if String.eqb n name then Some y else lookup name l end.
Definition has_type (l : list (string * data)) : bool := match lookup "type" l with Some _ => true | None => false end.

(** All of the numbers in a list; a list with something else raises an exception *)
Definition numbers (d : data) : result (list K) :=
  match d with DList l => sequence (map (fun d => match d with DNum x => Ok x | _ => Err TypeError end) l) | _ => Err TypeError end.

Definition complex_numbers (l : list (string * data)) : result parameter :=
  match lookup "real" l, lookup "imaginary" l with
  | Some r, Some i =>
      r <- numbers r ;; i <- numbers i ;;
      if zlen r =? zlen i then Ok (PArray (map2 (fun r i => o_add O (o_mul O i unit) r) r i)) else Err ValueError
  | _, _ => Err KeyError
  end.
Definition same_keys (l : list (string * data)) : bool :=
  (zlen l =? 2) && (match lookup "real" l with Some _ => true | None => false end) && (match lookup "imaginary" l with Some _ => true | None => false end).

(** The parameters of the factories.  Keyword arguments, which the factory does not have, and missing ones raise a [TypeError] (except for
    surplus arguments of [Constant] and [Bands], which are ignored), and so do arguments of the wrong type. *)
Definition get (name : string) (l : list (string * parameter)) : result parameter :=
  match lookup name l with Some p => Ok p | None => Err TypeError end.
Definition get_term (p : parameter) : result term := match p with PTerm t => Ok t | _ => Err TypeError end.
Definition get_terms (p : parameter) : result (list term) := match p with PList l => sequence (map get_term l) | _ => Err TypeError end.
Definition get_number (p : parameter) : result K := match p with PData (DNum x) => Ok x | _ => Err TypeError end.
Definition get_numbers (p : parameter) : result (list K) :=
  match p with PArray l => Ok l | PList l => sequence (map get_number l) | _ => Err TypeError end.
Definition get_frequencies (p : parameter) : result (list X) :=
  match p with PList l => sequence (map (fun p => match p with PData (DFrequency x) => Ok x | _ => Err TypeError end) l) | _ => Err TypeError end.
Definition get_int (p : parameter) : result Z := match p with PData (DInt z) => Ok z | _ => Err TypeError end.
Definition get_transform (l : list (string * parameter)) : result bool :=
  match lookup "transform" l with None => Ok false | Some (PData (DBool b)) => Ok b | Some _ => Err TypeError end.
Definition only (names : list string) (l : list (string * parameter)) : result Datatypes.unit :=
  if forallb (fun p => existsb (String.eqb (fst p)) names) l then Ok tt else Err TypeError.

(** The call of [cls] with the parameters as keyword arguments *)
Definition instantiate (cls : string) (p : list (string * parameter)) : result term :=
  match cls with
  | "Constant" => v <- get "value" p ;; v <- get_number v ;; Ok (Constant v)
  | "Polynomial" =>
      _ <- only ["coefficients"; "transform"] p ;; c <- get "coefficients" p ;; c <- get_numbers c ;; x <- get_transform p ;; Ok (polynomial_factory A c x)
  | "Exp" => _ <- only ["coefficient"; "transform"] p ;; c <- get "coefficient" p ;; c <- get_number c ;; x <- get_transform p ;; Ok (exp_factory A c x)
  | "Bands" =>
      xs <- get "xs" p ;; xs <- get_frequencies xs ;; ys <- get "ys" p ;; ys <- get_numbers ys ;;
      i <- get "interpolation" p ;; i <- get_int i ;; e <- get "extrapolation" p ;; e <- get_int e ;;
      i <- interpolation_of_int i ;; e <- interpolation_of_int e ;; Ok (bands_factory xs ys i e)
  | "Absolute" => _ <- only ["value"; "transform"] p ;; v <- get "value" p ;; v <- get_term v ;; x <- get_transform p ;; absolute_factory A v x
  | "Negative" => _ <- only ["value"; "transform"] p ;; v <- get "value" p ;; v <- get_term v ;; x <- get_transform p ;; negative_factory A v x
  | "Sum" => _ <- only ["summands"; "transform"] p ;; l <- get "summands" p ;; l <- get_terms l ;; x <- get_transform p ;; sum_factory A l x
  | "Product" => _ <- only ["factors"; "transform"] p ;; l <- get "factors" p ;; l <- get_terms l ;; x <- get_transform p ;; product_factory A l x
  | "Difference" =>
      _ <- only ["minuend"; "subtrahend"; "transform"] p ;; m <- get "minuend" p ;; m <- get_term m ;; s <- get "subtrahend" p ;; s <- get_term s ;;
      x <- get_transform p ;; difference_factory A m s x
  | "Quotient" =>
      _ <- only ["numerator"; "denominator"; "transform"] p ;; a <- get "numerator" p ;; a <- get_term a ;; b <- get "denominator" p ;; b <- get_term b ;;
      x <- get_transform p ;; Ok (quotient_factory A a b x)
  | _ => Err KeyError
  end%string.

(** _filter_readers.py:34-84.  (A string as parameter, which no factory accepts, is not split into its characters.) *)
Fixpoint term_from_dict (d : data) : result term :=
  match d with
  | DDict l =>
      p <- sequence (map (fun e : string * data =>
             let '(name, v) := e in
             r <- (match v with
                   | DDict m =>
                       if String.eqb name "type" then Ok (PData v)
                       else if has_type m then t <- term_from_dict v ;; Ok (PTerm t)
                       else if same_keys m then complex_numbers m
                       else Ok (PData v)
                   | DList m =>
                       q <- sequence (map (fun w => match w with
                                                    | DDict n => if has_type n then t <- term_from_dict w ;; Ok (PTerm t) else Ok (PData w)
                                                    | _ => Ok (PData w)
                                                    end) m) ;;
                       Ok (PList q)
                   | _ => Ok (PData v)
                   end) ;;
             Ok (name, r)) l) ;;
      match lookup "type" p with
      | Some (PData (DStr cls)) => instantiate cls (List.filter (fun e => negb (String.eqb (fst e) "type")) p)
      | Some _ => Err KeyError
      | None => Err TypeError
      end
  | _ => Err TypeError
  end.

(** _filter_writers.py:438-439 and _filter_readers.py:136-138 *)
Definition filter_as_dict (F : filter) : data :=
  DDict [entry "transfer_functions" (DList (map as_dict (transfer_functions F))); entry "labels" (DList (map DStr (f_labels F)))].
Definition filter_from_dict (d : data) : result filter :=
  match d with
  | DDict l =>
      match lookup "transfer_functions" l, lookup "labels" l with
      | Some (DList t), Some (DList s) =>
          t <- sequence (map term_from_dict t) ;;
          s <- sequence (map (fun d => match d with DStr s => Ok s | _ => Err TypeError end) s) ;;
          Ok (mk_filter t s)
      | None, _ | _, None => Err KeyError
      | _, _ => Err TypeError
      end
  | _ => Err TypeError
  end.

End Filter.
