(** Model of the dictionaries, which bands filters share with their users: /repo/sumpf/_data/_filters/_bands.py:77-91 and 121-162.

    The constructor reads the dictionaries, in order to make the transfer functions, and keeps references to them.  The conversions to and from decibels
    read the dictionaries again.  A program is a sequence of such steps and of assignments to the dictionaries by the user.  The sequence of the
    dictionaries is a tuple, that is not changed itself. *)

From Coq Require Import String ZArith List Bool.
From Verif.Model Require Import Py Functions Signal Terms Filter Bands.
Import ListNotations.
Open Scope Z_scope.

Section BandsSharing.
Context {K X : Type}.
Variable A : arithmetic K X.
Notation dict := (dict (X := X)).
(** [numpy.log10] and [10.0 ** x] *)
Variables log10 exp10 : K -> K.

(** A dictionary of the user, with its number, or one that has been made by a conversion and is only known to the new filter (_bands.py:140, 159) *)
Inductive reference := Shared (n : Z) | Private (d : dict K).

(** _bands.py:84-91, the attributes, with references instead of dictionaries *)
Record stored := Stored {
  st_filter : filter K X;
  st_bands : list reference;
  st_interpolations : list interpolation;
  st_extrapolations : list interpolation
}.

(** The dictionaries of the user and the filters, in the order of their creation *)
Record memory := Memory { dictionaries : list (dict K); filters : list stored }.

(** The item number [n]; the program of the user fails, if there is none. *)
Definition item {T} (l : list T) (n : Z) : result T := match zth l n with Some x => Ok x | None => Err IndexError end.

(** Following a reference *)
Definition deref (m : memory) (r : reference) : result (dict K) := match r with Shared n => item (dictionaries m) n | Private d => Ok d end.

(** The attributes of a filter, as they are seen by its methods *)
Definition observed (m : memory) (s : stored) : result bands :=
  b <- sequence (map (deref m) (st_bands s)) ;;
  Ok (MkBands (st_filter s) b (st_interpolations s) (st_extrapolations s)).

Inductive action :=
| NewDictionary (d : dict K)                                                      (* [d = {...}] *)
| Assign (n : Z) (x : X) (y : K)                                                  (* [d[x] = y] *)
| Create (ns : list Z) (interpolations extrapolations : flags) (labels : list string)  (* [sumpf.Bands((d, ...), ...)] *)
| ToDb (k : Z) (reference factor : K)                                             (* [f.to_db(reference, factor)] *)
| FromDb (k : Z) (reference factor : K).                                          (* [f.from_db(reference, factor)] *)

Definition stored_as (B : bands) (references : list reference) : stored := Stored (b_filter B) references (b_interpolations B) (b_extrapolations B).
Definition with_filter (m : memory) (s : stored) : memory := Memory (dictionaries m) (filters m ++ [s]).

(** _bands.py:121-162, the conversions; the dictionaries of the new filter are new *)
Definition convert (m : memory) (k : Z) (conversion : bands -> result bands) : result memory :=
  s <- item (filters m) k ;;
  B <- observed m s ;;
  D <- conversion B ;;
  Ok (with_filter m (stored_as D (map Private (b_bands D)))).

Definition step (m : memory) (a : action) : result memory :=
  match a with
  | NewDictionary d => Ok (Memory (dictionaries m ++ [d]) (filters m))
  | Assign n x y =>
      d <- item (dictionaries m) n ;;
      Ok (Memory (ztake n (dictionaries m) ++ dict_set A d x y :: zdrop (n + 1) (dictionaries m)) (filters m))
  | Create ns interpolations extrapolations labels =>
      b <- sequence (map (item (dictionaries m)) ns) ;;
      B <- mk_bands A b interpolations extrapolations labels ;;
      Ok (with_filter m (stored_as B (map Shared ns)))
  | ToDb k reference factor => convert m k (fun B => to_db A log10 B reference factor)
  | FromDb k reference factor => convert m k (fun B => from_db A exp10 B reference factor)
  end.

Fixpoint run (m : memory) (program : list action) : result memory :=
  match program with [] => Ok m | a :: program => m <- step m a ;; run m program end.
End BandsSharing.
