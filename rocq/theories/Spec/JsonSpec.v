(** Specification vocabulary for JSON texts. *)

From Coq Require Import String ZArith List Bool.
From Verif.Model Require Import Py Json.
Import ListNotations.
Open Scope Z_scope.

(** ** Strings *)

Definition high_surrogate (c : Z) : Prop := 55296 <= c <= 56319.
Definition low_surrogate (c : Z) : Prop := 56320 <= c <= 57343.

(** The characters are those of Unicode, and no character is split into two surrogates. *)
Definition proper_string (s : list Z) : Prop :=
  (forall c, In c s -> 0 <= c < 1114112) /\ forall p a b q, s = p ++ a :: b :: q -> high_surrogate a -> ~ low_surrogate b.

(** ** Notations of floating point numbers *)

Definition decimal (d : list Z) : Prop := d <> [] /\ Forall (fun c => 48 <= c <= 57) d.

(** An integer without superfluous zeros, and a fraction or an exponent (or both) *)
Definition decimal_notation (t : list Z) : Prop :=
  exists sign i f e, t = sign ++ i ++ f ++ e /\ (sign = [] \/ sign = codes "-") /\ (decimal i /\ (i = codes "0" \/ forall j, i <> 48 :: j)) /\
    (f = [] \/ exists d, f = codes "." ++ d /\ decimal d) /\ (e = [] \/ exists s d, e = codes "e" ++ s ++ d /\ (s = [] \/ s = codes "+" \/ s = codes "-") /\ decimal d) /\
    (f <> [] \/ e <> []).

(** [repr] of a finite floating point number is such a notation, and [float] of the text is the number.  The finite floating point numbers are
    those elements of [X], for which [D] holds. *)
Definition faithful {X} (D : X -> Prop) (show : X -> list Z) (read : list Z -> option X) : Prop :=
  forall x, D x -> decimal_notation (show x) /\ read (show x) = Some x.

(** ** Objects *)

(** All numbers are floating point numbers, all strings are proper, and no dictionary has the same key twice. *)
Fixpoint proper_json {X} (D : X -> Prop) (v : json X) : Prop :=
  match v with
  | JFloat (Finite x) => D x
  | JStr s => proper_string s
  | JList l => (fix all l := match l with [] => True | x :: l => proper_json D x /\ all l end) l
  | JDict l => NoDup (map fst l) /\ (fix all l := match l with [] => True | (k, x) :: l => proper_string k /\ proper_json D x /\ all l end) l
  | _ => True
  end.

(** The object has no part that cannot be written. *)
Fixpoint complete {X} (v : json X) : Prop :=
  match v with
  | JOther => False
  | JList l => (fix all l := match l with [] => True | x :: l => complete x /\ all l end) l
  | JDict l => (fix all l := match l with [] => True | (_, x) :: l => complete x /\ all l end) l
  | _ => True
  end.

(** Lists and dictionaries *)
Definition container {X} (v : json X) : Prop := match v with JList _ | JDict _ => True | _ => False end.

(** The characters of the texts are line breaks and printable ASCII characters. *)
Definition printable (c : Z) : Prop := c = 10 \/ 32 <= c <= 126.
