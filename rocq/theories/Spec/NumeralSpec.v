(** A way to write rational numbers as texts: the sign, the binary digits of the numerator and of the denominator (the least significant one first and
    a dot instead of the most significant one).  It is an instance of the conversions, over which the theorems about tables quantify. *)

From Coq Require Import Ascii String ZArith QArith List.
From Verif.Spec Require Import TablesSpec.
Import ListNotations.
Open Scope string_scope.

Fixpoint show_positive (p : positive) (rest : string) : string :=
  match p with
  | xH => String "." rest
  | xO p => String "0" (show_positive p rest)
  | xI p => String "1" (show_positive p rest)
  end.
Fixpoint read_positive (s : string) : option (positive * string) :=
  match s with
  | String "." rest => Some (xH, rest)
  | String "0" s => match read_positive s with Some (p, rest) => Some (xO p, rest) | None => None end
  | String "1" s => match read_positive s with Some (p, rest) => Some (xI p, rest) | None => None end
  | _ => None
  end.

Definition show_number (q : Q) : string :=
  match Qnum q with
  | Z0 => "z"
  | Zpos p => String "+" (show_positive p (show_positive (Qden q) ""))
  | Zneg p => String "-" (show_positive p (show_positive (Qden q) ""))
  end.
Definition read_fraction (s : string) : option (positive * positive) :=
  match read_positive s with
  | Some (p, s) => match read_positive s with Some (d, EmptyString) => Some (p, d) | _ => None end
  | None => None
  end.
Definition read_number (s : string) : option Q :=
  match s with
  | "z" => Some 0%Q
  | String "+" s => match read_fraction s with Some (p, d) => Some (Zpos p # d) | None => None end
  | String "-" s => match read_fraction s with Some (p, d) => Some (Zneg p # d) | None => None end
  | _ => None
  end.

(** Complex numbers: the imaginary part follows after the letter j *)
Definition show_complex (z : Q * Q) : string := show_number (fst z) ++ String "j" (show_number (snd z)).
Fixpoint split_at_j (s : string) : string * string :=
  match s with
  | EmptyString => ("", "")
  | String "j" s => ("", s)
  | String c s => let (a, b) := split_at_j s in (String c a, b)
  end.
Definition read_complex (s : string) : option (Q * Q) :=
  let (a, b) := split_at_j s in
  match read_number a, read_number b with Some x, Some y => Some (x, y) | _, _ => None end.

(** The numbers are restored. *)
Lemma read_show_positive p rest : read_positive (show_positive p rest) = Some (p, rest).
Proof. induction p; cbn; [now rewrite IHp | now rewrite IHp | reflexivity]. Qed.

Lemma numbers_restored : restores Qeq show_number read_number.
Proof.
  intros [n d]. destruct n as [|p|p]; unfold show_number; cbn [Qnum Qden].
  - exists 0%Q. split; reflexivity.
  - exists (Zpos p # d). split; [| reflexivity]. cbn. unfold read_fraction. now rewrite !read_show_positive.
  - exists (Zneg p # d). split; [| reflexivity]. cbn. unfold read_fraction. now rewrite !read_show_positive.
Qed.

Lemma split_positive p rest tail : split_at_j (show_positive p rest ++ tail) = let (a, b) := split_at_j (rest ++ tail) in (show_positive p a, b).
Proof. induction p; cbn; rewrite ?IHp; destruct (split_at_j (rest ++ tail)); reflexivity. Qed.
Lemma split_number q tail : split_at_j (show_number q ++ String "j" tail) = (show_number q, tail).
Proof. destruct q as [[|p|p] d]; cbn; rewrite ?split_positive; reflexivity. Qed.

Lemma complex_restored : restores same_complex show_complex read_complex.
Proof.
  intros [x y]. destruct (numbers_restored x) as (x' & Ex & Sx). destruct (numbers_restored y) as (y' & Ey & Sy). exists (x', y').
  unfold read_complex, show_complex. cbn [fst snd]. rewrite split_number, Ex, Ey. split; auto. split; auto.
Qed.
