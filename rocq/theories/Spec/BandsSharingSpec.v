(** Programs with bands filters, that have copies of the dictionaries, with which they are created. *)

From Coq Require Import String ZArith List Bool.
From Verif.Model Require Import Py Functions Signal Terms Filter Bands BandsSharing.
Import ListNotations.
Open Scope Z_scope.

Section BandsSharingSpec.
Context {K X : Type}.
Variable A : arithmetic K X.
Variables log10 exp10 : K -> K.
Notation dict := (dict (X := X)).
Notation action := (action (K := K) (X := X)).
Notation values := (list (dict K) * list (bands (K := K) (X := X)))%type.

(** One step: the dictionaries of the user and the filters are values.  An assignment changes the dictionary of the user and no filter. *)
Definition performed (v : values) (a : action) : result values :=
  match a with
  | NewDictionary d => Ok (fst v ++ [d], snd v)
  | Assign n x y => match zth (fst v) n with Some d => Ok (ztake n (fst v) ++ dict_set A d x y :: zdrop (n + 1) (fst v), snd v) | None => Err IndexError end
  | Create ns i e labels =>
      match sequence (map (fun n => match zth (fst v) n with Some d => Ok d | None => Err IndexError end) ns) with
      | Ok b => match mk_bands A b i e labels with Ok B => Ok (fst v, snd v ++ [B]) | Err x => Err x end
      | Err x => Err x
      end
  | ToDb k reference factor =>
      match zth (snd v) k with
      | Some B => match to_db A log10 B reference factor with Ok D => Ok (fst v, snd v ++ [D]) | Err x => Err x end
      | None => Err IndexError
      end
  | FromDb k reference factor =>
      match zth (snd v) k with
      | Some B => match from_db A exp10 B reference factor with Ok D => Ok (fst v, snd v ++ [D]) | Err x => Err x end
      | None => Err IndexError
      end
  end.
Fixpoint performed_all (v : values) (program : list action) : result values :=
  match program with [] => Ok v | a :: program => match performed v a with Ok v => performed_all v program | Err x => Err x end end.

(** No dictionary is changed, after it has been used for a filter. *)
Definition undisturbed (program : list action) : Prop :=
  forall before n x y after ns i e labels, program = before ++ Assign n x y :: after -> In (Create ns i e labels) before -> ~ In n ns.

(** What the filters are in the memory *)
Definition same_values (m : memory (K := K) (X := X)) (v : values) : Prop :=
  dictionaries m = fst v /\ Forall2 (fun s B => observed m s = Ok B) (filters m) (snd v).
End BandsSharingSpec.
