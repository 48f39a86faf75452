(** What it means, that a channel of a bands filter has been made from a dictionary, and that a bands filter has been restored from a file. *)

From Coq Require Import String ZArith List Bool Reals.
From Verif.Model Require Import Py Terms Filter Bands.
Import ListNotations.
Open Scope Z_scope.

(** The comparisons of frequencies are those of a total order. *)
Record ordered {K X} (A : arithmetic K X) : Prop := {
  same_frequency : forall x y, x_eqb A x y = true <-> x = y;
  never_less_than_itself : forall x, x_ltb A x x = false;
  less_than_trans : forall x y z, x_ltb A x y = true -> x_ltb A y z = true -> x_ltb A x z = true;
  less_or_greater : forall x y, x = y \/ x_ltb A x y = true \/ x_ltb A y x = true
}.

(** The frequencies are sorted and different. *)
Definition ascending {K X} (A : arithmetic K X) (xs : list X) : Prop :=
  forall i j x y, zth xs i = Some x -> zth xs j = Some y -> i < j -> x_ltb A x y = true.

(** The keys of a dictionary are different. *)
Definition dictionary {X V} (d : list (X * V)) : Prop := NoDup (map fst d).

(** The flag for the channel number [c]: the one flag, the flag number [c] or the last one *)
Definition some_flag (f : flags) : Prop := match f with OneFlag _ => True | Flags l => l <> [] end.
Definition flag_of (f : flags) (c : Z) (i : interpolation) : Prop :=
  match f with OneFlag j => i = j | Flags l => zth l (Z.min c (zlen l - 1)) = Some i end.

(** The documented label for the channel number [c] *)
Definition label_of (labels : list string) (c : Z) (l : string) : Prop :=
  zth labels c = Some l \/
  zlen labels <= c /\ (zth labels 0 = Some l \/ labels = [] /\ l = "Bands"%string).

(** The extrapolation with logarithmic steps is the one with linear steps. *)
Definition extrapolated (e : interpolation) : interpolation := match e with StairsLog => StairsLin | e => e end.

(** The supporting points of the term are the entries of the dictionary, sorted by their frequencies. *)
Definition supported {K X} (A : arithmetic K X) (d : list (X * K)) (i e : interpolation) (t : term K X) : Prop :=
  exists xs ys, t = Bands xs ys i e /\ ascending A xs /\ zlen ys = zlen xs /\ forall x y, In (x, y) (combine xs ys) <-> In (x, y) d.

(** What the constructor makes of a sequence of dictionaries: the flags, the labels and the supporting points of the channels *)
Definition made {K X} (A : arithmetic K X) (b : list (list (X * K))) (i e : flags) (labels : list string) (B : bands) : Prop :=
  f_count (b_filter B) = zlen b /\
  b_bands B = b /\
  zlen (f_labels (b_filter B)) = zlen b /\ zlen (b_interpolations B) = zlen b /\ zlen (b_extrapolations B) = zlen b /\
  forall c d, zth b c = Some d -> exists ic ec t l,
    flag_of i c ic /\ flag_of e c ec /\ label_of labels c l /\
    zth (transfer_functions (b_filter B)) c = Some t /\ supported A d ic (extrapolated ec) t /\
    zth (f_labels (b_filter B)) c = Some l /\ zth (b_interpolations B) c = Some ic /\ zth (b_extrapolations B) c = Some ec.

(** All channels of a filter are bands with sorted, different frequencies. *)
Definition bands_filter {K X} (A : arithmetic K X) (F : filter K X) : Prop :=
  forall t, In t (transfer_functions F) -> exists xs ys i e, t = Bands xs ys i e /\ ascending A xs /\ zlen ys = zlen xs.

(** The channels of [B] have the supporting points of those of [F], the flags [i] and [e] and the labels [label]. *)
Definition restored {K X} (F : filter K X) (B : bands) (i e : Z -> interpolation -> interpolation) (label : Z -> string -> string) : Prop :=
  f_count (b_filter B) = f_count F /\
  (forall c xs ys ic ec, zth (transfer_functions F) c = Some (Bands xs ys ic ec) ->
     zth (transfer_functions (b_filter B)) c = Some (Bands xs ys (i c ic) (e c ec))) /\
  (forall c l, zth (f_labels F) c = Some l -> zth (f_labels (b_filter B)) c = Some (label c l)).

(** The frequencies of all supporting points meet a condition. *)
Definition frequencies {K X} (F : filter K X) (P : X -> Prop) : Prop :=
  forall xs ys i e x, In (Bands xs ys i e) (transfer_functions F) -> In x xs -> P x.

(** [D] has the supporting points of [B], where a function has been applied to the values, and the flags and the labels of [B]. *)
Definition converted {K X} (g : K -> K) (B D : @bands K X) : Prop :=
  b_bands D = map (map (fun '(f, y) => (f, g y))) (b_bands B) /\
  b_interpolations D = b_interpolations B /\ b_extrapolations D = b_extrapolations B /\
  f_labels (b_filter D) = f_labels (b_filter B) /\
  forall c xs ys i e, zth (transfer_functions (b_filter B)) c = Some (Bands xs ys i e) ->
    zth (transfer_functions (b_filter D)) c = Some (Bands xs (map g ys) i e).

Definition decimal_logarithm (x : R) : R := (ln x / ln 10)%R.
Definition power_of_10 (x : R) : R := Rpower 10 x.
