(** What is left of a bands filter or a spectrum, if its CSV file has been truncated. *)

From Coq Require Import String ZArith QArith List Bool.
From Verif.Model Require Import Py Numpy Spectrum Terms Filter Bands.
From Verif.Spec Require Import CsvFilesSpec BandsSpec.
Import ListNotations.
Open Scope Z_scope.

Section CsvCrashSpec.
Context {K X : Type}.
Variable A : arithmetic K X.

(** The channel has the value [y] at the supporting point [f]. *)
Definition point (t : term K X) (f : X) (y : K) : Prop :=
  exists xs ys i e k, t = Bands xs ys i e /\ zth xs k = Some f /\ zth ys k = Some y.

(** The channels of a filter, that has been read from a CSV file *)
Definition plain_channels (B : bands (K := K) (X := X)) : Prop :=
  forall t, In t (transfer_functions (b_filter B)) -> exists xs ys, t = Bands xs ys Logarithmic StairsLin /\ ascending A xs /\ zlen ys = zlen xs.

(** The row with the labels is incomplete: there is nothing but the first labels, and the last one of these might be incomplete. *)
Definition labels_only (F : filter K X) (B : bands (K := K) (X := X)) : Prop :=
  f_count (b_filter B) <= f_count F /\ zlen (f_labels (b_filter B)) = f_count (b_filter B) /\
  (forall c l, zth (f_labels (b_filter B)) c = Some l -> exists l', zth (f_labels F) c = Some l' /\ (l = l' \/ c = f_count (b_filter B) - 1 /\ starts l l')) /\
  forall t f y, In t (transfer_functions (b_filter B)) -> ~ point t f y.

(** The supporting points are complete up to the frequency [last]; at this frequency, only those of the channels before the number [channel] are, the
    following channels have none, and the value of the channel with this number might be another one.  There are no points at higher frequencies. *)
Definition first_points (F : filter K X) (B : bands (K := K) (X := X)) (last : option X) (channel : Z) : Prop :=
  forall c t t0, zth (transfer_functions (b_filter B)) c = Some t -> zth (transfer_functions F) c = Some t0 -> forall f y,
    match last with
    | None => ~ point t f y
    | Some z =>
        (x_ltb A f z = true -> (point t f y <-> point t0 f y)) /\
        (x_ltb A z f = true -> ~ point t f y) /\
        (f = z -> (c < channel -> (point t f y <-> point t0 f y)) /\ (channel < c -> ~ point t f y))
    end.

Definition incomplete (F : filter K X) (B : bands (K := K) (X := X)) : Prop :=
  plain_channels B /\
  (labels_only F B \/
   f_count (b_filter B) = f_count F /\ f_labels (b_filter B) = f_labels F /\ exists last channel, first_points F B last channel).

End CsvCrashSpec.

(** [t] is the beginning of [s], except that the last sample of its last channel might be another one.  If it has only one sample, the other channels
    might be missing, and the resolution is unknown. *)
Definition damaged_spectrum {A} (same : A -> A -> Prop) (s t : spectrum A Q) : Prop :=
  1 <= sp_count t <= sp_count s /\ 1 <= sp_length t <= sp_length s /\
  sp_labels t = ztake (sp_count t) (sp_labels s) /\
  (forall i k x, 0 <= i < sp_count t -> 0 <= k < sp_length t -> i < sp_count t - 1 \/ k < sp_length t - 1 ->
     el (sp_channels s) i k = Some x -> exists y, el (sp_channels t) i k = Some y /\ same y x) /\
  (2 <= sp_length t -> sp_count t = sp_count s /\ (resolution t == resolution s)%Q).
