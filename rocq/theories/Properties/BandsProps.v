(** C59, C60: bands filters and the tables, in which they are stored. *)

From Coq Require Import String ZArith List Bool Permutation Reals.
From Verif.Model Require Import Py Signal Terms Filter Interpolation Bands.
From Verif.Model Require Pcm.
From Verif.Spec Require Import InterpolationSpec ComplexSpec BandsSpec.
From Verif.Proofs Require Import BandsClass BandsTables BandsFiles BandsCases.
Import ListNotations.
Open Scope Z_scope.

(** ** C59: the constructor *)

(** From any sequence of dictionaries, a filter with one channel per dictionary is made: the supporting points of the channel are the entries of
    the dictionary, sorted by the frequencies; its flags are those for the channel, or the last ones, and its label is the one for the channel, or
    the first one, or "Bands". *)
Theorem C59_channels : forall K X (A : arithmetic K X), ordered A ->
  forall (b : list (list (X * K))) (i e : flags) (labels : list string),
  Forall dictionary b -> zlen b = 0 \/ some_flag i /\ some_flag e ->
  exists B, mk_bands A b i e labels = Ok B /\ made A b i e labels B.
Proof. exact @mk_bands_ok. Qed.
Print Assumptions C59_channels.

(** Which entry has been added to a dictionary first makes no difference. *)
Theorem C59_insertion_order : forall K X (A : arithmetic K X) b b' (i e : flags) labels, ordered A ->
  Forall2 (fun d d' => dictionary d /\ Permutation d d') b b' ->
  match mk_bands A b i e labels, mk_bands A b' i e labels with
  | Ok B, Ok B' => b_filter B = b_filter B' /\ b_interpolations B = b_interpolations B' /\ b_extrapolations B = b_extrapolations B'
  | Err x, Err y => x = y
  | _, _ => False
  end.
Proof. exact @insertion_order. Qed.
Print Assumptions C59_insertion_order.

(** At each frequency in the dictionary of a channel, this channel has the value in the dictionary, whatever the interpolation and the
    extrapolation are. *)
Theorem C59_values : forall K (A : arithmetic K R) log2_k exp2_k of_real b (i e : flags) labels junk B c d x y,
  ordered A -> (forall x y, x_ltb A x y = R_ltb x y) ->
  (forall i, interpolate A i = interpolate_ (real_axes (k_ops A) of_real log2_k exp2_k) i) ->
  Forall dictionary b -> mk_bands A b i e labels = Ok B ->
  zth b c = Some d -> In (x, y) d -> zth (filter_call A junk (b_filter B) x) c = Some (Some y).
Proof. exact @value_at_support. Qed.
Print Assumptions C59_values.

(** Converting the values to decibels keeps everything else, and the conversion back gives the original filter, if the values are positive. *)
Theorem C59_to_decibels : forall X (A : arithmetic R X), ordered A ->
  (forall x y, o_mul (k_ops A) x y = x * y)%R -> (forall x y, o_div (k_ops A) x y = x / y)%R ->
  forall reference factor : R, (0 < reference)%R -> (factor <> 0)%R ->
  forall b (i e : flags) labels B, Forall dictionary b -> mk_bands A b i e labels = Ok B ->
  exists D, to_db A decimal_logarithm B reference factor = Ok D /\
    converted (fun y => factor * decimal_logarithm (y / reference))%R B D /\
    ((forall d x y, In d b -> In (x, y) d -> 0 < y)%R -> from_db A power_of_10 D reference factor = Ok B).
Proof. exact @to_db_ok. Qed.
Print Assumptions C59_to_decibels.

Theorem C59_from_decibels : forall X (A : arithmetic R X), ordered A ->
  (forall x y, o_mul (k_ops A) x y = x * y)%R -> (forall x y, o_div (k_ops A) x y = x / y)%R ->
  forall reference factor : R, (0 < reference)%R -> (factor <> 0)%R ->
  forall b (i e : flags) labels B, Forall dictionary b -> mk_bands A b i e labels = Ok B ->
  exists D, from_db A power_of_10 B reference factor = Ok D /\
    converted (fun y => reference * power_of_10 (y / factor))%R B D /\
    to_db A decimal_logarithm D reference factor = Ok B.
Proof. exact @from_db_ok. Qed.
Print Assumptions C59_from_decibels.

(** The hypotheses are met by real numbers and three dictionaries, the first one of which is not sorted. *)
Example C59_example : forall power modulo, let A := real_arithmetic power modulo in
  ordered A /\ Forall dictionary demo_bands /\ some_flag (Flags [Linear; LogX]) /\
  (forall x y, x_ltb A x y = R_ltb x y) /\ (forall x y, o_mul (k_ops A) x y = x * y)%R /\ (forall x y, o_div (k_ops A) x y = x / y)%R.
Proof.
  intros power modulo A. split; [now apply real_ordered|]. split; [exact demo_dictionaries|]. split; [discriminate|]. repeat split.
Qed.

Example C59_insertion_order_example :
  Forall2 (fun d d' : list (R * R) => dictionary d /\ Permutation d d') demo_bands [[(5, 4); (15, 3)]; []; [(5, 2)]]%R.
Proof.
  pose proof demo_dictionaries as D. unfold demo_bands in *. inversion D as [|? ? D1 D']; inversion D' as [|? ? D2 D'']; inversion D''; subst.
  constructor; [split; [assumption|apply perm_swap]|]. constructor; [split; auto|]. constructor; [split; auto|constructor].
Qed.

(** ** C60: tables *)

(** A bands filter, that is saved as a text table, in any of its notations, and then loaded, has the same supporting points in all channels. *)
Theorem C60_text : forall K X (A : arithmetic K X), ordered A -> forall (is_float : X -> bool) (is_real : K -> bool) (zero : X) F gnuplot path,
  bands_filter A F -> zlen (f_labels F) = f_count F ->
  frequencies F (fun f => is_float f = true /\ x_ltb A f zero = false) ->
  exists lines B, write_text A is_float is_real F = Ok lines /\ read_text A zero gnuplot path lines = Ok B /\
    restored F B (fun _ _ => Logarithmic) (fun _ _ => StairsLin) (fun c _ => Pcm.file_label path (c + 1)).
Proof. exact @text_round_trip. Qed.
Print Assumptions C60_text.

(** In CSV files, the labels are stored, too. *)
Theorem C60_csv : forall K X (A : arithmetic K X), ordered A -> forall F, bands_filter A F -> zlen (f_labels F) = f_count F ->
  exists file B, write_csv A F = Ok file /\ read_csv A file = Ok B /\ restored F B (fun _ _ => Logarithmic) (fun _ _ => StairsLin) (fun _ l => l).
Proof. exact @csv_round_trip. Qed.
Print Assumptions C60_csv.

Theorem C60_npy : forall K X (A : arithmetic K X), ordered A -> forall F path, bands_filter A F -> zlen (f_labels F) = f_count F -> 0 < f_count F ->
  exists file B, write_npy A F = Ok file /\ read_npy A path file = Ok B /\
    restored F B (fun _ _ => Linear) (fun _ _ => StairsLin) (fun c _ => Pcm.file_label path (c + 1)).
Proof. exact @npy_round_trip. Qed.
Print Assumptions C60_npy.

(** In npz files, the flags and the labels are stored, too. *)
Theorem C60_npz : forall K X (A : arithmetic K X), ordered A -> forall F, bands_filter A F -> zlen (f_labels F) = f_count F -> 0 < f_count F ->
  exists file B, write_npz A F = Ok file /\ read_npz A file = Ok B /\ restored F B (fun _ i => i) (fun _ e => extrapolated e) (fun _ l => l).
Proof. exact @npz_round_trip. Qed.
Print Assumptions C60_npz.

(** The hypotheses are met by a filter with three channels, one of which has no supporting points and the other ones of which share one. *)
Example C60_example : forall power modulo, let A := real_arithmetic power modulo in
  ordered A /\ bands_filter A demo_stored /\ zlen (f_labels demo_stored) = f_count demo_stored /\ 0 < f_count demo_stored /\
  frequencies demo_stored (fun f => true = true /\ x_ltb A f 0%R = false).
Proof. intros power modulo A. split; [now apply real_ordered|]. now apply demo_stored_ok. Qed.

(** Filters with other transfer functions cannot be stored in a table. *)
Theorem C60_other_filters : forall K X (A : arithmetic K X) F, (exists t, In t (transfer_functions F) /\ forall xs ys i e, t <> Bands xs ys i e) ->
  as_table A F = Err ValueError.
Proof. exact @other_terms. Qed.
Print Assumptions C60_other_filters.

Example C60_other_filters_example : exists t : term R R, In t [Bands [] [] Linear Linear; Constant 1%R] /\ forall xs ys i e, t <> Bands xs ys i e.
Proof. exists (Constant 1%R). split; [right; now left|discriminate]. Qed.

(** If the frequencies are integers, the text table, that has been written, cannot be read. *)
Theorem C60_integer_frequencies : forall K X (A : arithmetic K X) (is_float : X -> bool) (is_real : K -> bool) (zero : X), ordered A -> forall F gnuplot path,
  bands_filter A F -> frequencies F (fun f => is_float f = false /\ x_ltb A f zero = false) ->
  (exists xs ys i e x, In (Bands xs ys i e) (transfer_functions F) /\ In x xs) ->
  exists lines, write_text A is_float is_real F = Ok lines /\ read_text A zero gnuplot path lines = Err (if gnuplot then ValueError else OSError).
Proof. exact @integer_frequencies. Qed.
Print Assumptions C60_integer_frequencies.

(** The documentation of the reader says, that lines with fewer columns specify values for the first channels only; but such a file cannot be read. *)
Theorem C60_fewer_columns_refuted : forall K X (A : arithmetic K X) (zero : X) gnuplot path f g (y1 y2 y3 : K),
  x_ltb A f zero = false -> x_ltb A g zero = false ->
  read_text A zero gnuplot path [(CReal f, [CReal y1; CReal y2]); (CReal g, [CReal y3])] = Err AttributeError.
Proof. exact @fewer_columns. Qed.
Print Assumptions C60_fewer_columns_refuted.

(** The documentation of the reader says, that real values are in decibels; but they are taken as they are. *)
Theorem C60_decibels_refuted : forall K X (A : arithmetic K X) (zero : X), ordered A -> forall gnuplot path f (y : K), x_ltb A f zero = false ->
  exists B, read_text A zero gnuplot path [(CReal f, [CReal y])] = Ok B /\ transfer_functions (b_filter B) = [Bands [f] [y] Logarithmic StairsLin].
Proof. exact @not_decibels. Qed.
Print Assumptions C60_decibels_refuted.

(** A filter without channels has one channel, when it has been stored in an npy file, and cannot be loaded from an npz file. *)
Theorem C60_no_channels_refuted : forall K X (A : arithmetic K X) F path, transfer_functions F = [] -> f_labels F = [] ->
  (exists file B, write_npy A F = Ok file /\ read_npy A path file = Ok B /\ f_count (b_filter B) = 1) /\
  (exists file, write_npz A F = Ok file /\ read_npz A file = Err IndexError).
Proof. exact @no_channels. Qed.
Print Assumptions C60_no_channels_refuted.
