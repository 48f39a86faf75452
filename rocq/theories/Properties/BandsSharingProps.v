(** C75: bands filters and the dictionaries, from which they have been made.

    The constructor keeps references to the dictionaries, while the transfer functions are computed at once.  Programs, that leave the dictionaries alone,
    cannot see this.  If a dictionary is changed, the filter remains as it is, but its conversions to and from decibels are those of another filter. *)

From Coq Require Import String ZArith List Bool Reals.
From Verif.Model Require Import Py Functions Signal Terms Filter Bands BandsSharing Repr.
From Verif.Spec Require Import BandsSpec BandsSharingSpec ReprSpec.
From Verif.Proofs Require Import BandsCases BandsSharingFacts BandsSharingRepr BandsSharingCase.
Import ListNotations.
Open Scope Z_scope.

(** Programs have the same results as if each filter had copies of its dictionaries, if no dictionary is changed, after a filter has been made from it. *)
Theorem C75_values : forall K X (A : arithmetic K X) log10 exp10 program, undisturbed program ->
  match run A log10 exp10 (Memory [] []) program, performed_all A log10 exp10 ([], []) program with
  | Ok m, Ok v => same_values m v
  | Err x, Err y => x = y
  | _, _ => False
  end.
Proof. exact @shared_values. Qed.
Print Assumptions C75_values.

(** Two dictionaries; the one, that is not used for the filter, is changed, before the filter is converted. *)
Example C75_values_case : forall power modulo, let A := real_arithmetic power modulo in
  undisturbed (changed_another 100%R) /\ exists m, run A decimal_logarithm power_of_10 (Memory [] []) (changed_another 100%R) = Ok m.
Proof. intros power modulo A. apply changed_another_case. now apply real_ordered. Qed.

(** Whatever a program does: a filter has the transfer functions, that have been made from its dictionaries at its creation, but it is converted, as if it
    had been made from the dictionaries, as they are now. *)
Theorem C75_current_values : forall K X (A : arithmetic K X) log10 exp10, ordered A -> forall before ns i e labels after m1 m,
  (forall d, In (NewDictionary d) (before ++ after) -> dictionary d) ->
  run A log10 exp10 (Memory [] []) before = Ok m1 -> run A log10 exp10 m1 (Create ns i e labels :: after) = Ok m ->
  exists s b1 B1 b B S,
    zth (filters m) (zlen (filters m1)) = Some s /\
    Forall2 (fun n d => zth (dictionaries m1) n = Some d) ns b1 /\ mk_bands A b1 i e labels = Ok B1 /\ st_filter s = b_filter B1 /\
    Forall2 (fun n d => zth (dictionaries m) n = Some d) ns b /\ mk_bands A b i e labels = Ok B /\ observed m s = Ok S /\
    forall reference factor, to_db A log10 S reference factor = to_db A log10 B reference factor /\
      from_db A exp10 S reference factor = from_db A exp10 B reference factor.
Proof. exact @current_values. Qed.
Print Assumptions C75_current_values.

(** The representation of a filter, and a file with this representation, are those of a filter, that is made from the dictionaries, as they are now. *)
Theorem C75_representation : forall K X (A : arithmetic K X) log10 exp10 finite finite_frequency default_rate default_resolution default_spectrogram_rate names
    before ns i e labels after m1 m b, ordered A -> In "Bands"%string names ->
  (forall d, In (NewDictionary d) (before ++ after) -> dictionary d) ->
  run A log10 exp10 (Memory [] []) before = Ok m1 -> run A log10 exp10 m1 (Create ns i e labels :: after) = Ok m ->
  Forall2 (fun n d => zth (dictionaries m) n = Some d) ns b -> finite_bands finite finite_frequency b ->
  exists s S B, zth (filters m) (zlen (filters m1)) = Some s /\ observed m s = Ok S /\ mk_bands A b i e labels = Ok B /\
    eval_text A default_rate default_resolution default_spectrogram_rate names (repr_bands finite finite_frequency S) = Ok (VBands B) /\
    read_repr A default_rate default_resolution default_spectrogram_rate (repr_bands finite finite_frequency S) = Ok (VBands B).
Proof. exact @current_representation. Qed.
Print Assumptions C75_representation.

(** The claim of C75_values is false for a program, that changes the dictionary of a filter: a filter with the value 1 at a frequency is converted to one
    with 20 dB at this frequency, rather than 0 dB, if the value in the dictionary is set to 10 after the creation of the filter. *)
Theorem C75_values_refuted : forall X (A : arithmetic R X), ordered A ->
  (forall x y, o_mul (k_ops A) x y = x * y)%R -> (forall x y, o_div (k_ops A) x y = x / y)%R -> forall x : X,
  let program := [NewDictionary [(x, 1%R)]; Create [0] (OneFlag Logarithmic) (OneFlag StairsLin) ["a"%string]; Assign 0 x 10%R; ToDb 0 1%R 20%R] in
  exists m v s0 s1 B1,
    run A decimal_logarithm power_of_10 (Memory [] []) program = Ok m /\ performed_all A decimal_logarithm power_of_10 ([], []) program = Ok v /\
    dictionaries m = [[(x, 10%R)]] /\ filters m = [s0; s1] /\ zth (snd v) 1 = Some B1 /\
    transfer_functions (st_filter s0) = [Bands [x] [1%R] Logarithmic StairsLin] /\
    transfer_functions (b_filter B1) = [Bands [x] [0%R] Logarithmic StairsLin] /\
    transfer_functions (st_filter s1) = [Bands [x] [20%R] Logarithmic StairsLin].
Proof. exact @changed_later_refuted. Qed.
Print Assumptions C75_values_refuted.

(** This program meets the hypotheses of C75_current_values and of C75_representation, and the real numbers meet those of C75_values_refuted. *)
Example C75_current_values_case : forall power modulo, let A := real_arithmetic power modulo in
  ordered A /\ (forall x y, o_mul (k_ops A) x y = x * y)%R /\ (forall x y, o_div (k_ops A) x y = x / y)%R /\
  (forall d, In (NewDictionary d) ([NewDictionary [(100, 1)%R]] ++ [Assign 0 100%R 10%R; ToDb 0 1%R 20%R]) -> dictionary d) /\
  exists m1 m, run A decimal_logarithm power_of_10 (Memory [] []) [NewDictionary [(100, 1)%R]] = Ok m1 /\
    run A decimal_logarithm power_of_10 m1 (Create [0] (OneFlag Logarithmic) (OneFlag StairsLin) ["a"%string] :: [Assign 0 100%R 10%R; ToDb 0 1%R 20%R]) = Ok m /\
    Forall2 (fun n d => zth (dictionaries m) n = Some d) [0] [[(100, 10)%R]] /\ finite_bands (fun _ : R => true) (fun _ : R => true) [[(100, 10)%R]].
Proof.
  intros power modulo A. assert (OA : ordered A) by now apply real_ordered. split; [exact OA |]. split; [reflexivity |]. split; [reflexivity |]. split.
  - intros d [E | [E | [E | []]]]; try discriminate. injection E as <-. repeat constructor. intros [].
  - destruct (changed_later_refuted A OA (fun _ _ => eq_refl) (fun _ _ => eq_refl) 100%R) as (m & v & _ & _ & _ & E & _ & Ed & _).
    exists (Memory [[(100, 1)%R]] []), m. split; [reflexivity |]. split; [exact E |]. rewrite Ed. split; [repeat constructor | now intros].
Qed.
