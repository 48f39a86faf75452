(** Properties of spectrums: C21 (arithmetic) and C42 (slicing, padding, comparison). *)

From Coq Require Import String ZArith QArith List Bool Lia ZifyBool.
From Verif.Model Require Import Py Numpy Functions Signal Spectrum.
From Verif.Spec Require Import TimeSpec SliceSpec FrequencySpec Demo.
From Verif.Proofs Require Import PyFacts NumpyFacts SliceFacts SignalHelpers SpectrumFacts.
From Verif.Properties Require Import SignalProps.
Import ListNotations.
Open Scope Z_scope.

(** * C21 Spectrum arithmetic is frequency aligned *)

Theorem C21_spectrum_arithmetic : forall A R (O : ops A) junk (p : operator) (s o : spectrum A R),
  wf_spectrum s -> wf_spectrum o -> 1 <= sp_count s -> 1 <= sp_count o ->
  sp_length o = sp_length s \/ sp_length o = 1 ->
  exists r, spectrum_op O junk p s o = Ok r /\ wf_spectrum r /\
    resolution r = resolution s /\ sp_count r = Z.max (sp_count s) (sp_count o) /\ sp_length r = sp_length s /\
    (forall c, 0 <= c < sp_count r -> zth (sp_labels r) c = Some (label_of_result p)) /\
    forall c k, 0 <= c < sp_count r -> 0 <= k < sp_length r ->
      exists x, bin r c k = Some x /\
      bin r c k = either (meaning O p) (alone_on_the_right O p)
                         (operand_bin s c k) (operand_bin o c (if sp_length o =? 1 then 0 else k)).
Proof. exact @spectrum_op_ok. Qed.
Print Assumptions C21_spectrum_arithmetic.

(** All other combinations of lengths raise an exception. *)
Theorem C21_different_lengths : forall A R (O : ops A) junk (p : operator) (s o : spectrum A R),
  wf_spectrum s -> wf_spectrum o -> 1 <= sp_count s -> 1 <= sp_count o ->
  sp_length o <> sp_length s -> sp_length o <> 1 ->
  spectrum_op O junk p s o = Err ValueError.
Proof. exact @spectrum_op_lengths. Qed.
Print Assumptions C21_different_lengths.

Theorem C21_number : forall A R (O : ops A) junk (p : operator) (s : spectrum A R) (x : A), wf_spectrum s ->
  exists r r', spectrum_op_array O junk p s (scalar x) = Ok r /\ spectrum_op_array_right O junk p s (scalar x) = Ok r' /\
    (forall q, q = r \/ q = r' ->
       wf_spectrum q /\ resolution q = resolution s /\ sp_labels q = sp_labels s /\ sp_count q = sp_count s /\
       sp_length q = sp_length s) /\
    forall c k,
      bin r c k = option_map (fun a => meaning O p a x) (bin s c k) /\
      bin r' c k = option_map (fun a => meaning O p x a) (bin s c k).
Proof. exact @spectrum_number. Qed.
Print Assumptions C21_number.

Theorem C21_inverse : forall A R (O : ops A) junk (s : spectrum A R), wf_spectrum s ->
  exists r, spectrum_invert O junk s = Ok r /\ wf_spectrum r /\ resolution r = resolution s /\ sp_labels r = sp_labels s /\
    sp_count r = sp_count s /\ sp_length r = sp_length s /\
    forall c k, bin r c k = option_map (o_div O (o_one O)) (bin s c k).
Proof. exact @spectrum_inverse. Qed.
Print Assumptions C21_inverse.

Theorem C21_unary : forall A R (O : ops A) (conj : A -> A) (s : spectrum A R), wf_spectrum s ->
  forall q f, (q = spectrum_neg O s /\ f = o_neg O) \/ (q = spectrum_abs O s /\ f = o_abs O) \/
              (q = spectrum_conjugate conj s /\ f = conj) ->
    wf_spectrum q /\ resolution q = resolution s /\ sp_labels q = sp_labels s /\ sp_count q = sp_count s /\
    sp_length q = sp_length s /\ forall c k, bin q c k = option_map f (bin s c k).
Proof. exact @spectrum_unary. Qed.
Print Assumptions C21_unary.

Definition demo_spectrum_3 : spectrum Z Z := Spectrum (Arr [[1; 2]; [3; 4]; [5; 6]] 2) 10 ["x"; "y"; "z"]%string.
Definition demo_spectrum_2 : spectrum Z Z := Spectrum (Arr [[10; 20]; [30; 40]] 2) 10 ["p"; "q"]%string.

Example C21_example : exists r, spectrum_op Zops Zjunk OpSub demo_spectrum_2 demo_spectrum_3 = Ok r /\
  rows (sp_channels r) = [[9; 18]; [27; 36]; [0 - 5; 0 - 6]].
Proof. eexists. split; vm_compute; reflexivity. Qed.

(** * C42 Slicing, padding and comparing spectrums *)

Theorem C42_slice : forall A R (O : ops A) (s : spectrum A R) (ca cb ck ta tb tk : option Z),
  wf_spectrum s ->
  let cstep := match ck with Some k => k | None => 1 end in
  let tstep := match tk with Some k => k | None => 1 end in
  0 < cstep -> 0 < tstep ->
  exists r, spectrum_getitem s (KTuple [KSlice (option_map NInt ca) (option_map NInt cb) (option_map NInt ck);
                                        KSlice (option_map NInt ta) (option_map NInt tb) (option_map NInt tk)]) = Ok r /\
    wf_spectrum r /\ resolution r = resolution s /\
    (forall i, 0 <= i -> (i < sp_count r <-> selected ca cb (sp_count s) (starts_at ca (sp_count s) + i * cstep))) /\
    (forall j, 0 <= j -> (j < sp_length r <-> selected ta tb (sp_length s) (starts_at ta (sp_length s) + j * tstep))) /\
    (forall i, 0 <= i < sp_count r -> zth (sp_labels r) i = zth (sp_labels s) (starts_at ca (sp_count s) + i * cstep)) /\
    (forall i j, 0 <= i < sp_count r -> 0 <= j < sp_length r ->
       bin r i j = bin s (starts_at ca (sp_count s) + i * cstep) (starts_at ta (sp_length s) + j * tstep)).
Proof. exact @spectrum_slices. Qed.
Print Assumptions C42_slice.

Theorem C42_pad : forall A R (O : ops A) junk (s : spectrum A R) (n : Z) (v : A), wf_spectrum s -> 0 <= n ->
  exists r, spectrum_pad junk s n v = Ok r /\ wf_spectrum r /\ resolution r = resolution s /\
    sp_labels r = sp_labels s /\ sp_count r = sp_count s /\ sp_length r = n /\
    forall c k, 0 <= c < sp_count s -> 0 <= k < n ->
      bin r c k = Some (match bin s c k with Some x => x | None => v end).
Proof. exact @spectrum_pad_ok. Qed.
Print Assumptions C42_pad.

Theorem C42_equality : forall A R (O : ops A) (R_eqb : R -> R -> bool) (s o : spectrum A R),
  o_eqb O (o_zero O) (o_zero O) = true -> wf_spectrum s -> wf_spectrum o ->
  (spectrum_eqb O R_eqb s o = true <->
   R_eqb (resolution s) (resolution o) = true /\ sp_count s = sp_count o /\ sp_length s = sp_length o /\ sp_labels s = sp_labels o /\
   forall c k x y, bin s c k = Some x -> bin o c k = Some y -> o_eqb O x y = true).
Proof. exact @spectrum_eqb_ok. Qed.
Print Assumptions C42_equality.

Theorem C42_equivalence : forall A R (O : ops A) (R_eqb : R -> R -> bool),
  (forall x, o_eqb O x x = true) -> (forall x y, o_eqb O x y = o_eqb O y x) ->
  (forall x y z, o_eqb O x y = true -> o_eqb O y z = true -> o_eqb O x z = true) ->
  (forall x, R_eqb x x = true) -> (forall x y, R_eqb x y = R_eqb y x) ->
  (forall x y z, R_eqb x y = true -> R_eqb y z = true -> R_eqb x z = true) ->
  forall a b c : spectrum A R, wf_spectrum a -> wf_spectrum b -> wf_spectrum c ->
  spectrum_eqb O R_eqb a a = true /\ spectrum_eqb O R_eqb a b = spectrum_eqb O R_eqb b a /\
  (spectrum_eqb O R_eqb a b = true -> spectrum_eqb O R_eqb b c = true -> spectrum_eqb O R_eqb a c = true).
Proof. exact @spectrum_equivalence. Qed.
Print Assumptions C42_equivalence.

Theorem C42_hash : forall A R (O : ops A) (R_eqb : R -> R -> bool) H (hash_number : A -> H) (hash_float : R -> H) hash_int hash_str hash_tuple
    (s o : spectrum A R), o_eqb O (o_zero O) (o_zero O) = true -> wf_spectrum s -> wf_spectrum o ->
  (forall x y, o_eqb O x y = true -> hash_number x = hash_number y) ->
  (forall x y, R_eqb x y = true -> hash_float x = hash_float y) ->
  spectrum_eqb O R_eqb s o = true ->
  spectrum_hash hash_number hash_float hash_int hash_str hash_tuple s =
  spectrum_hash hash_number hash_float hash_int hash_str hash_tuple o.
Proof. exact @spectrum_hash_equal. Qed.
Print Assumptions C42_hash.

Example C42_example : exists r, spectrum_pad Zjunk demo_spectrum_2 3 7 = Ok r /\ rows (sp_channels r) = [[10; 20; 7]; [30; 40; 7]] /\
  spectrum_eqb Zops Z.eqb r demo_spectrum_2 = false.
Proof. eexists. split; [vm_compute; reflexivity|]. split; vm_compute; reflexivity. Qed.
