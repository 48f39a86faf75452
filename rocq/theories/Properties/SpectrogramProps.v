(** Properties of spectrograms: C22 (arithmetic) and C43 (slicing, padding, shifting, comparison).
    [O] stands for the arithmetic of the values, [junk] for the contents of freshly allocated memory. *)

From Coq Require Import String ZArith QArith List Bool Lia ZifyBool.
From Verif.Model Require Import Py Numpy Functions Signal Spectrum Cube Spectrogram.
From Verif.Spec Require Import TimeSpec SliceSpec FrequencySpec SpectrogramSpec Demo.
From Verif.Proofs Require Import PyFacts SignalHelpers SpectrogramFacts SpectrogramShape.
From Verif.Properties Require Import SignalProps.
Import ListNotations.
Open Scope Z_scope.

(** Two channels with two frequency bins and three samples at the times 5, 6, 7. *)
Definition demo_cube (layers : list (list (list Z))) (n0 n1 n2 : Z) : cube Z :=
  Cube n0 n1 n2 (fun i j k =>
    match zth layers i with
    | Some l => match zth l j with Some r => zth r k | None => None end
    | None => None
    end).
Definition demo_sg : spectrogram Z Z :=
  Spectrogram (demo_cube [[[1; 2; 3]; [4; 5; 6]]; [[7; 8; 9]; [10; 11; 12]]] 2 2 3) 10 100 5 ["x"; "y"]%string.
(** One channel, two bins, the time 7 and 8. *)
Definition demo_sg_1 : spectrogram Z Z := Spectrogram (demo_cube [[[100; 200]; [300; 400]]] 1 2 2) 10 100 7 ["z"]%string.
Definition Zjunk3 : Z -> Z -> Z -> Z := fun _ _ _ => 99.

(** * C22 Spectrogram arithmetic is time and frequency aligned *)

(** The values are those of the operands at the same frequency and the same time.  Subtracting zero and dividing by one has to be exact
    (it is for floating point numbers): the code reaches the values, that only the left operand has, in this way in some cases. *)
Theorem C22_spectrogram_arithmetic : forall A R (O : ops A) junk,
  (forall x, o_sub O x (o_zero O) = x) -> (forall x, o_div O x (o_one O) = x) ->
  forall (p : operator) (s o : spectrogram A R),
  wf_spectrogram s -> wf_spectrogram o -> 1 <= sg_count s -> 1 <= sg_count o ->
  exists r, spectrogram_op O junk p s o = Ok r /\ wf_spectrogram r /\
    sg_resolution r = sg_resolution s /\ sg_rate r = sg_rate s /\
    sg_count r = Z.max (sg_count s) (sg_count o) /\ sg_frequencies r = Z.max (sg_frequencies s) (sg_frequencies o) /\
    sg_begins r = Z.min (sg_begins s) (sg_begins o) /\ sg_ends r = Z.max (sg_ends s) (sg_ends o) /\
    (forall c, 0 <= c < sg_count r -> zth (sg_labels r) c = Some (label_of_result p)) /\
    forall c f t, 0 <= c < sg_count r -> 0 <= f < sg_frequencies r -> sg_begins r <= t < sg_ends r ->
      sg_at r c f t = Some (combination (meaning O p) (alone_on_the_right O p) (o_zero O) (operand_sg s c f t) (operand_sg o c f t)).
Proof. exact @spectrogram_op_ok. Qed.
Print Assumptions C22_spectrogram_arithmetic.

(** A signal has the same value in each frequency bin. *)
Theorem C22_with_signal : forall A R (O : ops A) junk,
  (forall x, o_sub O x (o_zero O) = x) -> (forall x, o_div O x (o_one O) = x) ->
  forall (p : operator) (s : spectrogram A R) (o : signal A),
  wf_spectrogram s -> wf_signal o -> 1 <= sg_count s -> 1 <= count o ->
  exists r r', spectrogram_op_signal O junk p s o = Ok r /\ signal_op_spectrogram O junk p o s = Ok r' /\
    (forall q, q = r \/ q = r' -> wf_spectrogram q /\
       sg_resolution q = sg_resolution s /\ sg_rate q = sg_rate s /\
       sg_count q = Z.max (sg_count s) (count o) /\ sg_frequencies q = sg_frequencies s /\
       sg_begins q = Z.min (sg_begins s) (begins o) /\ sg_ends q = Z.max (sg_ends s) (ends o) /\
       forall c, 0 <= c < sg_count q -> zth (sg_labels q) c = Some (label_of_result p)) /\
    forall c f t, 0 <= c < Z.max (sg_count s) (count o) -> 0 <= f < sg_frequencies s ->
      Z.min (sg_begins s) (begins o) <= t < Z.max (sg_ends s) (ends o) ->
      sg_at r c f t = Some (combination (meaning O p) (alone_on_the_right O p) (o_zero O) (operand_sg s c f t) (operand_at o c t)) /\
      sg_at r' c f t = Some (combination (meaning O p) (alone_on_the_right O p) (o_zero O) (operand_at o c t) (operand_sg s c f t)).
Proof. exact @spectrogram_op_signal_ok. Qed.
Print Assumptions C22_with_signal.

(** A spectrum has the same value at each time. *)
Theorem C22_with_spectrum : forall A R (O : ops A) junk,
  (forall x, o_sub O x (o_zero O) = x) -> (forall x, o_div O x (o_one O) = x) ->
  forall (p : operator) (s : spectrogram A R) (o : spectrum A R),
  wf_spectrogram s -> wf_spectrum o -> 1 <= sg_count s -> 1 <= sp_count o -> sp_length o = sg_frequencies s ->
  exists r r', spectrogram_op_spectrum O junk p s o = Ok r /\ spectrum_op_spectrogram O junk p o s = Ok r' /\
    (forall q, q = r \/ q = r' -> wf_spectrogram q /\
       sg_resolution q = sg_resolution s /\ sg_rate q = sg_rate s /\
       sg_count q = Z.max (sg_count s) (sp_count o) /\ sg_frequencies q = sg_frequencies s /\
       sg_begins q = sg_begins s /\ sg_ends q = sg_ends s /\
       forall c, 0 <= c < sg_count q -> zth (sg_labels q) c = Some (label_of_result p)) /\
    forall c f t, 0 <= c < Z.max (sg_count s) (sp_count o) -> 0 <= f < sg_frequencies s -> sg_begins s <= t < sg_ends s ->
      sg_at r c f t = either (meaning O p) (alone_on_the_right O p) (operand_sg s c f t) (operand_bin o c f) /\
      sg_at r' c f t = either (meaning O p) (alone_on_the_right O p) (operand_bin o c f) (operand_sg s c f t).
Proof. exact @spectrogram_op_spectrum_ok. Qed.
Print Assumptions C22_with_spectrum.

Theorem C22_with_spectrum_lengths : forall A R (O : ops A) junk (p : operator) (s : spectrogram A R) (o : spectrum A R),
  sp_length o <> sg_frequencies s ->
  spectrogram_op_spectrum O junk p s o = Err ValueError /\ spectrum_op_spectrogram O junk p o s = Err ValueError.
Proof. exact @spectrogram_op_spectrum_lengths. Qed.
Print Assumptions C22_with_spectrum_lengths.

Theorem C22_array : forall A R (O : ops A) junk (p : operator) (s : spectrogram A R) (x : cube A),
  wf_spectrogram s -> wf_cube x ->
  dim0 x = sg_count s \/ dim0 x = 1 -> dim1 x = sg_frequencies s \/ dim1 x = 1 -> dim2 x = sg_length s \/ dim2 x = 1 ->
  exists r r', spectrogram_op_array O junk p s x = Ok r /\ spectrogram_op_array_right O junk p s x = Ok r' /\
    (forall q, q = r \/ q = r' -> wf_spectrogram q /\
       sg_resolution q = sg_resolution s /\ sg_rate q = sg_rate s /\ sg_labels q = sg_labels s /\
       sg_count q = sg_count s /\ sg_frequencies q = sg_frequencies s /\ sg_begins q = sg_begins s /\ sg_ends q = sg_ends s) /\
    forall c f k, 0 <= c < sg_count s -> 0 <= f < sg_frequencies s -> 0 <= k < sg_length s ->
      exists a b, sg_at s c f (sg_begins s + k) = Some a /\
        cell x (if dim0 x =? 1 then 0 else c) (if dim1 x =? 1 then 0 else f) (if dim2 x =? 1 then 0 else k) = Some b /\
        sg_at r c f (sg_begins s + k) = Some (meaning O p a b) /\
        sg_at r' c f (sg_begins s + k) = Some (meaning O p b a).
Proof. exact @spectrogram_op_array_ok. Qed.
Print Assumptions C22_array.

Theorem C22_number : forall A R (O : ops A) junk (p : operator) (s : spectrogram A R) (x : A), wf_spectrogram s ->
  exists r r', spectrogram_op_array O junk p s (scalar3 x) = Ok r /\ spectrogram_op_array_right O junk p s (scalar3 x) = Ok r' /\
    (forall q, q = r \/ q = r' -> wf_spectrogram q /\
       sg_resolution q = sg_resolution s /\ sg_rate q = sg_rate s /\ sg_labels q = sg_labels s /\
       sg_count q = sg_count s /\ sg_frequencies q = sg_frequencies s /\ sg_begins q = sg_begins s /\ sg_ends q = sg_ends s) /\
    forall c f t, sg_at r c f t = option_map (fun a => meaning O p a x) (sg_at s c f t) /\
                  sg_at r' c f t = option_map (fun a => meaning O p x a) (sg_at s c f t).
Proof. exact @spectrogram_op_number_ok. Qed.
Print Assumptions C22_number.

Theorem C22_unary : forall A R (O : ops A) (conj : A -> A) (s : spectrogram A R), wf_spectrogram s ->
  forall q f, (q = spectrogram_neg O s /\ f = o_neg O) \/ (q = spectrogram_abs O s /\ f = o_abs O) \/
              (q = spectrogram_conjugate conj s /\ f = conj) ->
    wf_spectrogram q /\ sg_resolution q = sg_resolution s /\ sg_rate q = sg_rate s /\ sg_labels q = sg_labels s /\
    sg_count q = sg_count s /\ sg_frequencies q = sg_frequencies s /\ sg_begins q = sg_begins s /\ sg_ends q = sg_ends s /\
    forall c k t, sg_at q c k t = option_map f (sg_at s c k t).
Proof. exact @spectrogram_unary_ok. Qed.
Print Assumptions C22_unary.

Example C22_example : exists r, spectrogram_op Zops Zjunk3 OpSub demo_sg demo_sg_1 = Ok r /\ sg_begins r = 5 /\
  elements3 (sg_channels r) = [1; 2; 3 - 100; 0 - 200; 4; 5; 6 - 300; 0 - 400; 7; 8; 9 - 100; 0 - 200; 10; 11; 12 - 300; 0 - 400].
Proof. eexists. split; [vm_compute; reflexivity|]. split; vm_compute; reflexivity. Qed.

(** The signal [demo_c] has the values 10, 20 at the times 1, 2. *)
Example C22_signal_example : exists r, signal_op_spectrogram Zops Zjunk3 OpDiv demo_c demo_sg_1 = Ok r /\ sg_begins r = 1 /\ sg_ends r = 9 /\
  elements3 (sg_channels r) = [10; 20; 0; 0; 0; 0; 1 / 100; 1 / 200; 10; 20; 0; 0; 0; 0; 1 / 300; 1 / 400].
Proof. eexists. split; [vm_compute; reflexivity|]. repeat split; vm_compute; reflexivity. Qed.

Example C22_spectrum_example : exists r,
  spectrum_op_spectrogram Zops Zjunk3 OpSub (Spectrum (Arr [[50; 60]] 2) 10 ["p"%string]) demo_sg_1 = Ok r /\
  elements3 (sg_channels r) = [50 - 100; 50 - 200; 60 - 300; 60 - 400].
Proof. eexists. split; vm_compute; reflexivity. Qed.

(** The demonstration data meets the hypotheses. *)
Example C22_hypotheses : (forall x, o_sub Zops x (o_zero Zops) = x) /\ (forall x, o_div Zops x (o_one Zops) = x) /\
  wf_spectrogram demo_sg /\ wf_spectrogram demo_sg_1 /\ wf_signal demo_c.
Proof.
  split; [exact Z.sub_0_r|]. split; [exact Z.div_1_r|]. 
  assert (W : forall l n0 n1 n2, 0 <= n0 -> 0 <= n1 -> 0 <= n2 -> zlen l = n0 ->
    (forall x, In x l -> zlen x = n1 /\ forall y, In y x -> zlen y = n2) -> wf_cube (demo_cube l n0 n1 n2)).
  { intros l n0 n1 n2 H0 H1 H2 L0 L. split; [auto|]. split; [auto|]. split; [auto|]. intros i j k. cbn [demo_cube cell dim0 dim1 dim2]. split.
    - intros [x X]. destruct (zth l i) as [m|] eqn:I; [|discriminate]. destruct (zth m j) as [r|] eqn:J; [|discriminate].
      apply zth_In in I as I'. destruct (L m I') as [L1 L']. apply zth_In in J as J'. specialize (L' r J').
      apply zth_range in I, J, X. unfold inside. lia.
    - intros H. unfold inside in H. destruct (zth_in l i) as [m M]; [lia|]. rewrite M.
      apply zth_In in M as I'. destruct (L m I') as [L1 L']. destruct (zth_in m j) as [r J]; [lia|]. rewrite J.
      apply zth_In in J as J'. apply zth_in. rewrite L' by auto. lia. }
  split; [|split; [|exact demo_c_wf]].
  - split; [|reflexivity]. apply W; try lia; [reflexivity|].
    intros x [<-|[<-|[]]]; (split; [reflexivity|]); intros y [<-|[<-|[]]]; reflexivity.
  - split; [|reflexivity]. apply W; try lia; [reflexivity|].
    intros x [<-|[]]; (split; [reflexivity|]); intros y [<-|[<-|[]]]; reflexivity.
Qed.

(** * C43 Slicing, padding, shifting and comparing spectrograms *)

Theorem C43_slice : forall A R (s : spectrogram A R) (ca cb ck fa fb fk ta tb tk : option Z),
  let step k := match k with Some k => k | None => 1 end in
  wf_spectrogram s -> 0 < step ck -> 0 < step fk -> 0 < step tk ->
  exists r, spectrogram_getitem s (KTuple [KSlice (option_map NInt ca) (option_map NInt cb) (option_map NInt ck);
                                           KSlice (option_map NInt fa) (option_map NInt fb) (option_map NInt fk);
                                           KSlice (option_map NInt ta) (option_map NInt tb) (option_map NInt tk)]) = Ok r /\
    wf_spectrogram r /\ sg_resolution r = sg_resolution s /\ sg_rate r = sg_rate s /\
    (forall i, 0 <= i -> (i < sg_count r <-> selected ca cb (sg_count s) (starts_at ca (sg_count s) + i * step ck))) /\
    (forall j, 0 <= j -> (j < sg_frequencies r <-> selected fa fb (sg_frequencies s) (starts_at fa (sg_frequencies s) + j * step fk))) /\
    (forall k, 0 <= k -> (k < sg_length r <-> selected ta tb (sg_length s) (starts_at ta (sg_length s) + k * step tk))) /\
    (forall i, 0 <= i < sg_count r -> zth (sg_labels r) i = zth (sg_labels s) (starts_at ca (sg_count s) + i * step ck)) /\
    (forall i j k, 0 <= i < sg_count r -> 0 <= j < sg_frequencies r -> 0 <= k < sg_length r ->
       sg_at r i j (sg_begins r + k) =
       sg_at s (starts_at ca (sg_count s) + i * step ck) (starts_at fa (sg_frequencies s) + j * step fk)
               (sg_begins s + starts_at ta (sg_length s) + k * step tk)) /\
    (match ta with Some a => - sg_length s <= a <= sg_length s | None => True end ->
     sg_begins r = sg_begins s + starts_at ta (sg_length s)).
Proof. exact @spectrogram_slices. Qed.
Print Assumptions C43_slice.

Theorem C43_pad : forall A R junk (s : spectrogram A R) (n : Z) (value : A), wf_spectrogram s -> 0 <= n ->
  exists r, spectrogram_pad junk s n value = Ok r /\ wf_spectrogram r /\
    sg_resolution r = sg_resolution s /\ sg_rate r = sg_rate s /\ sg_begins r = sg_begins s /\ sg_labels r = sg_labels s /\
    sg_count r = sg_count s /\ sg_frequencies r = sg_frequencies s /\ sg_length r = n /\
    forall c f t, 0 <= c < sg_count s -> 0 <= f < sg_frequencies s -> sg_begins s <= t < sg_begins s + n ->
      sg_at r c f t = Some (match sg_at s c f t with Some x => x | None => value end).
Proof. exact @spectrogram_pad_ok. Qed.
Print Assumptions C43_pad.

Theorem C43_pad_negative : forall A R junk (s : spectrogram A R) (n : Z) (value : A), wf_spectrogram s -> n < 0 ->
  spectrogram_pad junk s n value = Err ValueError.
Proof. exact @spectrogram_pad_negative. Qed.
Print Assumptions C43_pad_negative.

Theorem C43_shift_offset : forall A R (O : ops A) junk (s : spectrogram A R) (k : Z), wf_spectrogram s ->
  exists r, spectrogram_shift O junk s (Some k) SHIFT_OFFSET = Ok r /\ wf_spectrogram r /\
    sg_resolution r = sg_resolution s /\ sg_rate r = sg_rate s /\ sg_labels r = sg_labels s /\
    sg_count r = sg_count s /\ sg_frequencies r = sg_frequencies s /\ sg_length r = sg_length s /\
    sg_begins r = sg_begins s + k /\ forall c f t, sg_at r c f t = sg_at s c f (t - k).
Proof. exact @sg_shift_offset_ok. Qed.
Print Assumptions C43_shift_offset.

Theorem C43_shift_none : forall A R (O : ops A) junk (s : spectrogram A R), wf_spectrogram s ->
  exists r, spectrogram_shift O junk s None SHIFT_OFFSET = Ok r /\ wf_spectrogram r /\
    sg_resolution r = sg_resolution s /\ sg_rate r = sg_rate s /\ sg_labels r = sg_labels s /\
    sg_channels r = sg_channels s /\ sg_begins r = 0.
Proof. exact @sg_shift_none_ok. Qed.
Print Assumptions C43_shift_none.

Theorem C43_shift_crop : forall A R (O : ops A) junk (s : spectrogram A R) (k : Z), wf_spectrogram s ->
  exists r, spectrogram_shift O junk s (Some k) SHIFT_CROP = Ok r /\ wf_spectrogram r /\
    sg_resolution r = sg_resolution s /\ sg_rate r = sg_rate s /\ sg_begins r = sg_begins s /\ sg_labels r = sg_labels s /\
    sg_count r = sg_count s /\ sg_frequencies r = sg_frequencies s /\ sg_length r = sg_length s /\
    forall c f t, 0 <= c < sg_count s -> 0 <= f < sg_frequencies s -> sg_begins s <= t < sg_ends s ->
      sg_at r c f t = Some (match sg_at s c f (t - k) with Some x => x | None => o_zero O end).
Proof. exact @sg_shift_crop_ok. Qed.
Print Assumptions C43_shift_crop.

Theorem C43_shift_pad : forall A R (O : ops A) junk (s : spectrogram A R) (k : Z), wf_spectrogram s -> 0 <= k ->
  exists r, spectrogram_shift O junk s (Some k) SHIFT_PAD = Ok r /\ wf_spectrogram r /\
    sg_resolution r = sg_resolution s /\ sg_rate r = sg_rate s /\ sg_begins r = sg_begins s /\ sg_labels r = sg_labels s /\
    sg_count r = sg_count s /\ sg_frequencies r = sg_frequencies s /\ sg_length r = sg_length s + k /\
    forall c f t, 0 <= c < sg_count s -> 0 <= f < sg_frequencies s -> sg_begins s <= t < sg_ends s + k ->
      sg_at r c f t = Some (match sg_at s c f (t - k) with Some x => x | None => o_zero O end).
Proof. exact @sg_shift_pad_ok. Qed.
Print Assumptions C43_shift_pad.

(** As for signals, a negative shift in the mode PAD appends zeros and moves nothing. *)
Theorem C43_shift_pad_negative : forall A R (O : ops A) junk (s : spectrogram A R) (k : Z), wf_spectrogram s -> k < 0 ->
  exists r, spectrogram_shift O junk s (Some k) SHIFT_PAD = Ok r /\ wf_spectrogram r /\
    sg_resolution r = sg_resolution s /\ sg_rate r = sg_rate s /\ sg_begins r = sg_begins s /\ sg_labels r = sg_labels s /\
    sg_count r = sg_count s /\ sg_frequencies r = sg_frequencies s /\ sg_length r = sg_length s - k /\
    forall c f t, 0 <= c < sg_count s -> 0 <= f < sg_frequencies s -> sg_begins s <= t < sg_ends s - k ->
      sg_at r c f t = Some (match sg_at s c f t with Some x => x | None => o_zero O end).
Proof. exact @sg_shift_pad_negative. Qed.
Print Assumptions C43_shift_pad_negative.

(** A rotation, if the shift is not larger than the spectrogram; otherwise nothing is moved. *)
Theorem C43_shift_cycle : forall A R (O : ops A) junk (s : spectrogram A R) (k : Z), wf_spectrogram s ->
  exists r, spectrogram_shift O junk s (Some k) SHIFT_CYCLE = Ok r /\ wf_spectrogram r /\
    sg_resolution r = sg_resolution s /\ sg_rate r = sg_rate s /\ sg_begins r = sg_begins s /\ sg_labels r = sg_labels s /\
    sg_count r = sg_count s /\ sg_frequencies r = sg_frequencies s /\ sg_length r = sg_length s /\
    forall c f t, 0 <= c < sg_count s -> 0 <= f < sg_frequencies s -> sg_begins s <= t < sg_ends s ->
      sg_at r c f t =
      if Z.abs k <=? sg_length s then sg_at s c f (sg_begins s + (t - sg_begins s - k) mod sg_length s)
      else sg_at s c f t.
Proof. exact @sg_shift_cycle_ok. Qed.
Print Assumptions C43_shift_cycle.

Theorem C43_equality : forall A R (O : ops A) (R_eqb : R -> R -> bool) (s o : spectrogram A R), wf_spectrogram s -> wf_spectrogram o ->
  (spectrogram_eqb O R_eqb s o = true <->
   R_eqb (sg_resolution s) (sg_resolution o) = true /\ R_eqb (sg_rate s) (sg_rate o) = true /\
   sg_begins s = sg_begins o /\ sg_ends s = sg_ends o /\ sg_count s = sg_count o /\ sg_frequencies s = sg_frequencies o /\
   sg_labels s = sg_labels o /\
   forall c f t x y, sg_at s c f t = Some x -> sg_at o c f t = Some y -> o_eqb O x y = true).
Proof. exact @spectrogram_eqb_ok. Qed.
Print Assumptions C43_equality.

Theorem C43_equivalence : forall A R (O : ops A) (R_eqb : R -> R -> bool),
  (forall x, o_eqb O x x = true) -> (forall x y, o_eqb O x y = o_eqb O y x) ->
  (forall x y z, o_eqb O x y = true -> o_eqb O y z = true -> o_eqb O x z = true) ->
  (forall x, R_eqb x x = true) -> (forall x y, R_eqb x y = R_eqb y x) ->
  (forall x y z, R_eqb x y = true -> R_eqb y z = true -> R_eqb x z = true) ->
  forall a b c : spectrogram A R, wf_spectrogram a -> wf_spectrogram b -> wf_spectrogram c ->
  spectrogram_eqb O R_eqb a a = true /\ spectrogram_eqb O R_eqb a b = spectrogram_eqb O R_eqb b a /\
  (spectrogram_eqb O R_eqb a b = true -> spectrogram_eqb O R_eqb b c = true -> spectrogram_eqb O R_eqb a c = true).
Proof. exact @spectrogram_equivalence. Qed.
Print Assumptions C43_equivalence.

Theorem C43_hash : forall A R (O : ops A) (R_eqb : R -> R -> bool) H (hash_number : A -> H) (hash_float : R -> H) hash_int hash_str hash_tuple
    (s o : spectrogram A R), wf_spectrogram s -> wf_spectrogram o ->
  (forall x y, o_eqb O x y = true -> hash_number x = hash_number y) ->
  (forall x y, R_eqb x y = true -> hash_float x = hash_float y) ->
  spectrogram_eqb O R_eqb s o = true ->
  spectrogram_hash hash_number hash_float hash_int hash_str hash_tuple s =
  spectrogram_hash hash_number hash_float hash_int hash_str hash_tuple o.
Proof. exact @spectrogram_hash_ok. Qed.
Print Assumptions C43_hash.

Example C43_example : exists r r' r'',
  spectrogram_getitem demo_sg (KTuple [KSlice (Some (NInt 1)) None None; KSlice None (Some (NInt 1)) None; KSlice (Some (NInt (-2))) None None]) = Ok r /\
  elements3 (sg_channels r) = [8; 9] /\ sg_begins r = 6 /\ sg_labels r = ["y"%string] /\
  spectrogram_shift Zops Zjunk3 demo_sg (Some (-1)) SHIFT_CYCLE = Ok r' /\
  elements3 (sg_channels r') = [2; 3; 1; 5; 6; 4; 8; 9; 7; 11; 12; 10] /\
  spectrogram_pad Zjunk3 demo_sg_1 3 7 = Ok r'' /\ elements3 (sg_channels r'') = [100; 200; 7; 300; 400; 7] /\
  spectrogram_eqb Zops Z.eqb demo_sg demo_sg = true /\ spectrogram_eqb Zops Z.eqb demo_sg r' = false.
Proof.
  do 3 eexists. split; [vm_compute; reflexivity|]. do 3 (split; [vm_compute; reflexivity|]).
  split; [vm_compute; reflexivity|]. split; [vm_compute; reflexivity|]. split; [vm_compute; reflexivity|]. repeat split; vm_compute; reflexivity.
Qed.
