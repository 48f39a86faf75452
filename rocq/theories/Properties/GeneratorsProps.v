(** C36: windows; C37: Rudin-Shapiro noise; C38: energy decay curves; C39: maximum length sequences; C40: fades. *)

From Coq Require Import Reals String ZArith QArith List Bool Lia ZifyBool.
From Verif.Model Require Import Py Numpy Functions Signal Spectrum Generators.
From Verif.Spec Require Import TimeSpec FrequencySpec ConcatSpec Demo GeneratorsSpec RealSpec.
From Verif.Proofs Require Import PyFacts FadeFacts SequenceFacts EnergyFacts.
Import ListNotations.
Open Scope list_scope.
Open Scope Z_scope.

(** * C36 Windows *)

(** A window function returns as many samples as it is asked for. *)
Definition sized {A} (w : Z -> list A) : Prop := forall n, 0 <= n -> zlen (w n) = n.

(** Without a plateau, the samples are the window function's for the requested length, or all but the last of those for the
    length plus one, if the window shall be periodic.  With a plateau, which is lengthened by one sample if the rest
    cannot be distributed evenly, the samples are 1 on the plateau, those of the first half of a window before it, and those of
    the second half after it. *)
Theorem C36_plateau : forall A (O : ops A) (w : Z -> list A), sized w ->
  forall junk rate label plateau length symmetric p, 0 <= length -> index plateau length = Ok p -> 0 <= p <= length ->
  exists s, window O junk rate w label plateau length symmetric = Ok s /\ wf_signal s /\ count s = 1 /\ begins s = 0 /\ ends s = length /\
    sampling_rate s = rate /\ labels s = [label] /\ (forall t, 0 <= t < length -> at_time s 0 t <> None) /\
    (p = 0 -> forall t, 0 <= t < length -> at_time s 0 t = zth (w (if symmetric then length else length + 1)) t) /\
    (0 < p -> exists f, length - 2 * f = p + (length - p) mod 2 /\ 0 <= f /\
      let n := if symmetric then 2 * f else 2 * f + 1 in
      (forall t, 0 <= t < f -> at_time s 0 t = zth (w n) t) /\
      (forall t, f <= t < length - f -> at_time s 0 t = Some (o_one O)) /\
      (forall t, length - f <= t < length -> at_time s 0 t = zth (w n) (t - length + 2 * f))).
Proof. exact @window_ok. Qed.
Print Assumptions C36_plateau.

(** If the window function's values are symmetric, then the window is equal to its reversal, ... *)
Theorem C36_symmetric : forall A (O : ops A) (w : Z -> list A), sized w ->
  forall junk rate label plateau length p s, 0 <= length -> index plateau length = Ok p -> 0 <= p <= length ->
  (forall n, 0 <= n -> mirrored (w n)) -> window O junk rate w label plateau length true = Ok s ->
  forall t, 0 <= t < length -> at_time s 0 t = at_time s 0 (length - 1 - t).
Proof. exact @window_symmetric. Qed.
Print Assumptions C36_symmetric.

(** ... or, if it is not requested to be symmetric, its periodic continuation is symmetric around the sample 0.
    With a plateau, the window function's value in the middle must be 1. *)
Theorem C36_periodic : forall A (O : ops A) (w : Z -> list A), sized w ->
  forall junk rate label plateau length p s, 0 <= length -> index plateau length = Ok p -> 0 <= p <= length ->
  (forall n, 0 <= n -> mirrored (w n)) -> (0 < p -> forall n, 0 <= n -> zth (w (2 * n + 1)) n = Some (o_one O)) ->
  window O junk rate w label plateau length false = Ok s ->
  forall t, 1 <= t < length -> at_time s 0 t = at_time s 0 (length - t).
Proof. exact @window_periodic. Qed.
Print Assumptions C36_periodic.

(** The case: a triangle, with and without a plateau *)
Definition triangle (n : Z) : list Z := map (fun i => Z.min (i + 1) (n - i)) (zseq 0 n).

Lemma triangle_sized : sized triangle.
Proof. intros n N. unfold triangle. rewrite zlen_map, zlen_seq. lia. Qed.

Lemma triangle_mirrored n : 0 <= n -> mirrored (triangle n).
Proof.
  intros N i. rewrite (triangle_sized n N). unfold triangle. rewrite !zth_map, !zth_seq.
  destruct (_ && _) eqn:B; destruct (_ && _) eqn:B' in |- *; try lia; cbn; [f_equal; lia|reflexivity].
Qed.

Example C36_case :
  match window Zops (fun _ => 99) 48000 triangle "Triangle" (NInt 0) 5 true with
  | Ok s => rows (channels s) = [[1; 2; 3; 2; 1]] | Err _ => False end /\
  match window Zops (fun _ => 99) 48000 triangle "Triangle" (NFloat (1 # 4)) 8 true with
  | Ok s => rows (channels s) = [[1; 2; 3; 1; 1; 3; 2; 1]] | Err _ => False end /\
  match window Zops (fun _ => 99) 48000 triangle "Triangle" (NInt 0) 4 false with
  | Ok s => rows (channels s) = [[1; 2; 3; 2]] | Err _ => False end /\
  index (NFloat (1 # 4)) 8 = Ok 2.
Proof. repeat split. Qed.

(** * C37 Rudin-Shapiro noise *)

(** The sequence's recursion: r(2n) = r(n) and r(2n+1) = -r(n), if n is odd, or r(n), if n is even. *)
Theorem C37_recursion : forall A (O : ops A), o_neg O (o_neg O (o_one O)) = o_one O ->
  let r := rudin_shapiro_value O in
  r 0 = o_one O /\ forall n, 0 <= n -> r (2 * n) = r n /\ r (2 * n + 1) = if Z.odd n then o_neg O (r n) else r n.
Proof. exact @value_recursion. Qed.
Print Assumptions C37_recursion.

(** The spectrum's bins between the start and the stop frequency are the elements of the sequence, all others are 0,
    for all start and stop frequencies and lengths. *)
Theorem C37_bins : forall A (O : ops A), o_neg O (o_neg O (o_one O)) = o_one O ->
  forall junk start stop res length, 0 <= length -> 0 <= py_round (start / res) ->
  (forall q, stop = Some q -> 0 <= py_round (q / res)) ->
  let lo := py_round (start / res) in
  let hi := match stop with None => length | Some q => py_round (q / res) end in
  exists s n, rudin_shapiro O junk start stop res length = Ok (s, n) /\ wf_spectrum s /\ sp_count s = 1 /\ sp_length s = length /\
    resolution s = res /\ n = Z.min hi length - Z.min lo length /\
    forall k, 0 <= k < length -> bin s 0 k = Some (if (lo <=? k) && (k <? hi) then rudin_shapiro_value O (k - lo) else o_zero O).
Proof. exact @rudin_shapiro_ok. Qed.
Print Assumptions C37_bins.

Example C37_case :
  match rudin_shapiro Zops (fun _ => 99) 20 (Some 130)%Q 10 15 with
  | Ok (s, n) => rows (sp_channels s) = [[0; 0; 1; 1; 1; -1; 1; 1; -1; 1; 1; 1; 1; 0; 0]] /\ n = 11 | Err _ => False end /\
  py_round (20 / 10) = 2 /\ py_round (130 / 10) = 13.
Proof. vm_compute. auto. Qed.

(** * C38 Energy decay curves *)

(** For samples with an exact addition, the value at each time is the energy of the rest of the signal from this time on. *)
Theorem C38_tail_energy : forall A (O : ops A), exact_addition O -> forall s, wf_signal s ->
  let r := energy_decay O s in
  wf_signal r /\ count r = count s /\ begins r = begins s /\ ends r = ends s /\ sampling_rate r = sampling_rate s /\ labels r = labels s /\
  forall c t, at_time r c t = match zth (rows (channels s)) c with
    | Some l => if (begins s <=? t) && (t <? ends s) then Some (energy O (zdrop (t - begins s) l)) else None
    | None => None
    end.
Proof. exact @energy_decay_ok. Qed.
Print Assumptions C38_tail_energy.

(** For real samples, the curve never increases and is never negative. *)
Theorem C38_decreasing : forall power modulo s c t u x y, wf_signal s -> t <= u ->
  at_time (energy_decay (real_ops power modulo) s) c t = Some x ->
  at_time (energy_decay (real_ops power modulo) s) c u = Some y -> (0 <= y <= x)%R.
Proof. exact energy_decreasing. Qed.
Print Assumptions C38_decreasing.

Example C38_case :
  rows (channels (energy_decay Zops demo_ab)) = [[14; 13; 9]; [77; 61; 36]] /\ exact_addition Zops /\
  at_time (energy_decay Zops demo_ab) 1 0 = Some (energy Zops [5; 6]).
Proof. split; [reflexivity|]. split; [|reflexivity]. repeat split; cbn; intros; lia. Qed.

(** * C39 Maximum length sequences *)

(** [initial] and [position] are what the random number generator returns, [max_len_seq] is SciPy's function. *)
Theorem C39_sequence : forall A (O : ops A),
  o_sub O (o_mul O (o_one O) (o_add O (o_one O) (o_one O))) (o_one O) = o_one O ->
  o_sub O (o_mul O (o_zero O) (o_add O (o_one O) (o_one O))) (o_one O) = o_neg O (o_one O) ->
  forall initial position max_len_seq, (forall b, 0 <= b -> zlen (initial b) = b) -> (forall n, 0 < n -> 0 <= position n < n) ->
  scipy_max_len_seq max_len_seq ->
  forall rate bits length b n, mls_parameters bits length b n -> 2 <= b <= 32 -> 0 <= n ->
  exists s, mls O rate initial position max_len_seq bits length = Ok (s, b) /\ wf_signal s /\ count s = 1 /\ begins s = 0 /\ ends s = n /\
    sampling_rate s = rate /\ labels s = ["MLS"%string] /\
    forall t, 0 <= t < n -> at_time s 0 t = Some (o_one O) \/ at_time s 0 t = Some (o_neg O (o_one O)).
Proof. exact @mls_run. Qed.
Print Assumptions C39_sequence.

(** A length of 0 or 1 without a number of bits raises an exception. *)
Theorem C39_short_refuted : forall A (O : ops A) initial position max_len_seq, (forall b, 0 <= b -> zlen (initial b) = b) ->
  scipy_max_len_seq max_len_seq ->
  forall rate n, 0 <= n < 2 -> mls O rate initial position max_len_seq None (Some n) = Err ValueError.
Proof. exact @mls_short. Qed.
Print Assumptions C39_short_refuted.

(** The case: a length of 5 takes 3 bits; the random numbers are all 0. *)
Example C39_case :
  let demo bits state length :=
    if (2 <=? bits) && (bits <=? 32) && (zlen state =? bits) && existsb (fun x => x) state && (0 <=? length)
    then Ok (map Z.odd (zseq 0 length)) else Err ValueError in
  scipy_max_len_seq demo /\ mls_parameters None (Some 5) 3 5 /\
  match mls Zops 48000 (zrepeat false) (fun n => 0) demo None (Some 5) with
  | Ok (s, b) => rows (channels s) = [[-1; 1; -1; 1; -1]] /\ b = 3 | Err _ => False end.
Proof.
  split; [|split].
  - intros bits state length. split.
    + intros B L E N. exists (map Z.odd (zseq 0 length)). split.
      * rewrite E. do 4 (replace (_ && _) with true by lia || idtac).
        replace (2 <=? bits) with true by lia. replace (bits <=? 32) with true by lia. replace (zlen state =? bits) with true by lia.
        replace (0 <=? length) with true by lia. reflexivity.
      * rewrite zlen_map, zlen_seq. lia.
    + intros B. destruct (2 <=? bits) eqn:B1, (bits <=? 32) eqn:B2; cbn; try reflexivity. lia.
  - cbn. repeat split; try lia. intros c C H. destruct (Z_le_gt_dec 3 c); auto.
    assert (c = 0 \/ c = 1 \/ c = 2) as [-> | [-> | ->]] by lia; cbn in H; lia.
  - vm_compute. auto.
Qed.

(** * C40 Fades *)

(** All samples of a fade: the product of a rising and a falling slope, if the fade in comes first, and their sum, if the fade
    out comes first. *)
Theorem C40_slopes : forall A (O : ops A), zero_one_laws O -> forall w, sized w ->
  forall junk rate rise fall length r f, 0 <= length -> rise_interval rise length r -> fall_interval fall length f ->
  inside length r -> inside length f ->
  exists s, fade O junk rate w rise fall length = Ok s /\ wf_signal s /\ count s = 1 /\ begins s = 0 /\ ends s = length /\
    sampling_rate s = rate /\
    forall t, 0 <= t < length -> at_time s 0 t =
      if out_first r f then lift2 (o_add O) (falling_or_one O w f t) (rising_or_one O w r t)
      else lift2 (o_mul O) (rising_or_one O w r t) (falling_or_one O w f t).
Proof. exact @fade_ok. Qed.
Print Assumptions C40_slopes.

(** Values between 0 and 1 stay there, if the fade out is not before the fade in: [P] is any set of values with 0 and 1 and with
    the products of its elements. *)
Theorem C40_range : forall A (O : ops A) w (P : A -> Prop) r f t x, P (o_zero O) -> P (o_one O) ->
  (forall n y, 0 <= n -> In y (w n) -> P y) -> (forall y z, P y -> P z -> P (o_mul O y z)) ->
  lift2 (o_mul O) (rising_or_one O w r t) (falling_or_one O w f t) = Some x -> P x.
Proof. exact @fade_closed. Qed.
Print Assumptions C40_range.

(** So they do, if the fade out ends before the fade in begins. *)
Theorem C40_range_disjoint_partial : forall A (O : ops A), zero_one_laws O ->
  forall w (P : A -> Prop) a b c d t x, P (o_zero O) -> P (o_one O) -> (forall n y, 0 <= n -> In y (w n) -> P y) ->
  c <= d -> d <= a -> lift2 (o_add O) (falling O w c d t) (rising O w a b t) = Some x -> P x.
Proof. exact @fade_disjoint. Qed.
Print Assumptions C40_range_disjoint_partial.

(** But a fade in, that begins during the fade out, adds up to more than 1. *)
Theorem C40_range_refuted : exists w rise fall s t, sized w /\ (forall n y, 0 <= n -> In y (w n) -> 0 <= y <= 1) /\
  fade Zops (fun _ => 99) 48000 w rise fall 4 = Ok s /\ at_time s 0 t = Some 2.
Proof.
  exists (zrepeat 1), (IPair (NInt 1) (NInt 3)), (IPair (NInt 0) (NInt 2)). eexists. exists 1. split; [|split; [|split]].
  - intros n N. rewrite zlen_repeat. lia.
  - intros n y _ Y. apply repeat_spec in Y. lia.
  - reflexivity.
  - reflexivity.
Qed.
Print Assumptions C40_range_refuted.

Example C40_case :
  zero_one_laws Zops /\
  match fade Zops (fun _ => 99) 48000 triangle (INumber (NInt 3)) (IPair (NInt (-4)) (NInt (-1))) 10 with
  | Ok s => rows (channels s) = [[1; 2; 3; 1; 1; 1; 3; 2; 1; 0]] | Err _ => False end /\
  match fade Zops (fun _ => 99) 48000 triangle (IPair (NInt 6) (NInt 8)) (IPair (NInt 1) (NInt 3)) 10 with
  | Ok s => rows (channels s) = [[1; 2; 1; 0; 0; 0; 1; 2; 1; 1]] | Err _ => False end /\
  rise_interval (IPair (NInt 6) (NInt 8)) 10 (Some (6, 8)) /\ fall_interval (IPair (NInt (-4)) (NInt (-1))) 10 (Some (6, 9)) /\
  inside 10 (Some (6, 8)).
Proof.
  split; [repeat split; cbn -[Z.mul Z.add]; lia|]. split; [vm_compute; auto|]. split; [vm_compute; auto|]. split; [vm_compute; auto|].
  split; [vm_compute; auto|]. cbn. lia.
Qed.
