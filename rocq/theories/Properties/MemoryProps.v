(** Property C74: signals and spectrums that share their samples in the memory.  [junk] is the contents of freshly allocated memory. *)

From Coq Require Import String ZArith List Bool Lia Reals.
From Verif.Model Require Import Py Numpy Vector Functions Signal Spectrum Fft Fourier Text Merge Concatenate Sweeps Memory SpectrumMemory SpectrumParts.
From Verif.Spec Require Import TimeSpec RealSpec ComplexSpec DftSpec FourierSpec SweepSpec HarmonicSpec MemorySpec SpectrumMemorySpec Demo.
From Verif.Proofs Require Import MemoryFacts MemoryWrites MemoryCases SpectrumMemoryFacts SpectrumPartsFacts SweepCases.
Import ListNotations.
Open Scope Z_scope.

(** Programs, that compute signals from signals, have the same results and the same exceptions, as if each signal had a memory of its own; all signals, that
    have existed before, remain as they were.  The existing signals may share their samples in any way. *)
Theorem C74_programs : forall A (O : ops A) junk program m env, Forall (placed m) env ->
  match run O junk m env program with
  | Ok (m', env') => run_values O junk (map (values m) env) program = Ok (map (values m') env') /\
      (exists new, env' = env ++ new) /\ map (values m') env = map (values m) env /\ Forall (placed m') env'
  | Err e => run_values O junk (map (values m) env) program = Err e
  end.
Proof. exact @run_sound. Qed.
Print Assumptions C74_programs.

(** The case: a signal, a slice of it, the reversed slice, the sum of both, and the shifted sum *)
Example C74_programs_case : let (m, x) := store (Memory (fun _ => 0) 0) demo_ab in
  Forall (placed m) [x] /\
  match run Zops Zjunk m [x] [Getitem 0 (KTuple [KNum (NInt 1); KSlice (Some (NInt 1)) None None]); Reversed 1; Op OpAdd 1 2; Shift 3 (Some 2) SHIFT_OFFSET] with
  | Ok (m', env) => map (fun y => rows (locations y)) env = [[[0; 1; 2]; [3; 4; 5]]; [[4; 5]]; [[5; 4]]; [[6; 7; 8]]; [[6; 7; 8]]] /\
      map (fun y => rows (channels (values m' y))) env = [[[1; 2; 3]; [4; 5; 6]]; [[5; 6]]; [[6; 5]]; [[5; 12; 5]]; [[5; 12; 5]]]
  | Err _ => False
  end.
Proof. split; [repeat constructor |]. vm_compute. split; reflexivity. Qed.

(** The results of computations do not share samples with the signals, that have existed before: writing to the array of one of them does not change the
    other one. *)
Theorem C74_copies : forall A (O : ops A) junk m env a m' x, Forall (placed m) env -> copies env a -> perform O junk m env a = Ok (m', x) ->
  forall y, In y env -> forall c t v m'',
    (assign m' x c t v = Ok m'' -> values m'' y = values m' y) /\ (assign m' y c t v = Ok m'' -> values m'' x = values m' x).
Proof. exact @copy_independent. Qed.
Print Assumptions C74_copies.

Example C74_copies_case : let (m, x) := store (Memory (fun _ => 0) 0) demo_ab in
  Forall (placed m) [x] /\ copies [x] (Pad 0 2 0) /\
  match perform Zops Zjunk m [x] (Pad 0 2 0) with
  | Ok (m', y) => rows (channels (values m' y)) = [[1; 2]; [4; 5]] /\
      match assign m' y 1 0 7 with
      | Ok m'' => rows (channels (values m'' y)) = [[1; 2]; [7; 5]] /\ values m'' x = demo_ab
      | Err _ => False
      end
  | Err _ => False
  end.
Proof. split; [repeat constructor |]. split; [intros y [= <-]; cbn; lia |]. vm_compute. repeat split; reflexivity. Qed.

(** Slices, reversed signals, signals with another offset and signals, that need not be changed, are views: whatever is written to the memory later, they remain
    the slice (or what else they are) of the other signal. *)
Theorem C74_views : forall A (O : ops A) junk m env a m' x, perform O junk m env a = Ok (m', x) -> forall i, views env a i -> forall y, zth env i = Some y ->
  m' = m /\ forall later, evaluate O junk (map (values later) env) a = Ok (values later x).
Proof. exact @view_consistent. Qed.
Print Assumptions C74_views.

Example C74_views_case : let (m, x) := store (Memory (fun _ => 0) 0) demo_ab in let a := Getitem 0 (KTuple [KNum (NInt 1); KSlice (Some (NInt 1)) None None]) in
  views [x] a 0 /\
  match perform Zops Zjunk m [x] a with
  | Ok (m', y) => match assign m' y 0 1 7 with
                  | Ok m'' => rows (channels (values m'' y)) = [[5; 7]] /\ rows (channels (values m'' x)) = [[1; 2; 3]; [4; 5; 7]]
                  | Err _ => False
                  end
  | Err _ => False
  end.
Proof. split; [reflexivity |]. vm_compute. split; reflexivity. Qed.

(** An assignment to an array changes the sample with the given indices and no other one. *)
Theorem C74_assignment : forall A (m : memory A) x c t v m', distinct x -> 0 <= c -> 0 <= t -> assign m x c t v = Ok m' ->
  forall i j, el (channels (values m' x)) i j = if (i =? c) && (j =? t) then Some v else el (channels (values m x)) i j.
Proof. exact @assign_effect. Qed.
Print Assumptions C74_assignment.

Example C74_assignment_case : let (m, x) := store (Memory (fun _ => 0) 0) demo_ab in
  distinct x /\ exists m', assign m x 1 2 7 = Ok m' /\ rows (channels (values m' x)) = [[1; 2; 3]; [4; 5; 7]].
Proof. pose proof (stored_alone (fun _ => 0) demo_ab demo_ab_wf) as S. cbv zeta in *. split; [exact (proj2 (proj2 S)) |]. eexists. split; [reflexivity | vm_compute; reflexivity]. Qed.

(** The only method, that writes to the samples of another signal, is [harmonic_impulse_response] without a length: what it returns and what is left of its
    argument is what the theorems C55 are about. *)
Theorem C74_harmonic : forall A K (O : ops A) M (X : transforms A K) N junk, (forall y n, 0 < n -> zlen (x_irfft X y n) = n) ->
  forall m l x harmonic length, distinct x -> placed m x ->
  match perform_harmonic O M X N junk m l x harmonic length with
  | Ok (m', r) => harmonic_impulse_response O M X N junk l (values m x) harmonic length = Ok (Outcome (values m' r) (channels (values m' x)))
  | Err e => harmonic_impulse_response O M X N junk l (values m x) harmonic length = Err e
  end.
Proof. exact @harmonic_memory. Qed.
Print Assumptions C74_harmonic.

(** With a length, and for the linear part, nothing is changed, ... *)
Theorem C74_harmonic_unchanged : forall A K (O : ops A) M (X : transforms A K) N junk m l x harmonic length m' r, length <> None \/ harmonic = 1 ->
  perform_harmonic O M X N junk m l x harmonic length = Ok (m', r) -> forall y, placed m y -> values m' y = values m y.
Proof. exact @harmonic_unchanged. Qed.
Print Assumptions C74_harmonic_unchanged.

(** ... otherwise, the samples of the argument are overwritten. *)
Theorem C74_harmonic_refuted : forall power modulo cpower cmodulo junk, exists m x m' r,
  distinct x /\ placed m x /\ values m x = demo_response /\
  perform_harmonic (real_ops power modulo) real_functions real_transforms (real_numbers cpower cmodulo) junk m demo_rate x 2 None = Ok (m', r) /\
  at_time (values m x) 0 2 = Some 1%R /\ at_time (values m' x) 0 2 = Some (1 / 2)%R.
Proof. exact harmonic_overwrites. Qed.
Print Assumptions C74_harmonic_refuted.

(** ** Spectrums *)

Theorem C74_spectrum_programs : forall A R (O : ops A) conj junk (program : list (spectrum_action A R)) m (env : list (spectrum_object R)), Forall (sp_placed m) env ->
  match sp_run O conj junk m env program with
  | Ok (m', env') => sp_run_values O conj junk (map (sp_values m) env) program = Ok (map (sp_values m') env') /\
      (exists new, env' = env ++ new) /\ map (sp_values m') env = map (sp_values m) env /\ Forall (sp_placed m') env'
  | Err e => sp_run_values O conj junk (map (sp_values m) env) program = Err e
  end.
Proof. exact @sp_run_sound. Qed.
Print Assumptions C74_spectrum_programs.

(** The case: a spectrum, a slice of it, the product of both, and the spectrum after it has been padded to its own length *)
Example C74_spectrum_programs_case : let (m, x) := sp_store (Memory (fun _ => 0) 0) (Spectrum (Arr [[1; 2; 3]; [4; 5; 6]] 3) tt ["a"; "b"]%string) in
  Forall (sp_placed m) [x] /\
  match sp_run Zops Z.opp Zjunk m [x] [SpGetitem 0 (KTuple [KNum (NInt 1); KSlice None None None]); SpOp OpMul 1 0; SpPad 0 3 0; SpConjugate 1] with
  | Ok (m', env) => map (fun y => rows (sp_locations y)) env = [[[0; 1; 2]; [3; 4; 5]]; [[3; 4; 5]]; [[6; 7; 8]; [9; 10; 11]]; [[0; 1; 2]; [3; 4; 5]]; [[12; 13; 14]]] /\
      map (fun y => rows (sp_channels (sp_values m' y))) env =
        [[[1; 2; 3]; [4; 5; 6]]; [[4; 5; 6]]; [[4; 10; 18]; [16; 25; 36]]; [[1; 2; 3]; [4; 5; 6]]; [[-4; -5; -6]]]
  | Err _ => False
  end.
Proof. split; [repeat constructor |]. vm_compute. split; reflexivity. Qed.

Theorem C74_spectrum_copies : forall A R (O : ops A) conj junk m (env : list (spectrum_object R)) (a : spectrum_action A R) m' x,
  Forall (sp_placed m) env -> sp_copies env a -> sp_perform O conj junk m env a = Ok (m', x) ->
  forall y, In y env -> forall c t v m'',
    (sp_assign m' x c t v = Ok m'' -> sp_values m'' y = sp_values m' y) /\ (sp_assign m' y c t v = Ok m'' -> sp_values m'' x = sp_values m' x).
Proof. exact @sp_copy_independent. Qed.
Print Assumptions C74_spectrum_copies.

Example C74_spectrum_copies_case : let (m, x) := sp_store (Memory (fun _ => 0) 0) (Spectrum (Arr [[1; 2; 3]; [4; 5; 6]] 3) tt ["a"; "b"]%string) in
  Forall (sp_placed m) [x] /\ sp_copies (A := Z) [x] (SpConjugate 0) /\
  match sp_perform Zops Z.opp Zjunk m [x] (SpConjugate 0) with
  | Ok (m', y) => match sp_assign m' y 1 0 7 with
                  | Ok m'' => rows (sp_channels (sp_values m'' y)) = [[-1; -2; -3]; [7; -5; -6]] /\ sp_values m'' x = sp_values m x
                  | Err _ => False
                  end
  | Err _ => False
  end.
Proof. split; [repeat constructor |]. split; [exact I |]. vm_compute. split; reflexivity. Qed.

Theorem C74_spectrum_views : forall A R (O : ops A) conj junk m (env : list (spectrum_object R)) (a : spectrum_action A R) m' x,
  sp_perform O conj junk m env a = Ok (m', x) -> forall i, sp_views env a i -> forall y, zth env i = Some y ->
  m' = m /\ forall later, sp_evaluate O conj junk (map (sp_values later) env) a = Ok (sp_values later x).
Proof. exact @sp_view_consistent. Qed.
Print Assumptions C74_spectrum_views.

Example C74_spectrum_views_case : let (m, x) := sp_store (Memory (fun _ => 0) 0) (Spectrum (Arr [[1; 2; 3]; [4; 5; 6]] 3) tt ["a"; "b"]%string) in
  sp_views (A := Z) [x] (SpGetitem 0 (KOne (KNum (NInt 1)))) 0 /\
  match sp_perform Zops Z.opp Zjunk m [x] (SpGetitem 0 (KOne (KNum (NInt 1)))) with
  | Ok (m', y) => match sp_assign m' y 0 1 7 with
                  | Ok m'' => rows (sp_channels (sp_values m'' y)) = [[4; 7; 6]] /\ rows (sp_channels (sp_values m'' x)) = [[1; 2; 3]; [4; 7; 6]]
                  | Err _ => False
                  end
  | Err _ => False
  end.
Proof. split; [reflexivity |]. vm_compute. split; reflexivity. Qed.

(** The arrays, that are returned by [real] and [imaginary], share the memory of the spectrum: whenever they are read, they are the parts of its samples. *)
Theorem C74_spectrum_parts : forall P R (later : memory (P * P)) (x : spectrum_object R) i k,
  el (part_values later (spectrum_real_view x)) i k = option_map fst (el (sp_channels (sp_values later x)) i k) /\
  el (part_values later (spectrum_imaginary_view x)) i k = option_map snd (el (sp_channels (sp_values later x)) i k).
Proof. exact @part_seen. Qed.
Print Assumptions C74_spectrum_parts.

(** So an assignment to an element of such an array changes this part of this sample of the spectrum, and neither the other part, nor the other samples,
    nor the spectrums, that do not share samples with it. *)
Theorem C74_spectrum_part_assigned : forall P R (m : memory (P * P)) (x : spectrum_object R) (imaginary : bool) c t v,
  wf (sp_locations x) -> NoDup (concat (rows (sp_locations x))) -> 0 <= c < nrows (sp_locations x) -> 0 <= t < cols (sp_locations x) ->
  exists m', assign_part m (if imaginary then spectrum_imaginary_view x else spectrum_real_view x) c t v = Ok m' /\
    resolution (sp_values m' x) = resolution (sp_values m x) /\ sp_labels (sp_values m' x) = sp_labels (sp_values m x) /\
    (forall i k z, el (sp_channels (sp_values m x)) i k = Some z ->
       (i = c /\ k = t -> el (sp_channels (sp_values m' x)) i k = Some (if imaginary then (fst z, v) else (v, snd z))) /\
       (i <> c \/ k <> t -> el (sp_channels (sp_values m' x)) i k = Some z)) /\
    (forall y : spectrum_object R, (forall a, In a (concat (rows (sp_locations x))) -> ~ In a (concat (rows (sp_locations y)))) -> sp_values m' y = sp_values m y).
Proof. exact @part_assigned. Qed.
Print Assumptions C74_spectrum_part_assigned.

Example C74_spectrum_parts_case : let (m, x) := sp_store (Memory (fun _ => (0, 0)) 0) (Spectrum (Arr [[(1, 2); (3, 4)]; [(5, 6); (7, 8)]] 2) tt ["a"; "b"]%string) in
  wf (sp_locations x) /\ NoDup (concat (rows (sp_locations x))) /\ 0 <= 1 < nrows (sp_locations x) /\ 0 <= 0 < cols (sp_locations x) /\
  rows (part_values m (spectrum_imaginary_view x)) = [[2; 4]; [6; 8]] /\
  match assign_part m (spectrum_imaginary_view x) 1 0 9 with
  | Ok m' => rows (sp_channels (sp_values m' x)) = [[(1, 2); (3, 4)]; [(5, 9); (7, 8)]]
  | Err _ => False
  end.
Proof.
  cbv beta iota zeta delta [sp_store]. split; [split; [vm_compute; discriminate | repeat constructor] |].
  split; [vm_compute; repeat constructor; cbn; intuition discriminate |]. split; [vm_compute; split; [discriminate | reflexivity] |].
  split; [vm_compute; split; [discriminate | reflexivity] |]. split; vm_compute; reflexivity.
Qed.
