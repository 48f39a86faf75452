(** Cases for C74 *)

From Coq Require Import String ZArith List Bool Lia Reals.
From Verif.Model Require Import Py Numpy Vector Functions Signal Spectrum Fft Fourier Text Merge Concatenate Sweeps Memory.
From Verif.Spec Require Import TimeSpec RealSpec ComplexSpec DftSpec FourierSpec SweepSpec HarmonicSpec MemorySpec Demo.
From Verif.Proofs Require Import PyFacts NumpyFacts DftFacts SweepCases MemoryFacts MemoryWrites.
Import ListNotations.
Open Scope Z_scope.

(** A signal in a memory, that is empty otherwise *)
Lemma stored_alone {A} (c : Z -> A) s : wf_signal s -> let (m, x) := store (Memory c 0) s in values m x = s /\ placed m x /\ distinct x.
Proof.
  intros [W _]. destruct (store (Memory c 0) s) as [m x] eqn:E. split; [exact (store_values _ _ _ _ E) |]. split; [exact (proj1 (proj2 (proj2 (store_other _ _ _ _ E)))) |].
  unfold store in E. injection E as _ <-. destruct W as [C F]. split; cbn [locations rows cols].
  - split; [exact C |]. change (Forall (fun r => zlen r = cols (channels s)) (numbered 0 (rows (channels s)))). revert F. generalize 0. induction (rows (channels s)) as [| r l IH]; intros n F; [constructor |]. cbn [numbered]. constructor.
    + rewrite zlen_seq, (Forall_inv F). lia.
    + apply IH. exact (Forall_inv_tail F).
  - rewrite concat_numbered. apply NoDup_zseq.
Qed.

(** The impulse response is changed by cutting out its second harmonic. *)
Theorem harmonic_overwrites power modulo cpower cmodulo junk : exists m x m' r,
  distinct x /\ placed m x /\ values m x = demo_response /\
  perform_harmonic (real_ops power modulo) real_functions real_transforms (real_numbers cpower cmodulo) junk m demo_rate x 2 None = Ok (m', r) /\
  at_time (values m x) 0 2 = Some 1%R /\ at_time (values m' x) 0 2 = Some (1 / 2)%R.
Proof.
  assert (W : wf_signal demo_response) by (split; [split; [cbn; lia | repeat constructor] | reflexivity]).
  pose proof (stored_alone (fun _ => 0%R) demo_response W) as S. destruct (store (Memory (fun _ => 0%R) 0) demo_response) as [m x]. destruct S as (V & P & D).
  pose proof (harmonic_memory (real_ops power modulo) real_functions real_transforms (real_numbers cpower cmodulo) junk
    ltac:(intros y n Hn; cbn [real_transforms x_irfft]; rewrite zlen_irfft; lia) m demo_rate x 2 None D P) as H.
  destruct (argument_overwritten power modulo cpower cmodulo junk) as (r & a & E & H1 & H2 & _). rewrite V, E in H.
  destruct (perform_harmonic (real_ops power modulo) real_functions real_transforms (real_numbers cpower cmodulo) junk m demo_rate x 2 None) as [[m' r'] | e] eqn:Q; [| discriminate].
  exists m, x, m', r'. split; [exact D |]. split; [exact P |]. split; [exact V |]. split; [exact Q |]. split; [rewrite V; exact H1 |].
  assert (Ea : a = channels (values m' x)) by congruence. subst a. unfold at_time. change (offset (values m' x)) with (offset_of x). assert (O : offset_of x = 0) by (change (offset_of x) with (offset (values m x)); rewrite V; reflexivity).
  rewrite O. change (2 - 0) with 2. exact H2.
Qed.
