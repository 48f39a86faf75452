(** Model of the arrays, that are returned by the methods [real] and [imaginary] of /repo/sumpf/_data/_spectrums/_spectrum.py:291-303: for an array of complex
    numbers, [numpy.real] and [numpy.imag] return views of the parts of its samples.  ([magnitude] and [phase], lines 274-289, compute new arrays.) *)

From Coq Require Import ZArith List Bool.
From Verif.Model Require Import Py Numpy Spectrum Memory SpectrumMemory.
Open Scope Z_scope.

Section SpectrumParts.
Context {P R : Type}.

(** Which part of the complex numbers, which are pairs here *)
Inductive part := RealPart | ImaginaryPart.

(** A view: the addresses of the samples and the part *)
Record part_view := PartView { pv_locations : arr Z; pv_part : part }.

(** _spectrum.py:291-303 *)
Definition spectrum_real_view (x : spectrum_object R) : part_view := PartView (sp_locations x) RealPart.
Definition spectrum_imaginary_view (x : spectrum_object R) : part_view := PartView (sp_locations x) ImaginaryPart.

(** The numbers in the view *)
Definition part_values (m : memory (P * P)) (w : part_view) : arr P :=
  ufunc1 (fun a => match pv_part w with RealPart => fst (cells m a) | ImaginaryPart => snd (cells m a) end) (pv_locations w).

(** [view[c, t] = v] *)
Definition assign_part (m : memory (P * P)) (w : part_view) (c t : Z) (v : P) : result (memory (P * P)) :=
  r <- getitem (rows (pv_locations w)) c ;;
  a <- getitem r t ;;
  let z := cells m a in
  Ok (Memory (poke (cells m) (a, match pv_part w with RealPart => (v, snd z) | ImaginaryPart => (fst z, v) end)) (next m)).
End SpectrumParts.
