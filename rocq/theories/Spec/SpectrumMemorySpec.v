(** Programs with spectrums as values instead of a memory, and which actions copy samples *)

From Coq Require Import String ZArith List Bool.
From Verif.Model Require Import Py Numpy Functions Signal Spectrum Merge Memory SpectrumMemory.
Import ListNotations.
Open Scope Z_scope.

Section SpectrumMemorySpec.
Context {A R : Type}.
Variable O : ops A.
Variable conj : A -> A.
Variable junk : Z -> Z -> A.

(** The result of an action, if spectrums are nothing but values *)
Definition sp_evaluate (env : list (spectrum A R)) (a : spectrum_action A R) : result (spectrum A R) :=
  match a with
  | SpGetitem i k => s <- fetch env i ;; spectrum_getitem s k
  | SpPad i length value => s <- fetch env i ;; spectrum_pad junk s length value
  | SpAbs i => s <- fetch env i ;; Ok (spectrum_abs O s)
  | SpNeg i => s <- fetch env i ;; Ok (spectrum_neg O s)
  | SpConjugate i => s <- fetch env i ;; Ok (spectrum_conjugate conj s)
  | SpInvert i => s <- fetch env i ;; spectrum_invert O junk s
  | SpOp p i j => s <- fetch env i ;; t <- fetch env j ;; spectrum_op O junk p s t
  | SpOpArray p i y => s <- fetch env i ;; spectrum_op_array O junk p s y
  | SpOpArrayRight p x j => t <- fetch env j ;; spectrum_op_array_right O junk p t x
  | SpMergeOutput mode l => s <- fetch_all env l ;; merge_spectrums O junk mode s
  | SpCompute f l => s <- fetch_all env l ;; f s
  end.

Fixpoint sp_run_values (env : list (spectrum A R)) (program : list (spectrum_action A R)) : result (list (spectrum A R)) :=
  match program with
  | [] => Ok env
  | a :: program => s <- sp_evaluate env a ;; sp_run_values (env ++ [s]) program
  end.

(** All samples are in allocated memory. *)
Definition sp_placed (m : memory A) (x : spectrum_object R) : Prop := Forall (Forall (fun a => a < next m)) (rows (sp_locations x)).

(** The actions, the results of which must not share samples with other spectrums *)
Definition sp_copies (env : list (spectrum_object R)) (a : spectrum_action A R) : Prop :=
  match a with
  | SpGetitem _ _ => False
  | SpPad i length _ => forall x, zth env i = Some x -> cols (sp_locations x) <> length
  | SpAbs _ | SpNeg _ | SpConjugate _ | SpInvert _ | SpOp _ _ _ | SpOpArray _ _ _ | SpOpArrayRight _ _ _ | SpCompute _ _ => True
  | SpMergeOutput _ l => 2 <= zlen l
  end.

(** The actions, the results of which consist of the samples of the spectrum number [x] *)
Definition sp_views (env : list (spectrum_object R)) (a : spectrum_action A R) (x : Z) : Prop :=
  match a with
  | SpGetitem i _ => i = x
  | SpPad i length _ => i = x /\ forall y, zth env i = Some y -> cols (sp_locations y) = length
  | SpMergeOutput _ l => l = [x]
  | _ => False
  end.

End SpectrumMemorySpec.
