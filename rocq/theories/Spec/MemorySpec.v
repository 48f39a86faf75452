(** Programs with values instead of a memory, and which actions copy samples *)

From Coq Require Import String ZArith List Bool.
From Verif.Model Require Import Py Numpy Functions Signal Merge Concatenate Memory.
Import ListNotations.
Open Scope Z_scope.

Section MemorySpec.
Context {A : Type}.
Variable O : ops A.
Variable junk : Z -> Z -> A.

(** The result of an action, if signals are nothing but values *)
Definition evaluate (env : list (signal A)) (a : action A) : result (signal A) :=
  match a with
  | Getitem i k => s <- fetch env i ;; signal_getitem s k
  | Reversed i => s <- fetch env i ;; signal_reversed s
  | Shift i shift mode => s <- fetch env i ;; signal_shift O junk s shift mode
  | Pad i length value => s <- fetch env i ;; signal_pad junk s length value
  | Abs i => s <- fetch env i ;; Ok (signal_abs O s)
  | Neg i => s <- fetch env i ;; Ok (signal_neg O s)
  | Op p i j => s <- fetch env i ;; t <- fetch env j ;; signal_op O junk p s t
  | OpArray p i y => s <- fetch env i ;; signal_op_array O junk p s y
  | OpArrayRight p x j => t <- fetch env j ;; signal_op_array_right O junk p t x
  | MergeOutput mode l => s <- fetch_all env l ;; merge_signals O junk mode s
  | ConcatenateOutput l => s <- fetch_all env l ;; concatenate_signals O junk s
  | Compute f l => s <- fetch_all env l ;; f s
  end.

Fixpoint run_values (env : list (signal A)) (program : list (action A)) : result (list (signal A)) :=
  match program with
  | [] => Ok env
  | a :: program => s <- evaluate env a ;; run_values (env ++ [s]) program
  end.

(** All samples are in allocated memory. *)
Definition placed (m : memory A) (x : object A) : Prop := Forall (Forall (fun a => a < next m)) (rows (locations x)).

(** No two samples of the array have the same address. *)
Definition distinct (x : object A) : Prop := wf (locations x) /\ NoDup (concat (rows (locations x))).

(** The actions, the results of which must not share samples with other signals *)
Definition copies (env : list (object A)) (a : action A) : Prop :=
  match a with
  | Getitem _ _ | Reversed _ => False
  | Shift _ shift mode => mode <> SHIFT_OFFSET /\ shift <> Some 0
  | Pad i length _ => forall x, zth env i = Some x -> cols (locations x) <> length
  | Abs _ | Neg _ | Op _ _ _ | OpArray _ _ _ | OpArrayRight _ _ _ | Compute _ _ => True
  | MergeOutput _ l | ConcatenateOutput l => 2 <= zlen l
  end.

(** The actions, the results of which consist of the samples of the signal number [x] *)
Definition views (env : list (object A)) (a : action A) (x : Z) : Prop :=
  match a with
  | Getitem i _ | Reversed i => i = x
  | Shift i shift mode => i = x /\ (mode = SHIFT_OFFSET \/ shift = Some 0)
  | Pad i length _ => i = x /\ forall y, zth env i = Some y -> cols (locations y) = length
  | MergeOutput _ l | ConcatenateOutput l => l = [x]
  | _ => False
  end.

End MemorySpec.
