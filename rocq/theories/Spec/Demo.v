(** Integer samples, used by the concrete cases beside the theorems. *)

From Coq Require Import String ZArith List Bool.
From Verif.Model Require Import Py Numpy Functions Signal.
Import ListNotations.
Open Scope Z_scope.

Definition Zops : ops Z :=
  Ops 0 1 Z.add Z.sub Z.mul Z.div Z.pow Z.modulo Z.opp Z.abs Z.eqb.

(** Allocated memory that is full of 99. *)
Definition Zjunk : Z -> Z -> Z := fun _ _ => 99.

(** Two channels with the samples 1 2 3 and 4 5 6 at the times -1, 0, 1. *)
Definition demo_ab : signal Z := Signal (Arr [[1; 2; 3]; [4; 5; 6]] 3) 48000 (-1) ["a"; "b"]%string.
(** One channel with the samples 10 20 at the times 1, 2. *)
Definition demo_c : signal Z := Signal (Arr [[10; 20]] 2) 48000 1 ["c"]%string.

Lemma demo_ab_wf : wf_signal demo_ab.
Proof. repeat split; cbn; try discriminate. repeat constructor. Qed.
Lemma demo_c_wf : wf_signal demo_c.
Proof. repeat split; cbn; try discriminate. repeat constructor. Qed.
