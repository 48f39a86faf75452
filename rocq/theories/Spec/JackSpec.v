(** Specification vocabulary for JACK: what a port plays or records in the course of the callbacks. *)

From Coq Require Import String Ascii ZArith List Bool.
From Verif.Model Require Import Py Numpy Signal Jack.
Import ListNotations.
Open Scope Z_scope.

Section Spec.
Context {A : Type}.

(** The samples of the port number [c] in the course of the callbacks, each of which has a list of buffers. *)
Definition stream (callbacks : list (list (list A))) (c : Z) : list A :=
  flat_map (fun bufs => match zth bufs c with Some samples => samples | None => [] end) callbacks.

(** The server provides a buffer for each port, each of which has the same positive number of samples. *)
Definition proper (outports inports : Z) (b : buffers A) : Prop :=
  0 < b_frames b /\ zlen (b_out b) = outports /\ zlen (b_in b) = inports /\
  (forall x, In x (b_out b) -> zlen x = b_frames b) /\ (forall x, In x (b_in b) -> zlen x = b_frames b).

(** The number of samples of a sequence of callbacks. *)
Definition total (l : list (buffers A)) : Z := fold_right Z.add 0 (map b_frames l).

(** The samples of a channel. *)
Definition channel (s : signal A) (c : Z) : list A := match zth (rows (channels s)) c with Some r => r | None => [] end.

(** What has been recorded from the port number [p] so far. *)
Definition recorded (st : jack A) (p : Z) : list A := match zth (j_channels st) p with Some r => r | None => [] end.

End Spec.

(** A number of underscores. *)
Fixpoint underscores (k : nat) : string := match k with O => "" | S j => String "_"%char (underscores j) end.

(** The target of a stored connection, when it is not given by a negative index. *)
Definition plain_target (s : port_spec) : Prop := match s with PIndex i => 0 <= i | _ => True end.

(** Decides whether the target of a connection is a port. *)
Definition targets (client : string) (ports : list string) (p : string) (t : port_spec) : bool :=
  match find_port client ports t with Ok q => String.eqb q p | Err _ => false end.
