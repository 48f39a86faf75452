(** Model of /repo/sumpf/_blocks/_jack.py: the callback that plays and records, the recorded
    output, the names of the output ports, the reports of xruns and the stored connections.

    Simplifications: the JACK server is modelled by the sequence of the callbacks that it
    invokes, each with the buffers of the ports; threads are modelled by the order of the calls
    (a callback is atomic, as in the JACK server's process thread, and a method that waits for
    the event is modelled as returning only when the event is set).  Activation, connecting
    ports in the server and the waiting time in [output] are left out. *)

From Coq Require Import String ZArith List Bool.
From Verif.Model Require Import Py Numpy Functions Signal Vector Text.
Import ListNotations.
Open Scope string_scope.
Open Scope list_scope.
Open Scope Z_scope.

(** ** Playing and recording *)

Section Jack.
Context {A : Type}.
Variable zero : A.

(** _jack.py:83-89: the attributes [_input], [_channels], [_index], [_event.is_set()]. *)
Record jack := JackState {
  j_input : signal A;
  j_channels : list (list A);
  j_index : Z;
  j_event : bool;
}.

(** A loop [for p, c in zip(l, m): ...] that overwrites [p]; the surplus elements of [l] are kept. *)
Fixpoint zip_update {X Y} (f : X -> Y -> result X) (l : list X) (m : list Y) : result (list X) :=
  match l, m with
  | x :: l', y :: m' => x' <- f x y ;; r <- zip_update f l' m' ;; Ok (x' :: r)
  | _, _ => Ok l
  end.

(** _jack.py:134-138, [start]: [inports] is the number of input ports, [junk] the contents of the allocated memory. *)
Definition jack_start (junk : Z -> Z -> A) (inports : Z) (s : signal A) : jack :=
  JackState s (map (fun i => map (junk i) (zseq 0 (length s))) (zseq 0 inports)) 0 false.

(** The buffers which the server provides for a callback: those of the output ports, with whatever
    they contain, and those of the input ports with the captured samples. *)
Record buffers := Buffers { b_frames : Z; b_out : list (list A); b_in : list (list A) }.

(** _jack.py:438-465, [on_process(frames, instance)]: the new contents of the output buffers, the new
    state, and whether [CallbackExit] is raised. *)
Definition on_process (auto_deactivate : bool) (b : buffers) (st : jack) : result (list (list A) * jack * bool) :=
  if negb (j_event st) then
    let index := j_index st in
    let stop_index := index + b_frames b in
    let channels := rows (channels (j_input st)) in
    if stop_index <=? length (j_input st) then
      outs <- zip_update (fun port channel => vset port everything (subseq (between index stop_index) channel)) (b_out b) channels ;;
      recorded <- zip_update (fun channel port => vset channel (between index stop_index) port) (j_channels st) (b_in b) ;;
      Ok (outs, JackState (j_input st) recorded stop_index (j_event st), false)
    else if index <? length (j_input st) then
      let stop_index := length (j_input st) - index in
      outs <- zip_update (fun port channel =>
                 port <- vset port (between 0 stop_index) (subseq (from index) channel) ;;
                 Ok (vfill port (from stop_index) zero)) (b_out b) channels ;;
      recorded <- zip_update (fun channel port => vset channel (from index) (subseq (between 0 stop_index) port)) (j_channels st) (b_in b) ;;
      Ok (outs, JackState (j_input st) recorded stop_index (j_event st), false)
    else
      Ok (b_out b, JackState (j_input st) (j_channels st) (j_index st) true, auto_deactivate)
  else Ok (b_out b, st, false).

(** A sequence of callbacks: the output buffers of each and the final state. *)
Fixpoint run (auto : bool) (l : list buffers) (st : jack) : result (list (list (list A)) * jack) :=
  match l with
  | [] => Ok ([], st)
  | b :: t =>
      r <- on_process auto b st ;;
      let '(outs, st', _) := r in
      r' <- run auto t st' ;;
      let '(rest, st'') := r' in
      Ok (outs :: rest, st'')
  end.

(** _jack.py:159-165, [output]: [None], while the method waits. *)
Definition jack_output (rate : A) (names : list string) (st : jack) : option (signal A) :=
  if j_event st then
    Some (mk_signal (Arr (j_channels st) (length (j_input st))) rate (offset (j_input st)) (Some names))
  else None.

End Jack.
Arguments jack : clear implicits. Arguments buffers : clear implicits.

(** ** The names of the output ports: _jack.py:361-373 *)

Definition contains (l : list string) (s : string) : bool := existsb (String.eqb s) l.

(** _jack.py:366-367, cut off after [fuel] iterations *)
Fixpoint append_underscores (fuel : nat) (name : string) (checked : list string) : result string :=
  if contains checked name then
    match fuel with
    | O => Err Hangs
    | S k => append_underscores k (name ++ "_")%string checked
    end
  else Ok name.

Fixpoint check_labels (i : Z) (labels checked : list string) : result (list string) :=
  match labels with
  | [] => Ok []
  | label :: t =>
      if String.eqb label "" || contains checked label then
        new_label <- append_underscores (List.length checked) ("output_" ++ py_str (i + 1))%string checked ;;
        r <- check_labels (i + 1) t (new_label :: checked) ;;
        Ok (new_label :: r)
      else
        r <- check_labels (i + 1) t (label :: checked) ;;
        Ok (label :: r)
  end.

Definition output_port_names {A} (s : signal A) : result (list string) :=
  labels <- check_labels 0 (subseq (between 0 (count s)) (labels s)) [] ;;
  Ok (if zlen labels <? count s
      then labels ++ map (fun i => ("output_" ++ py_str i)%string) (zseq (zlen labels + 1) (count s - zlen labels))
      else labels).

(** ** Reports of xruns: _jack.py:478-485 *)

Record xrun (T : Type) := XRun { x_start : Z; x_stop : Z; x_delay : T }.
Arguments XRun {T}. Arguments x_start {T}. Arguments x_stop {T}. Arguments x_delay {T}.

(** [million] is the factor [1e6], [delay] the delay in microseconds, that the server reports;
    [old] is the previous value of the [xruns] connector. *)
Definition on_xrun {T} (mul : T -> T -> T) (million : T) (blocksize : Z) (delay : T) (index : Z)
  (old : Z * option (xrun T)) : Z * option (xrun T) :=
  (fst old + 1, Some (XRun index (index + blocksize) (mul delay million))).

(** ** Stored connections and the removal of an input port: _jack.py:231-252 *)

(** A port specifier: a port object, a short or full name, or an index. *)
Inductive port_spec := PPort (p : string) | PName (n : string) | PIndex (i : Z).

(** The ports of this client are given by their short names; the full name has the client's name in front of it.
    A port object is identified by its short name, which is unique within a client. *)
Definition full_name (client p : string) : string := (client ++ ":" ++ p)%string.

(** _jack.py:397-408, [__input_port(port)] *)
Definition find_port (client : string) (ports : list string) (s : port_spec) : result string :=
  match s with
  | PPort p => Ok p
  | PName n =>
      match find (fun p => String.eqb n p || String.eqb n (full_name client p)) ports with
      | Some p => Ok p
      | None => Err ValueError
      end
  | PIndex i => getitem ports i
  end.

Fixpoint position_of (p : string) (ports : list string) (i : Z) : option Z :=
  match ports with
  | [] => None
  | q :: t => if String.eqb q p then Some i else position_of p t (i + 1)
  end.

(** _jack.py:239-248: what becomes of the target of a stored connection *)
Definition adapt_connection (client port : string) (index : Z) (s : port_spec) : option port_spec :=
  match s with
  | PPort p => if String.eqb p port then None else Some s
  | PName n => if String.eqb n port || String.eqb n (full_name client port) then None else Some s
  | PIndex i => if i =? index then None else Some (PIndex (if i <? index then i else i - 1))
  end.

Fixpoint filter_map {X Y} (f : X -> option Y) (l : list X) : list Y :=
  match l with
  | [] => []
  | x :: t => match f x with Some y => y :: filter_map f t | None => filter_map f t end
  end.

(** _jack.py:221-252, [remove_input_port(port)]: the remaining ports and stored connections.  The source of
    a connection is not looked at.  A port object of another client is not considered (here: an exception). *)
Definition remove_input_port {S} (client : string) (spec : port_spec) (ports : list string)
  (connections : list (S * port_spec)) : result (list string * list (S * port_spec)) :=
  port <- find_port client ports spec ;;
  match position_of port ports 0 with
  | None => Err RuntimeError
  | Some index =>
      Ok (filter (fun p => negb (String.eqb p port)) ports,
          filter_map (fun c => match adapt_connection client port index (snd c) with
                               | Some t => Some (fst c, t)
                               | None => None
                               end) connections)
  end.
