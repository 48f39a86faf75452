(** C34, C35, C44, C45: playing and recording through JACK; C41: ordinal numbers. *)

From Coq Require Import String ZArith QArith List Bool Lia.
From Verif.Model Require Import Py Numpy Functions Signal Text Jack.
From Verif.Spec Require Import TimeSpec Demo TextSpec JackSpec.
From Verif.Proofs Require Import TextFacts JackFacts JackPorts.
Import ListNotations.
Open Scope list_scope.
Open Scope Z_scope.

(** * C34 Playing and recording *)

(** As long as the signal lasts: after any sequence of callbacks, each output port has played exactly the first samples
    of its channel and what has been captured by each input port is recorded, sample by sample. *)
Theorem C34_playing : forall A (zero : A) auto junk s n l, wf_signal s -> 0 <= n ->
  Forall (proper (count s) n) l -> total l <= length s ->
  exists outs st, run zero auto l (jack_start junk n s) = Ok (outs, st) /\ j_event st = false /\
    (forall c, 0 <= c < count s -> stream outs c = ztake (total l) (channel s c)) /\
    (forall p, 0 <= p < n -> zlen (recorded st p) = length s /\ ztake (total l) (recorded st p) = stream (map b_in l) p).
Proof. exact @play_record. Qed.
Print Assumptions C34_playing.

(** When the blocks end together with the signal, or when the first block contains the whole signal: the next callback ends
    the recording, later ones change nothing, each port has played its channel once and then silence, and the output has
    the offset of the input, the names of the ports as labels and the captured samples. *)
Theorem C34_once_partial : forall A (zero : A) auto junk s n l b rest rate names, wf_signal s -> 0 <= n ->
  Forall (proper (count s) n) l -> 0 < b_frames b ->
  total l = length s \/ (zlen l = 1 /\ 0 < length s < total l) -> zlen names = n ->
  exists outs st out, run zero auto (l ++ b :: rest) (jack_start junk n s) = Ok (outs ++ map b_out (b :: rest), st) /\
    (forall c, 0 <= c < count s -> stream outs c = channel s c ++ zrepeat zero (total l - length s)) /\
    jack_output rate names st = Some out /\ wf_signal out /\ sampling_rate out = rate /\ offset out = offset s /\ labels out = names /\
    count out = n /\ length out = length s /\
    forall p, 0 <= p < n -> channel out p = ztake (length s) (stream (map b_in l) p).
Proof. exact @exactly_once. Qed.
Print Assumptions C34_once_partial.

(** Otherwise, the claim is wrong: after a last block, that is only partly filled, playing starts again in the middle of the
    signal, at the sample number [length - total l], and the rest of the recording is overwritten by what is captured then,
    while its beginning is kept from the first pass.  (This is always so for a constant block size, that is shorter than the signal
    and does not divide its length: [total l] and [total l2] are multiples of the block size.) *)
Theorem C34_once_refuted : forall A (zero : A) auto junk s n l b l2 b2 rest rate names,
  wf_signal s -> 0 <= n -> Forall (proper (count s) n) l -> proper (count s) n b -> Forall (proper (count s) n) l2 -> 0 < b_frames b2 ->
  0 < total l -> total l < length s < total l + b_frames b -> total l2 = total l -> zlen names = n ->
  exists outs st out, run zero auto (l ++ b :: l2 ++ b2 :: rest) (jack_start junk n s) = Ok (outs ++ map b_out (b2 :: rest), st) /\
    (forall c, 0 <= c < count s -> stream outs c =
       channel s c ++ zrepeat zero (total l + b_frames b - length s) ++ zdrop (length s - total l) (channel s c)) /\
    jack_output rate names st = Some out /\ length out = length s /\
    forall p, 0 <= p < n ->
      channel out p = ztake (length s - total l) (stream (map b_in (l ++ [b])) p) ++ stream (map b_in l2) p.
Proof. exact @replay. Qed.
Print Assumptions C34_once_refuted.

Definition demo_block (x : Z) : buffers Z := Buffers 2 [[77; 77]; [78; 78]] [[x; x + 1]].

(** Three samples in blocks of two: the last two samples are played twice. *)
Example C34_example :
  proper (count demo_ab) 1 (demo_block 10) /\
  exists st, run 0 true [demo_block 10; demo_block 20; demo_block 30; demo_block 40] (jack_start Zjunk 1 demo_ab)
    = Ok ([[[1; 2]; [4; 5]]; [[3; 0]; [6; 0]]; [[2; 3]; [5; 6]]; [[77; 77]; [78; 78]]], st) /\
  jack_output 48000 ["in"%string] st = Some (Signal (Arr [[10; 30; 31]] 3) 48000 (-1) ["in"%string]).
Proof.
  split.
  - repeat split; cbn; try lia; intros x H; repeat (destruct H as [<-|H]; [reflexivity|]); contradiction.
  - eexists. split; vm_compute; reflexivity.
Qed.

(** * C35 The names of the output ports *)

Theorem C35_port_names : forall A (s : signal A), wf_signal s ->
  exists names, output_port_names s = Ok names /\ zlen names = count s /\ NoDup names /\ ~ In ""%string names /\
    forall i label, zth (labels s) i = Some label -> exists name, zth names i = Some name /\
      (label <> ""%string -> ~ In label (ztake i names) -> name = label) /\
      (label = ""%string \/ In label (ztake i names) ->
       exists k, name = ("output_" ++ py_str (i + 1) ++ underscores k)%string /\
         forall j, (j < k)%nat -> In ("output_" ++ py_str (i + 1) ++ underscores j)%string (ztake i names)).
Proof. exact @port_names. Qed.
Print Assumptions C35_port_names.

Example C35_example : 
  let s := Signal (Arr [[1]; [2]; [3]; [4]; [5]] 1) 48000 0 ["output_3"; "left"; "left"; ""; "right"]%string in
  wf_signal s /\ output_port_names s = Ok ["output_3"; "left"; "output_3_"; "output_4"; "right"]%string.
Proof. intros s. split; [repeat split; cbn; try lia; repeat constructor|]. vm_compute. reflexivity. Qed.

(** * C41 Ordinal numbers *)

Theorem C41_ordinal : forall z, exists text, counting_number z = (text ++ ordinal_suffix z)%string /\ read text = Some z.
Proof. intros z. exists (py_str z). split; [apply counting_number_spec|apply read_py_str]. Qed.
Print Assumptions C41_ordinal.

Example C41_example : map counting_number [1; 11; 12; 13; 21; 22; 103; 111; 1004; -1; -12] =
  ["1st"; "11th"; "12th"; "13th"; "21st"; "22nd"; "103rd"; "111th"; "1004th"; "-1st"; "-12th"]%string.
Proof. reflexivity. Qed.

(** * C44 Reports of xruns *)

(** The number counts the reports, and the latest report concerns the block, that begins with the sample, that was current at that time. *)
Theorem C44_xruns : forall blocksize (reports : list (Q * Z)) delay index,
  let report old r := on_xrun Qmult (1000000 # 1) blocksize (fst r) (snd r) old in
  exists x, fold_left report (reports ++ [(delay, index)]) (0, None) = (zlen reports + 1, Some x) /\
    x_start x = index /\ x_stop x = index + blocksize.
Proof. exact xruns_latest. Qed.
Print Assumptions C44_xruns.

(** The server reports microseconds; the documentation promises seconds.  No delay but 0 is reported correctly. *)
Theorem C44_delay_refuted : forall blocksize delay index old, ~ (delay == 0)%Q ->
  exists x, snd (on_xrun Qmult (1000000 # 1) blocksize delay index old) = Some x /\ ~ (x_delay x == delay / (1000000 # 1))%Q.
Proof. exact xrun_delay. Qed.
Print Assumptions C44_delay_refuted.

Example C44_example : exists x, fold_left (fun old r => on_xrun Qmult (1000000 # 1) 512 (fst r) (snd r) old)
  [(1500 # 1, 0); (700 # 1, 1024)] (0, None) = (2, Some x) /\ x_start x = 1024 /\ x_stop x = 1536.
Proof. eexists. split; [reflexivity|]. split; reflexivity. Qed.

(** * C45 Stored connections *)

(** Removing an input port forgets the stored connections to this port, and only these; each of the others still
    finds the same port (or none, as before), even if it is given by an index that has changed. *)
Theorem C45_remove_port_partial : forall S client spec p ports (connections : list (S * port_spec)), NoDup ports ->
  (forall q r, In q ports -> In r ports -> q <> full_name client r) ->
  find_port client ports spec = Ok p -> In p ports -> Forall (fun c => plain_target (snd c)) connections ->
  exists ports' connections', remove_input_port client spec ports connections = Ok (ports', connections') /\
    (exists l m, ports = l ++ p :: m /\ ports' = l ++ m) /\
    Forall2 (fun c c' => fst c' = fst c /\ find_port client ports' (snd c') = find_port client ports (snd c))
      (filter (fun c => negb (targets client ports p (snd c))) connections) connections'.
Proof. exact @remove_port. Qed.
Print Assumptions C45_remove_port_partial.

(** A connection to the last port by the index -1 is not forgotten with this port, but becomes one to the port before it. *)
Theorem C45_negative_index_refuted : forall S client p ports q (o : S),
  find_port client ((ports ++ [q]) ++ [p]) (PIndex (-1)) = Ok p /\
  (~ In p (ports ++ [q]) -> remove_input_port client (PIndex (-1)) ((ports ++ [q]) ++ [p]) [(o, PIndex (-1))] =
   Ok (ports ++ [q], [(o, PIndex (-1))]) /\ find_port client (ports ++ [q]) (PIndex (-1)) = Ok q).
Proof. exact @remove_last_port. Qed.
Print Assumptions C45_negative_index_refuted.

Example C45_example :
  let ports := ["a"; "b"; "c"]%string in
  NoDup ports /\ (forall q r, In q ports -> In r ports -> q <> full_name "Client" r) /\
  remove_input_port "Client" (PName "Client:b") ports [(0, PIndex 1); (1, PIndex 2); (2, PName "b"); (3, PName "a"); (4, PPort "c")]
    = Ok (["a"; "c"]%string, [(1, PIndex 1); (3, PName "a"); (4, PPort "c")]).
Proof.
  intros ports. split; [|split].
  - repeat constructor; cbn; intuition discriminate.
  - intros q r Q R. cbn in Q, R. decompose [or] Q; decompose [or] R; try contradiction; subst; discriminate.
  - vm_compute. reflexivity.
Qed.
