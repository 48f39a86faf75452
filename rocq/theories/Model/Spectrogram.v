(** Model of /repo/sumpf/_data/_spectrograms/_spectrogram.py: construction, slicing, comparison,
    operators, padding and shifting of spectrograms.  The inverse short time Fourier transform
    (lines 408-456) is modelled in Model/Stft.v. *)

From Coq Require Import String ZArith List Bool.
From Verif.Model Require Import Py Numpy Functions Signal Spectrum Cube.
Import ListNotations.
Open Scope string_scope.
Open Scope list_scope.
Open Scope Z_scope.

(** _spectrogram.py:93-97, _sampled_data.py:31-33; the values have the type [A], the resolution and the sampling rate [R]. *)
Record spectrogram (A R : Type) := Spectrogram {
  sg_channels : cube A;
  sg_resolution : R;
  sg_rate : R;
  sg_offset : Z;
  sg_labels : list string;
}.
Arguments Spectrogram {A R}. Arguments sg_channels {A R}. Arguments sg_resolution {A R}.
Arguments sg_rate {A R}. Arguments sg_offset {A R}. Arguments sg_labels {A R}.

(** _sampled_data.py:39-44 and 161-166, _spectrogram.py:97 *)
Definition sg_count {A R} (s : spectrogram A R) : Z := dim0 (sg_channels s).
Definition sg_frequencies {A R} (s : spectrogram A R) : Z := dim1 (sg_channels s).
Definition sg_length {A R} (s : spectrogram A R) : Z := dim2 (sg_channels s).

(** What the constructor establishes for a proper array. *)
Definition wf_spectrogram {A R} (s : spectrogram A R) : Prop :=
  wf_cube (sg_channels s) /\ zlen (sg_labels s) = sg_count s.

(** _spectrogram.py:78-97 *)
Definition mk_spectrogram {A R} (channels : cube A) (resolution rate : R) (offset : Z) (labels : option (list string))
  : spectrogram A R :=
  Spectrogram channels resolution rate offset (sanitize_labels labels (dim0 channels)).

Section Spectrogram.
Context {A R : Type}.
Variable O : ops A.
Variable junk : Z -> Z -> Z -> A.

(** ** Slicing: _spectrogram.py:103-126 *)
Definition spectrogram_getitem (s : spectrogram A R) (k : key) : result (spectrogram A R) :=
  let all := Slice None None None in
  match k with
  | KOne k1 =>
      c <- key_to_slice k1 (sg_count s) ;;
      m <- slice3 (sg_channels s) c all all ;;
      l <- getslice (sg_labels s) c ;;
      Ok (mk_spectrogram m (sg_resolution s) (sg_rate s) (sg_offset s) (Some l))
  | KTuple ks =>
      sl <- keys_to_slices ks [sg_count s; sg_frequencies s; sg_length s] ;;
      let o := match sl with
               | [_; _; t] =>
                   match sl_start t with
                   | None => sg_offset s
                   | Some i => if i =? 0 then sg_offset s
                               else if i <? 0 then sg_offset s + (sg_length s + i)
                               else sg_offset s + i
                   end
               | _ => sg_offset s
               end in
      c <- getitem sl 0 ;;
      m <- slice3 (sg_channels s) c (nth 1 sl all) (nth 2 sl all) ;;
      l <- getslice (sg_labels s) c ;;
      Ok (mk_spectrogram m (sg_resolution s) (sg_rate s) o (Some l))
  end.

(** ** Comparison: _spectrogram.py:157-171, _sampled_data.py:46-64 *)
Definition spectrogram_eqb (R_eqb : R -> R -> bool) (s t : spectrogram A R) : bool :=
  let m := sg_channels s in let n := sg_channels t in
  if negb (R_eqb (sg_resolution s) (sg_resolution t)) then false
  else if negb (R_eqb (sg_rate s) (sg_rate t)) then false
  else if negb (sg_offset s =? sg_offset t) then false
  else if negb ((dim0 m =? dim0 n) && (dim1 m =? dim1 n) && (dim2 m =? dim2 n)) then false
  else if existsb (fun p => negb (o_eqb O (fst p) (snd p))) (combine (elements3 m) (elements3 n)) then false
  else if negb (labels_eqb (sg_labels s) (sg_labels t)) then false
  else true.

Definition spectrogram_hash {H} (hash_number : A -> H) (hash_float : R -> H) (hash_int : Z -> H) (hash_str : string -> H)
  (hash_tuple : list H -> H) (s : spectrogram A R) : H :=
  let m := sg_channels s in
  hash_tuple
    [ hash_tuple [ hash_tuple [hash_int (dim0 m); hash_int (dim1 m); hash_int (dim2 m)];
                   hash_tuple (map hash_number (elements3 m));
                   hash_tuple (map hash_str (sg_labels s)) ];
      hash_float (sg_resolution s); hash_float (sg_rate s); hash_int (sg_offset s) ].

(** ** Unary operators: _spectrogram.py:177-200 and 391-402; the allocated arrays are overwritten completely. *)
Definition spectrogram_map (f : A -> A) (s : spectrogram A R) : spectrogram A R :=
  mk_spectrogram (map3 f (sg_channels s)) (sg_resolution s) (sg_rate s) (sg_offset s) (Some (sg_labels s)).
Definition spectrogram_abs := spectrogram_map (o_abs O).
Definition spectrogram_neg := spectrogram_map (o_neg O).
Definition spectrogram_conjugate (conj : A -> A) := spectrogram_map conj.

(** ** Padding: _spectrogram.py:306-328 *)
Definition spectrogram_pad (s : spectrogram A R) (len : Z) (value : A) : result (spectrogram A R) :=
  if len =? sg_length s then Ok s
  else
    m <- allocate3 junk (sg_count s) (sg_frequencies s) len ;;
    m <- (if len <? sg_length s then
            set3 m everything everything everything (sub3 (sg_channels s) everything everything (between 0 len))
          else
            m <- set3 m everything everything (between 0 (sg_length s)) (sg_channels s) ;;
            set3 m everything everything (from (sg_length s)) (scalar3 value)) ;;
    Ok (mk_spectrogram m (sg_resolution s) (sg_rate s) (sg_offset s) (Some (sg_labels s))).

(** ** Shifting: _spectrogram.py:330-389 *)
Definition spectrogram_shift (s : spectrogram A R) (shift : option Z) (mode : shift_mode) : result (spectrogram A R) :=
  let make m o := mk_spectrogram m (sg_resolution s) (sg_rate s) o (Some (sg_labels s)) in
  let c := sg_channels s in
  let all := everything in
  match shift with
  | Some 0 => Ok s
  | _ =>
      match mode with
      | SHIFT_OFFSET =>
          match shift with
          | None => Ok (make c 0)
          | Some k => Ok (make c (sg_offset s + k))
          end
      | _ =>
          match shift with
          | None => Err TypeError
          | Some k =>
              m <- (match mode with
                    | SHIFT_PAD =>
                        m <- allocate3 junk (sg_count s) (sg_frequencies s) (sg_length s + Z.abs k) ;;
                        if k <? 0 then
                          m <- set3 m all all (between 0 (sg_length s)) c ;;
                          set3 m all all (from (sg_length s)) (scalar3 (o_zero O))
                        else
                          m <- set3 m all all (between 0 k) (scalar3 (o_zero O)) ;;
                          set3 m all all (from k) c
                    | SHIFT_CYCLE =>
                        m <- allocate3 junk (sg_count s) (sg_frequencies s) (sg_length s) ;;
                        m <- set3 m all all (between 0 k) (sub3 c all all (from (- k))) ;;
                        set3 m all all (from k) (sub3 c all all (between 0 (- k)))
                    | _ (* CROP *) =>
                        m <- allocate3 junk (sg_count s) (sg_frequencies s) (sg_length s) ;;
                        if k <? 0 then
                          m <- set3 m all all (between 0 k) (sub3 c all all (from (- k))) ;;
                          set3 m all all (from k) (scalar3 (o_zero O))
                        else
                          m <- set3 m all all (between 0 k) (scalar3 (o_zero O)) ;;
                          set3 m all all (from k) (sub3 c all all (between 0 (- k)))
                    end) ;;
              Ok (make m (sg_offset s))
          end
      end
  end.

(** ** Binary operators with spectrograms *)

(** _spectrogram.py:588-595; [function] takes the two operands and the output array. *)
Definition sg_overlaps {X Y} (s : spectrogram A R) (a : X) (b : Y) (n0 n1 n2 : Z)
  (function : X -> Y -> cube A -> result (cube A)) (label : string) : result (spectrogram A R) :=
  m <- allocate3 junk n0 n1 n2 ;;
  m <- function a b m ;;
  Ok (mk_spectrogram m (sg_resolution s) (sg_rate s) (sg_offset s) (Some (zrepeat label (dim0 m)))).

(** [function(a, b, out=out)] *)
Definition elementwise (f : A -> A -> A) (a b out : cube A) : result (cube A) :=
  ufunc3_into f a b out everything everything everything.

(** _spectrogram.py:597-620 *)
Definition sg_different_number_of_channels (f : A -> A -> A) (pivot : option A) (label : string) (s o : spectrogram A R)
  : result (spectrogram A R) :=
  let all := everything in
  let sl := sg_count s in
  let ol := sg_count o in
  let sc := sg_channels s in
  let oc := sg_channels o in
  ml <- (if ol <? sl then
           m <- allocate3 junk (dim0 sc) (dim1 sc) (dim2 sc) ;;
           m <- ufunc3_into f (sub3 sc (between 0 ol) all all) oc m (between 0 ol) all all ;;
           m <- (match pivot with
                 | None => set3 m (from ol) all all (sub3 sc (from ol) all all)
                 | Some p => ufunc3_into f (sub3 sc (from ol) all all) (scalar3 p) m (from ol) all all
                 end) ;;
           Ok (m, sl)
         else
           m <- allocate3 junk (dim0 oc) (dim1 oc) (dim2 oc) ;;
           m <- ufunc3_into f sc (sub3 oc (between 0 sl) all all) m (between 0 sl) all all ;;
           m <- (match pivot with
                 | None => set3 m (from sl) all all (sub3 oc (from sl) all all)
                 | Some p => ufunc3_into f (scalar3 p) (sub3 oc (from sl) all all) m (from sl) all all
                 end) ;;
           Ok (m, ol)) ;;
  Ok (mk_spectrogram (fst ml) (sg_resolution s) (sg_rate s) (sg_offset s) (Some (zrepeat label (snd ml)))).

(** [for c in range(1, channel_count): channels[c, b1, b2] = src(channels)] *)
Definition copy_to_layers (n : Z) (b1 b2 : bounds) (src : cube A -> result (cube A)) (m : cube A) : result (cube A) :=
  for_each (zseq 1 (n - 1)) (fun m c => v <- src m ;; set3 m (between c (c + 1)) b1 b2 v) m.

(** _spectrogram.py:622-683 *)
Definition sg_different_shapes (f : A -> A -> A) (pivot : option A) (label : string) (s o : spectrogram A R)
  : result (spectrogram A R) :=
  let all := everything in
  let start := Z.min (sg_offset s) (sg_offset o) in
  let stop := Z.max (sg_offset s + sg_length s) (sg_offset o + sg_length o) in
  let len := stop - start in
  let frequencies := Z.max (sg_frequencies s) (sg_frequencies o) in
  let channel_count := Z.max (sg_count s) (sg_count o) in
  m <- allocate3 junk channel_count frequencies len ;;
  (* compute a few indices to make the slicing more readable *)
  let sc := sg_count s in
  let sf := sg_frequencies s in
  let sa := sg_offset s - start in
  let sb := sa + sg_length s in
  let oc := sg_count o in
  let of := sg_frequencies o in
  let oa := sg_offset o - start in
  let ob := oa + sg_length o in
  (* copy the two spectrograms *)
  m <- set3 m all all all (scalar3 (o_zero O)) ;;
  m <- set3 m (between 0 sc) (between 0 sf) (between sa sb) (sg_channels s) ;;
  m <- (if sc =? 1 then
          copy_to_layers channel_count (between 0 sf) (between sa sb) (fun _ => layer (sg_channels s) 0) m
        else Ok m) ;;
  m <- (match pivot with
        | None =>
            m <- set3 m (between 0 oc) (between 0 of) (between oa ob) (sg_channels o) ;;
            if oc =? 1 then
              copy_to_layers channel_count (between 0 of) (between oa ob) (fun _ => layer (sg_channels o) 0) m
            else Ok m
        | Some p =>
            m <- ufunc3_into f (scalar3 p) (sg_channels o) m (between 0 oc) (between 0 of) (between oa ob) ;;
            if oc =? 1 then
              copy_to_layers channel_count (between 0 of) (between oa ob)
                (fun m => v <- layer m 0 ;; Ok (sub3 v all (between 0 of) (between oa ob))) m
            else Ok m
        end) ;;
  (* apply the function to the overlapping parts of the two spectrograms *)
  let bc := Z.min (sg_count s) (sg_count o) in
  let bf := Z.min (sg_frequencies s) (sg_frequencies o) in
  let ba := Z.max (sg_offset s) (sg_offset o) - start in
  let bb := Z.min (sg_offset s + sg_length s) (sg_offset o + sg_length o) - start in
  let sx := ba + start - sg_offset s in
  let sy := bb + start - sg_offset s in
  let ox := ba + start - sg_offset o in
  let oy := bb + start - sg_offset o in
  m <- (if negb (bf =? 0) && (ba <? bb) then
          if sc =? 1 then
            v <- layer (sg_channels s) 0 ;;
            ufunc3_into f (sub3 v all (between 0 bf) (between sx sy))
                          (sub3 (sg_channels o) all (between 0 bf) (between ox oy)) m all (between 0 bf) (between ba bb)
          else if oc =? 1 then
            v <- layer (sg_channels o) 0 ;;
            ufunc3_into f (sub3 (sg_channels s) all (between 0 bf) (between sx sy))
                          (sub3 v all (between 0 bf) (between ox oy)) m all (between 0 bf) (between ba bb)
          else
            ufunc3_into f (sub3 (sg_channels s) (between 0 bc) (between 0 bf) (between sx sy))
                          (sub3 (sg_channels o) (between 0 bc) (between 0 bf) (between ox oy))
                          m (between 0 bc) (between 0 bf) (between ba bb)
        else Ok m) ;;
  Ok (mk_spectrogram m (sg_resolution s) (sg_rate s) start (Some (zrepeat label channel_count))).

(** _spectrogram.py:555-586 *)
Definition sg_algebra (f : A -> A -> A) (pivot : option A) (label : string) (s o : spectrogram A R) : result (spectrogram A R) :=
  let sc := sg_channels s in
  let oc := sg_channels o in
  if (sg_frequencies s =? sg_frequencies o) && (sg_length s =? sg_length o) && (sg_offset s =? sg_offset o) then
    if sg_count s =? 1 then
      v <- layer sc 0 ;; sg_overlaps s v oc (dim0 oc) (dim1 oc) (dim2 oc) (elementwise f) label
    else if sg_count o =? 1 then
      v <- layer oc 0 ;; sg_overlaps s sc v (dim0 sc) (dim1 sc) (dim2 sc) (elementwise f) label
    else if sg_count s =? sg_count o then
      sg_overlaps s sc oc (dim0 sc) (dim1 sc) (dim2 sc) (elementwise f) label
    else sg_different_number_of_channels f pivot label s o
  else sg_different_shapes f pivot label s o.

(** ** Binary operators with signals and spectrums *)

(** _spectrogram.py:691-693 *)
Definition channelwise_signal (f : A -> A -> A) (a : cube A) (b : arr A) (out : cube A) : result (cube A) :=
  for_each (zseq 0 (Z.min (nrows b) (dim0 out)))
    (fun m c => v <- row b c ;; ufunc3_into f a (cube_of v) m (between c (c + 1)) everything everything) out.
(** _spectrogram.py:764-766 *)
Definition channelwise_signal_right (f : A -> A -> A) (a : arr A) (b : cube A) (out : cube A) : result (cube A) :=
  for_each (zseq 0 (Z.min (nrows a) (dim0 out)))
    (fun m c => v <- row a c ;; ufunc3_into f (cube_of v) b m (between c (c + 1)) everything everything) out.
(** _spectrogram.py:729-732 *)
Definition channelwise_spectrum (f : A -> A -> A) (a : cube A) (b : arr A) (out : cube A) : result (cube A) :=
  let t := transpose Axes021 a in
  for_each (zseq 0 (Z.min (nrows b) (dim0 out)))
    (fun m c => v <- row b c ;; ufunc3_view f t (cube_of v) Axes021 m (between c (c + 1)) everything everything) out.
(** _spectrogram.py:807-810 *)
Definition channelwise_spectrum_right (f : A -> A -> A) (a : arr A) (b : cube A) (out : cube A) : result (cube A) :=
  let t := transpose Axes021 b in
  for_each (zseq 0 (Z.min (nrows a) (dim0 out)))
    (fun m c => v <- row a c ;; ufunc3_view f (cube_of v) t Axes021 m (between c (c + 1)) everything everything) out.

(** _spectrogram.py:838-845 *)
Definition sg_view_overlaps (s : spectrogram A R) (a b : cube A) (n0 n1 n2 : Z) (ax : axes) (f : A -> A -> A) (label : string)
  : result (spectrogram A R) :=
  m <- allocate3 junk n0 n1 n2 ;;
  m <- ufunc3_view f a b ax m everything everything everything ;;
  Ok (mk_spectrogram m (sg_resolution s) (sg_rate s) (sg_offset s) (Some (zrepeat label (dim0 m)))).

(** _spectrogram.py:847-882; [other] is the channels array of the signal or spectrum.  Slicing the
    first axis before transposing is slicing the second axis of the transposed array, because the axes
    are (1, 0, 2) or (2, 0, 1). *)
Definition sg_view_different_number_of_channels (f : A -> A -> A) (pivot : option A) (ax : axes) (label : string)
  (s : spectrogram A R) (other : arr A) : result (spectrogram A R) :=
  let all := everything in
  let sl := sg_count s in
  let ol := nrows other in
  let sc := sg_channels s in
  ml <- (if ol <? sl then
           m <- allocate3 junk (dim0 sc) (dim1 sc) (dim2 sc) ;;
           m <- ufunc3_view f (transpose ax (sub3 sc (between 0 ol) all all)) (cube_of other) ax m all (between 0 ol) all ;;
           m <- (match pivot with
                 | None => set3 m (from ol) all all (sub3 sc (from ol) all all)
                 | Some p => ufunc3_into f (sub3 sc (from ol) all all) (scalar3 p) m (from ol) all all
                 end) ;;
           Ok (m, sl)
         else
           m <- allocate3 junk ol (sg_frequencies s) (sg_length s) ;;
           m <- ufunc3_view f (transpose ax sc) (cube_of (block other (between 0 sl) all)) ax m all (between 0 sl) all ;;
           m <- (match pivot with
                 | None => set3_view ax m all (from sl) all (cube_of (block other (from sl) all))
                 | Some p => ufunc3_view f (scalar3 p) (cube_of (block other (from sl) all)) ax m all (from sl) all
                 end) ;;
           Ok (m, ol)) ;;
  Ok (mk_spectrogram (fst ml) (sg_resolution s) (sg_rate s) (sg_offset s) (Some (zrepeat label (snd ml)))).

(** _spectrogram.py:884-921 *)
Definition sg_view_different_number_of_channels_right (f : A -> A -> A) (pivot : option A) (ax : axes) (label : string)
  (s : spectrogram A R) (other : arr A) : result (spectrogram A R) :=
  let all := everything in
  let sl := sg_count s in
  let ol := nrows other in
  let sc := sg_channels s in
  ml <- (if ol <? sl then
           m <- allocate3 junk (dim0 sc) (dim1 sc) (dim2 sc) ;;
           m <- ufunc3_view f (cube_of other) (transpose ax (sub3 sc (between 0 ol) all all)) ax m all (between 0 ol) all ;;
           m <- (match pivot with
                 | None => set3 m (from ol) all all (sub3 sc (from ol) all all)
                 | Some p => ufunc3_into f (scalar3 p) (sub3 sc (from ol) all all) m (from ol) all all
                 end) ;;
           Ok (m, sl)
         else
           m <- allocate3 junk ol (sg_frequencies s) (sg_length s) ;;
           m <- ufunc3_view f (cube_of (block other (between 0 sl) all)) (transpose ax sc) ax m all (between 0 sl) all ;;
           m <- (match pivot with
                 | None => set3_view ax m all (from sl) all (cube_of (block other (from sl) all))
                 | Some p => ufunc3_view f (cube_of (block other (from sl) all)) (scalar3 p) ax m all (from sl) all
                 end) ;;
           Ok (m, ol)) ;;
  Ok (mk_spectrogram (fst ml) (sg_resolution s) (sg_rate s) (sg_offset s) (Some (zrepeat label (snd ml)))).

(** _spectrogram.py:923-981 *)
Definition sg_signal_different_shapes (f : A -> A -> A) (pivot : option A) (label : string) (s : spectrogram A R) (o : signal A)
  : result (spectrogram A R) :=
  let all := everything in
  let start := Z.min (sg_offset s) (offset o) in
  let stop := Z.max (sg_offset s + sg_length s) (offset o + length o) in
  let len := stop - start in
  let channel_count := Z.max (sg_count s) (count o) in
  m <- allocate3 junk channel_count (sg_frequencies s) len ;;
  let sc := sg_count s in
  let sa := sg_offset s - start in
  let sb := sa + sg_length s in
  let oc := count o in
  let oa := offset o - start in
  let ob := oa + length o in
  m <- set3 m all all all (scalar3 (o_zero O)) ;;
  m <- set3 m (between 0 sc) all (between sa sb) (sg_channels s) ;;
  m <- (if sc =? 1 then copy_to_layers channel_count all (between sa sb) (fun _ => layer (sg_channels s) 0) m else Ok m) ;;
  m <- (match pivot with
        | None =>
            m <- set3_view Axes102 m all (between 0 oc) (between oa ob) (cube_of (channels o)) ;;
            if oc =? 1 then
              for_each (zseq 1 (channel_count - 1))
                (fun m c => v <- row (channels o) 0 ;; set3_view Axes102 m all (between c (c + 1)) (between oa ob) (cube_of v)) m
            else Ok m
        | Some p =>
            m <- ufunc3_view f (scalar3 p) (cube_of (channels o)) Axes102 m all (between 0 oc) (between oa ob) ;;
            if oc =? 1 then
              copy_to_layers channel_count all (between oa ob) (fun m => v <- layer m 0 ;; Ok (sub3 v all all (between oa ob))) m
            else Ok m
        end) ;;
  let bc := Z.min (sg_count s) (count o) in
  let ba := Z.max (sg_offset s) (offset o) - start in
  let bb := Z.min (sg_offset s + sg_length s) (offset o + length o) - start in
  let sx := ba + start - sg_offset s in
  let sy := bb + start - sg_offset s in
  let ox := ba + start - offset o in
  let oy := bb + start - offset o in
  m <- (if ba <? bb then
          if sc =? 1 then
            for_each (zseq 0 (Z.min (count o) (dim0 m)))
              (fun m c => v <- row (block (channels o) all (between ox oy)) c ;;
                          w <- layer (sg_channels s) 0 ;;
                          ufunc3_into f (sub3 w all all (between sx sy)) (cube_of v) m (between c (c + 1)) all (between ba bb)) m
          else if oc =? 1 then
            v <- row (channels o) 0 ;;
            ufunc3_view f (transpose Axes102 (sub3 (sg_channels s) all all (between sx sy)))
                          (cube_of (block v all (between ox oy))) Axes102 m all all (between ba bb)
          else
            ufunc3_view f (transpose Axes102 (sub3 (sg_channels s) (between 0 bc) all (between sx sy)))
                          (cube_of (block (channels o) (between 0 bc) (between ox oy))) Axes102 m all (between 0 bc) (between ba bb)
        else Ok m) ;;
  Ok (mk_spectrogram m (sg_resolution s) (sg_rate s) start (Some (zrepeat label channel_count))).

(** _spectrogram.py:983-1041 *)
Definition sg_signal_different_shapes_right (f : A -> A -> A) (pivot : option A) (label : string) (s : spectrogram A R) (o : signal A)
  : result (spectrogram A R) :=
  let all := everything in
  let start := Z.min (sg_offset s) (offset o) in
  let stop := Z.max (sg_offset s + sg_length s) (offset o + length o) in
  let len := stop - start in
  let channel_count := Z.max (sg_count s) (count o) in
  m <- allocate3 junk channel_count (sg_frequencies s) len ;;
  let sc := sg_count s in
  let sa := sg_offset s - start in
  let sb := sa + sg_length s in
  let oc := count o in
  let oa := offset o - start in
  let ob := oa + length o in
  m <- set3 m all all all (scalar3 (o_zero O)) ;;
  m <- set3_view Axes102 m all (between 0 oc) (between oa ob) (cube_of (channels o)) ;;
  m <- (if oc =? 1 then
          for_each (zseq 1 (channel_count - 1))
            (fun m c => v <- row (channels o) 0 ;; set3_view Axes102 m all (between c (c + 1)) (between oa ob) (cube_of v)) m
        else Ok m) ;;
  m <- (match pivot with
        | None =>
            m <- set3 m (between 0 sc) all (between sa sb) (sg_channels s) ;;
            if sc =? 1 then copy_to_layers channel_count all (between sa sb) (fun _ => layer (sg_channels s) 0) m else Ok m
        | Some p =>
            m <- ufunc3_into f (scalar3 p) (sg_channels s) m (between 0 sc) all (between sa sb) ;;
            if sc =? 1 then
              copy_to_layers channel_count all (between sa sb) (fun m => v <- layer m 0 ;; Ok (sub3 v all all (between sa sb))) m
            else Ok m
        end) ;;
  let bc := Z.min (sg_count s) (count o) in
  let ba := Z.max (sg_offset s) (offset o) - start in
  let bb := Z.min (sg_offset s + sg_length s) (offset o + length o) - start in
  let sx := ba + start - sg_offset s in
  let sy := bb + start - sg_offset s in
  let ox := ba + start - offset o in
  let oy := bb + start - offset o in
  m <- (if ba <? bb then
          if sc =? 1 then
            for_each (zseq 0 (Z.min (count o) (dim0 m)))
              (fun m c => v <- row (block (channels o) all (between ox oy)) c ;;
                          w <- layer (sg_channels s) 0 ;;
                          ufunc3_into f (cube_of v) (sub3 w all all (between sx sy)) m (between c (c + 1)) all (between ba bb)) m
          else if oc =? 1 then
            v <- row (channels o) 0 ;;
            ufunc3_view f (cube_of (block v all (between ox oy)))
                          (transpose Axes102 (sub3 (sg_channels s) all all (between sx sy))) Axes102 m all all (between ba bb)
          else
            ufunc3_view f (cube_of (block (channels o) (between 0 bc) (between ox oy)))
                          (transpose Axes102 (sub3 (sg_channels s) (between 0 bc) all (between sx sy)))
                          Axes102 m all (between 0 bc) (between ba bb)
        else Ok m) ;;
  Ok (mk_spectrogram m (sg_resolution s) (sg_rate s) start (Some (zrepeat label channel_count))).

(** _spectrogram.py:687-721 *)
Definition sg_algebra_signal (f : A -> A -> A) (pivot : option A) (label : string) (s : spectrogram A R) (o : signal A)
  : result (spectrogram A R) :=
  let sc := sg_channels s in
  if (sg_length s =? length o) && (sg_offset s =? offset o) then
    if sg_count s =? 1 then
      v <- layer sc 0 ;;
      sg_overlaps s v (channels o) (count o) (sg_frequencies s) (sg_length s) (channelwise_signal f) label
    else if count o =? 1 then
      v <- row (channels o) 0 ;;
      sg_view_overlaps s (transpose Axes102 sc) (cube_of v) (dim0 sc) (dim1 sc) (dim2 sc) Axes102 f label
    else if sg_count s =? count o then
      sg_view_overlaps s (transpose Axes102 sc) (cube_of (channels o)) (dim0 sc) (dim1 sc) (dim2 sc) Axes102 f label
    else sg_view_different_number_of_channels f pivot Axes102 label s (channels o)
  else sg_signal_different_shapes f pivot label s o.

(** _spectrogram.py:760-799 *)
Definition sg_algebra_signal_right (f : A -> A -> A) (pivot : option A) (label : string) (s : spectrogram A R) (o : signal A)
  : result (spectrogram A R) :=
  let sc := sg_channels s in
  if (sg_length s =? length o) && (sg_offset s =? offset o) then
    if sg_count s =? 1 then
      v <- layer sc 0 ;;
      sg_overlaps s (channels o) v (count o) (sg_frequencies s) (sg_length s) (channelwise_signal_right f) label
    else if count o =? 1 then
      v <- row (channels o) 0 ;;
      sg_view_overlaps s (cube_of v) (transpose Axes102 sc) (dim0 sc) (dim1 sc) (dim2 sc) Axes102 f label
    else if sg_count s =? count o then
      sg_view_overlaps s (cube_of (channels o)) (transpose Axes102 sc) (dim0 sc) (dim1 sc) (dim2 sc) Axes102 f label
    else sg_view_different_number_of_channels_right f pivot Axes102 label s (channels o)
  else sg_signal_different_shapes_right f pivot label s o.

(** _spectrogram.py:723-758 *)
Definition sg_algebra_spectrum (f : A -> A -> A) (pivot : option A) (label : string) (s : spectrogram A R) (o : spectrum A R)
  : result (spectrogram A R) :=
  let sc := sg_channels s in
  let oc := sp_channels o in
  if negb (sp_length o =? sg_frequencies s) then Err ValueError
  else if sg_count s =? 1 then
    v <- layer sc 0 ;;
    sg_overlaps s v oc (sp_count o) (sg_frequencies s) (sg_length s) (channelwise_spectrum f) label
  else if sp_count o =? 1 then
    v <- row oc 0 ;;
    sg_view_overlaps s (transpose Axes201 sc) (cube_of v) (dim0 sc) (dim1 sc) (dim2 sc) Axes201 f label
  else if sg_count s =? sp_count o then
    sg_view_overlaps s (transpose Axes201 sc) (cube_of oc) (dim0 sc) (dim1 sc) (dim2 sc) Axes201 f label
  else sg_view_different_number_of_channels f pivot Axes201 label s oc.

(** _spectrogram.py:801-836 *)
Definition sg_algebra_spectrum_right (f : A -> A -> A) (pivot : option A) (label : string) (s : spectrogram A R) (o : spectrum A R)
  : result (spectrogram A R) :=
  let sc := sg_channels s in
  let oc := sp_channels o in
  if negb (sp_length o =? sg_frequencies s) then Err ValueError
  else if sg_count s =? 1 then
    v <- layer sc 0 ;;
    sg_overlaps s oc v (sp_count o) (sg_frequencies s) (sg_length s) (channelwise_spectrum_right f) label
  else if sp_count o =? 1 then
    v <- row oc 0 ;;
    sg_view_overlaps s (cube_of v) (transpose Axes201 sc) (dim0 sc) (dim1 sc) (dim2 sc) Axes201 f label
  else if sg_count s =? sp_count o then
    sg_view_overlaps s (cube_of oc) (transpose Axes201 sc) (dim0 sc) (dim1 sc) (dim2 sc) Axes201 f label
  else sg_view_different_number_of_channels_right f pivot Axes201 label s oc.

(** ** Numbers and arrays: _spectrogram.py:1045-1056 and 540-551 *)
Definition sg_algebra_array (f : A -> A -> A) (s : spectrogram A R) (x : cube A) : result (spectrogram A R) :=
  let c := sg_channels s in
  m <- allocate3 junk (dim0 c) (dim1 c) (dim2 c) ;;
  m <- elementwise f c x m ;;
  Ok (mk_spectrogram m (sg_resolution s) (sg_rate s) (sg_offset s) (Some (sg_labels s))).
Definition sg_algebra_array_right (f : A -> A -> A) (s : spectrogram A R) (x : cube A) : result (spectrogram A R) :=
  let c := sg_channels s in
  m <- allocate3 junk (dim0 c) (dim1 c) (dim2 c) ;;
  m <- elementwise f x c m ;;
  Ok (mk_spectrogram m (sg_resolution s) (sg_rate s) (sg_offset s) (Some (sg_labels s))).

(** The operators: _sampled_data.py:99-137. *)
Definition spectrogram_op (p : operator) (s o : spectrogram A R) : result (spectrogram A R) :=
  sg_algebra (op_function O p) (op_pivot O p) (op_label p) s o.
(** [spectrogram op signal] and [signal op spectrogram] *)
Definition spectrogram_op_signal (p : operator) := sg_algebra_signal (op_function O p) (op_pivot O p) (op_label p).
Definition signal_op_spectrogram (p : operator) (o : signal A) (s : spectrogram A R) :=
  sg_algebra_signal_right (op_function O p) (op_pivot O p) (op_label p) s o.
(** [spectrogram op spectrum] and [spectrum op spectrogram] *)
Definition spectrogram_op_spectrum (p : operator) := sg_algebra_spectrum (op_function O p) (op_pivot O p) (op_label p).
Definition spectrum_op_spectrogram (p : operator) (o : spectrum A R) (s : spectrogram A R) :=
  sg_algebra_spectrum_right (op_function O p) (op_pivot O p) (op_label p) s o.
(** [spectrogram op x] and [x op spectrogram] for a number or an array *)
Definition spectrogram_op_array (p : operator) := sg_algebra_array (op_function O p).
Definition spectrogram_op_array_right (p : operator) := sg_algebra_array_right (op_function O p).

End Spectrogram.
