(** Model of the choice of readers and writers:
    /repo/sumpf/_internal/_persistence/_functions.py and _auto_writer.py, and of the
    [load] and [save] methods, which call them (_data/_signals/_signal.py:807-837,
    _data/_spectrums/_spectrum.py:393-420, _data/_spectrograms/_spectrogram.py:464-491,
    _data/_filters/_base/_filter.py:426-452, _data/_filters/_bands.py:104-119).

    What the individual readers and writers do with a file is a parameter: a reader is
    any function from the state of the world (the file system and the installed libraries)
    and a path to a data set or an exception; a writer also changes the world, even when
    it fails. *)

From Coq Require Import String Ascii ZArith List Bool.
From Verif.Model Require Import Py.
Import ListNotations.
Open Scope string_scope.
Open Scope list_scope.
Open Scope Z_scope.

(** ** [os.path.splitext] (CPython: Lib/genericpath.py, [_splitext] with the separators of POSIX); not code of /repo *)

(** [p.rfind(c)] *)
Fixpoint rfind (c : ascii) (p : list ascii) : Z :=
  match p with
  | [] => -1
  | a :: t => let k := rfind c t in
              if 0 <=? k then k + 1
              else if Ascii.eqb a c then 0 else -1
  end.

Definition splitext (path : string) : string * string :=
  let p := list_ascii_of_string path in
  let sep := rfind "/" p in
  let dot := rfind "." p in
  let name := subseq (between (sep + 1) dot) p in
  if (sep <? dot) && existsb (fun a => negb (Ascii.eqb a ".")) name then
    (string_of_list_ascii (ztake dot p), string_of_list_ascii (zdrop dot p))
  else (path, "").

(** ** Dictionaries *)

Section Dictionary.
Context {K V : Type}.
Variable eqb : K -> K -> bool.

(** [d[k]], if [k in d] *)
Fixpoint lookup (k : K) (d : list (K * V)) : option V :=
  match d with
  | [] => None
  | (k', v) :: t => if eqb k k' then Some v else lookup k t
  end.

(** [d[k] = v] *)
Fixpoint store (k : K) (v : V) (d : list (K * V)) : list (K * V) :=
  match d with
  | [] => [(k, v)]
  | (k', v') :: t => if eqb k k' then (k', v) :: t else (k', v') :: store k v t
  end.
End Dictionary.

(** ** Readers *)

Section Readers.
Context {W D : Type}.      (* the world and the data sets *)

(** A reader class: the attribute [extensions], the constructor and the method [__call__].
    The instances have no state of their own, so that an instance is described by its class. *)
Record reader_class := ReaderClass {
  r_name : string;
  r_extensions : list string;
  r_init : W -> result unit;
  r_call : W -> string -> result D }.

(** [isinstance(r, cls)]; reader classes, which are derived from other reader classes are not considered. *)
Definition is_instance (cls r : reader_class) : bool := String.eqb (r_name r) (r_name cls).

(** [extension in cls.extensions] *)
Definition claims (extension : string) (cls : reader_class) : bool :=
  existsb (String.eqb extension) (r_extensions cls).

(** [except Exception] catches each exception. *)
Definition caught (e : exn) : bool := match e with Hangs => false | _ => true end.

(** How [read_file] ends: it returns, it raises its own [ValueError], whose cause is given,
    or another exception leaves it. *)
Inductive reading :=
| Loaded (d : D)
| Unreadable (cause : option exn)
| Raised (e : exn).

Definition first_exception (cause : option exn) (e : exn) : option exn :=
  match cause with None => Some e | Some _ => cause end.

(** Each of the loops yields how the function ends inside of the loop, if it does, and the
    first exception and the list of readers after the loop. *)
Definition loop_state : Type := option reading * option exn * list reader_class.

Variable world : W.
Variable path : string.

(** _functions.py:51-58, the instances, that have been created before *)
Fixpoint try_instances (l : list reader_class) (cause : option exn) (readers_list : list reader_class) : loop_state :=
  match l with
  | [] => (None, cause, readers_list)
  | r :: t =>
      match r_call r world path with
      | Ok d => (Some (Loaded d), cause, readers_list)
      | Err e => if caught e then try_instances t (first_exception cause e) readers_list
                 else (Some (Raised e), cause, readers_list)
      end
  end.

(** _functions.py:59-73, the classes, that claim the extension *)
Fixpoint try_associated (extension : string) (l : list reader_class) (cause : option exn) (readers_list : list reader_class) : loop_state :=
  match l with
  | [] => (None, cause, readers_list)
  | cls :: t =>
      if claims extension cls && negb (existsb (is_instance cls) readers_list) then
        match r_init cls world with
        | Err ImportError => try_associated extension t cause readers_list
        | Err e => (Some (Raised e), cause, readers_list)
        | Ok _ =>
            match r_call cls world path with
            | Ok d => (Some (Loaded d), cause, readers_list ++ [cls])
            | Err e => if caught e then try_associated extension t (first_exception cause e) (readers_list ++ [cls])
                       else (Some (Raised e), cause, readers_list ++ [cls])
            end
        end
      else try_associated extension t cause readers_list
  end.

(** _functions.py:74-88, the other classes *)
Fixpoint try_others (extension : string) (l : list reader_class) (cause : option exn) (readers_list : list reader_class) : loop_state :=
  match l with
  | [] => (None, cause, readers_list)
  | cls :: t =>
      if negb (claims extension cls) && negb (existsb (is_instance cls) readers_list) then
        match r_init cls world with
        | Err ImportError => try_others extension t cause readers_list
        | Err e => (Some (Raised e), cause, readers_list)
        | Ok _ =>
            match r_call cls world path with
            | Ok d => (Some (Loaded d), cause, readers_list ++ [cls])
            | Err e => if caught e then try_others extension t (first_exception cause e) readers_list
                       else (Some (Raised e), cause, readers_list)
            end
        end
      else try_others extension t cause readers_list
  end.

(** _functions.py:24-90; [readers] is the dictionary, [classes] is [reader_base_class.__subclasses__()].
    The list of readers is an object of the dictionary, if the extension is in the dictionary (47-48),
    so that the changes of the list are changes of the dictionary; otherwise it is a local list (49-50). *)
Definition read_file (readers : list (string * list reader_class)) (classes : list reader_class)
  : reading * list (string * list reader_class) :=
  let extension := snd (splitext path) in
  let found := lookup String.eqb extension readers in
  let update l := match found with Some _ => store String.eqb extension l readers | None => readers end in
  let readers_list := match found with Some l => l | None => [] end in
  match try_instances readers_list None readers_list with
  | (Some r, _, l) => (r, update l)
  | (None, cause, l) =>
      match try_associated extension classes cause l with
      | (Some r, _, l) => (r, update l)
      | (None, cause, l) =>
          match try_others extension classes cause l with
          | (Some r, _, l) => (r, update l)
          | (None, cause, l) => (Unreadable cause, update l)
          end
      end
  end.

End Readers.
Arguments reader_class W D : clear implicits.
Arguments reading D : clear implicits.

(** The methods [load] share one dictionary, which is empty at first
    (_signal_readers.py:32, _spectrum_readers.py:29, _spectrogram_readers.py:27, _filter_readers.py:32).
    A history of calls: each one happens in some state of the world. *)
Fixpoint load_all {W D : Type} (classes : list (reader_class W D)) (readers : list (string * list (reader_class W D)))
  (calls : list (W * string)) : list (reading D) :=
  match calls with
  | [] => []
  | (w, path) :: t =>
      let '(r, readers') := read_file w path readers classes in
      r :: load_all classes readers' t
  end.

(** ** Writers *)

Section Writers.
Context {W D F : Type}.    (* the world, the data sets and the file formats except for [AUTO] *)
Variable format_eqb : F -> F -> bool.

(** A writer class: the attribute [formats], the constructor and the method [__call__] of
    an instance for the given format. *)
Record writer_class := WriterClass {
  w_name : string;
  w_formats : list F;
  w_init : W -> F -> result unit;
  w_call : F -> D -> string -> W -> result unit * W }.

(** An instance of a writer class *)
Record writer := Writer { w_class : writer_class; w_format : F }.

Definition run (i : writer) (data : D) (path : string) (w : W) : result unit * W :=
  w_call (w_class i) (w_format i) data path w.

(** The state, that is kept between the calls: the dictionary [writers] (without the entry for
    [AUTO], see [save]) and the dictionary [__extensions] of the [AutoWriter] (_auto_writer.py:51). *)
Record state := State {
  writers : list (F * writer);
  extensions : list (string * list writer) }.

Variable classes : list writer_class.           (* writer_base_class.__subclasses__() *)
Variable mapping : list (string * list F).      (* file_extension_mapping *)

(** _functions.py:112-121, the loop *)
Fixpoint new_writer (world : W) (file_format : F) (l : list writer_class) : result writer :=
  match l with
  | [] => Err ValueError
  | cls :: t =>
      if existsb (format_eqb file_format) (w_formats cls) then
        match w_init cls world file_format with
        | Err ImportError => new_writer world file_format t
        | Err e => Err e
        | Ok _ => Ok (Writer cls file_format)
        end
      else new_writer world file_format t
  end.

(** _functions.py:93-121 *)
Definition get_writer (world : W) (file_format : F) (ws : list (F * writer)) : result writer * list (F * writer) :=
  match lookup format_eqb file_format ws with
  | Some i => (Ok i, ws)
  | None =>
      match new_writer world file_format classes with
      | Ok i => (Ok i, store format_eqb file_format i ws)
      | Err e => (Err e, ws)
      end
  end.

Variable data : D.
Variable path : string.

(** _auto_writer.py:63-72, the loop over the list of writers for the extension; [before] are the writers,
    that have been tried already.  It yields how the method ends inside of the loop, if it does,
    with the new list, and the world after the loop. *)
Fixpoint try_writers (before l : list writer) (world : W) : option (result unit) * list writer * W :=
  match l with
  | [] => (None, before, world)
  | i :: t =>
      match run i data path world with
      | (Ok _, world') => (Some (Ok tt), i :: before ++ t, world')
      | (Err ValueError, world') => try_writers (before ++ [i]) t world'
      | (Err e, world') => (Some (Err e), before ++ i :: t, world')
      end
  end.

(** _auto_writer.py:75-85, the loop over the formats for the extension; the world can be different
    for each call of [get_writer]. *)
Fixpoint try_formats (extension : string) (l : list F) (st : state) (world : W) : option (result unit) * state * W :=
  match l with
  | [] => (None, st, world)
  | f :: t =>
      let '(r, ws) := get_writer world f (writers st) in
      let st := State ws (extensions st) in
      match r with
      | Ok i =>
          match run i data path world with
          | (Ok _, world') =>
              let known := match lookup String.eqb extension (extensions st) with Some k => k | None => [] end in
              (Some (Ok tt), State ws (store String.eqb extension (known ++ [i]) (extensions st)), world')
          | (Err ImportError, world') => try_formats extension t st world'
          | (Err ValueError, world') => try_formats extension t st world'
          | (Err e, world') => (Some (Err e), st, world')
          end
      | Err ImportError => try_formats extension t st world
      | Err ValueError => try_formats extension t st world
      | Err e => (Some (Err e), st, world)
      end
  end.

(** _auto_writer.py:53-88 *)
Definition auto_write (st : state) (world : W) : result unit * state * W :=
  let extension := snd (splitext path) in
  let '(r, st, world) :=
    match lookup String.eqb extension (extensions st) with
    | Some l =>
        let '(r, l', world') := try_writers [] l world in
        (r, State (writers st) (store String.eqb extension l' (extensions st)), world')
    | None => (None, st, world)
    end in
  match r with
  | Some r => (r, st, world)
  | None =>
      match lookup String.eqb extension mapping with
      | Some formats =>
          match try_formats extension formats st world with
          | (Some r, st, world) => (r, st, world)
          | (None, st, world) => (Err ImportError, st, world)
          end
      | None => (Err ValueError, st, world)
      end
  end.

(** _signal.py:820-837 and the other [save] methods; [None] is the format [AUTO], whose writer is in
    the dictionary from the beginning (_signal_writers.py:116-119). *)
Definition save (file_format : option F) (st : state) (world : W) : result unit * state * W :=
  match file_format with
  | None => auto_write st world
  | Some f =>
      let '(r, ws) := get_writer world f (writers st) in
      let st := State ws (extensions st) in
      match r with
      | Ok i => let '(r, world) := run i data path world in (r, st, world)
      | Err e => (Err e, st, world)
      end
  end.

End Writers.
Arguments writer_class W D F : clear implicits.
Arguments writer W D F : clear implicits.
Arguments state W D F : clear implicits.
