(** What it means to choose readers and writers by preference.  Independent of the loops of the model. *)

From Coq Require Import String Ascii ZArith List Bool.
From Verif.Model Require Import Py Persistence.
Import ListNotations.
Open Scope list_scope.

(** ** Extensions *)

Fixpoint occurs (c : ascii) (s : string) : Prop :=
  match s with EmptyString => False | String a t => a = c \/ occurs c t end.

(** [extension] is the extension of the last component of the path: it is empty or starts with the last dot of the
    component, unless the component has nothing but dots in front of it. *)
Definition is_extension (path extension : string) : Prop :=
  exists directory root,
    path = (directory ++ root ++ extension)%string
    /\ (directory = ""%string \/ exists d, directory = (d ++ "/")%string)
    /\ ~ occurs "/" (root ++ extension)
    /\ ((exists suffix, extension = String "." suffix /\ ~ occurs "." suffix
                        /\ exists c, c <> "."%char /\ occurs c root)
        \/ (extension = ""%string
            /\ exists dots rest, root = (dots ++ rest)%string /\ (forall c, occurs c dots -> c = "."%char) /\ ~ occurs "." rest)).

(** ** Reading *)

Section Reading.
Context {W D : Type}.
Variables (world : W) (path : string).

(** The constructor of the class works, which means that the libraries, that it needs, are installed. *)
Definition available (c : reader_class W D) : bool :=
  match r_init c world with Ok _ => true | Err _ => false end.

Definition associated (extension : string) (c : reader_class W D) : bool :=
  if in_dec string_dec extension (r_extensions c) then true else false.

Definition used_before (known : list (reader_class W D)) (c : reader_class W D) : bool :=
  if in_dec string_dec (r_name c) (map r_name known) then true else false.

(** The readers in the order of preference: the readers, that are known from earlier calls, the readers, that
    are associated with the extension, and the other ones. *)
Definition by_preference (extension : string) (known classes : list (reader_class W D)) : list (reader_class W D) :=
  known
  ++ filter (fun c => available c && associated extension c && negb (used_before known c)) classes
  ++ filter (fun c => available c && negb (associated extension c) && negb (used_before known c)) classes.

(** The reader does not run forever. *)
Definition returns (c : reader_class W D) : Prop := r_call c world path <> Err Hangs.

Definition fails (c : reader_class W D) : Prop := exists e, r_call c world path = Err e.

(** The data set comes from the first one of the candidates, that can read the file. *)
Definition first_success (candidates : list (reader_class W D)) (d : D) : Prop :=
  exists before c after,
    candidates = before ++ c :: after /\ r_call c world path = Ok d /\ forall b, In b before -> fails b.

(** The exception is the one of the first candidate, if there is one. *)
Definition exception_of_first (candidates : list (reader_class W D)) (cause : option exn) : Prop :=
  match candidates, cause with
  | [], None => True
  | c :: _, Some e => r_call c world path = Err e
  | _, _ => False
  end.
End Reading.

(** A missing library is the only reason, for which a constructor raises. *)
Definition regular_init {W D} (w : W) (c : reader_class W D) : Prop :=
  r_init c w = Ok tt \/ r_init c w = Err ImportError.

(** ** Writing *)

Section Writing.
Context {W D F : Type}.
Variable format_eqb : F -> F -> bool.
Variable classes : list (writer_class W D F).
Variable mapping : list (string * list F).

(** The states, that can be reached by saving data sets, while the world changes arbitrarily in between. *)
Inductive reachable : state W D F -> Prop :=
| at_first : reachable (State [] [])
| after_save st data path file_format w r st' w' :
    reachable st -> save format_eqb classes mapping data path file_format st w = (r, st', w') -> reachable st'.

(** The same, starting at a given state *)
Inductive later (st : state W D F) : state W D F -> Prop :=
| not_later : later st st
| one_later st' data path file_format w r st'' w' :
    later st st' -> save format_eqb classes mapping data path file_format st' w = (r, st'', w') -> later st st''.

(** The writer is an instance of one of the classes, which supports the format. *)
Definition writer_for (f : F) (i : writer W D F) : Prop :=
  w_format i = f /\ In (w_class i) classes /\ In f (w_formats (w_class i)).

Definition unavailable (w : W) (f : F) : Prop :=
  forall c, In c classes -> In f (w_formats c) -> w_init c w f = Err ImportError.

(** The first class of the list, that supports the format and whose libraries are installed. *)
Definition first_available (w : W) (f : F) (c : writer_class W D F) : Prop :=
  exists before after,
    classes = before ++ c :: after /\ In f (w_formats c) /\ w_init c w f = Ok tt
    /\ forall b, In b before -> In f (w_formats b) -> w_init b w f = Err ImportError.

(** The format is associated with the extension. *)
Definition format_of (extension : string) (f : F) : Prop :=
  exists formats, In (extension, formats) mapping /\ In f formats.

(** The world changes only by writing the data to the path with writers for the extension, and none of the writers succeeds. *)
Inductive attempts (extension : string) (data : D) (path : string) : W -> W -> Prop :=
| no_attempt w : attempts extension data path w w
| one_attempt f i e w w' w'' :
    format_of extension f -> writer_for f i ->
    run i data path w = (Err e, w') -> e = ValueError \/ e = ImportError ->
    attempts extension data path w' w'' ->
    attempts extension data path w w''.

(** None of the classes for the format was available, when the format was considered, or the writer for the format failed. *)
Definition tried (data : D) (path : string) (extension : string) (f : F) (w w' : W) : Prop :=
  exists u, attempts extension data path w u
    /\ ((unavailable u f /\ attempts extension data path u w')
        \/ exists i e v, writer_for f i /\ run i data path u = (Err e, v) /\ attempts extension data path v w').
End Writing.

(** A missing library is the only reason, for which a constructor raises. *)
Definition regular_writer {W D F} (c : writer_class W D F) : Prop :=
  forall w f, w_init c w f = Ok tt \/ w_init c w f = Err ImportError.
