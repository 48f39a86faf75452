(** Model of JSON texts: Python's [json.dump(v, f, indent=4)] and [json.load(f)] (json/encoder.py, json/decoder.py, json/scanner.py; not code of /repo),
    with which /repo/sumpf/_internal/_persistence/_signal_writers.py:155-162, _spectrum_writers.py:119-126, _spectrogram_writers.py:98-105,
    _filter_writers.py:433-442 write and _signal_readers.py:130-137, _spectrum_readers.py:139-162, _spectrogram_readers.py:53-84, _filter_readers.py:129-139
    read files.

    A text is the list of its characters, and a character is its Unicode code point.  [X] is the type of finite floating point numbers, their
    notation is a parameter.  Texts are stored in the encoding of the platform; the theorems say, that all characters are ASCII characters. *)

From Coq Require Import String Ascii ZArith List Bool.
From Verif.Model Require Import Py Text.
Import ListNotations.
Open Scope list_scope.
Open Scope Z_scope.

(** The code points of a string of Coq *)
Fixpoint codes (s : string) : list Z :=
  match s with EmptyString => [] | String c s => Z.of_N (N_of_ascii c) :: codes s end.

Section Json.
Context {X : Type}.

(** Python's floating point numbers *)
Inductive float := Finite (x : X) | NaN | Infinity | NegativeInfinity.

(** Objects.  Tuples are written as lists; [JOther] is an object that cannot be written, such as a complex number or a NumPy number that is not
    a double precision number. *)
Inductive json :=
| JNull
| JBool (b : bool)
| JInt (z : Z)
| JFloat (x : float)
| JStr (s : list Z)
| JList (l : list json)
| JDict (l : list (list Z * json))
| JOther.

(** [float.__repr__] and [float] for finite numbers *)
Variable show : X -> list Z.
Variable read : list Z -> option X.

(** ** Writing *)

Definition hex_digit (d : Z) : Z := if d <? 10 then 48 + d else 87 + d.
(** ['\\u{0:04x}'.format(n)] *)
Definition u_escape (n : Z) : list Z := [92; 117; hex_digit (n / 4096); hex_digit (n / 256 mod 16); hex_digit (n / 16 mod 16); hex_digit (n mod 16)].
(** encoder.py:19-32, 48-71: quotation marks, backslashes and characters that are not printable ASCII characters are escaped. *)
Definition escape (c : Z) : list Z :=
  if c =? 92 then [92; 92]
  else if c =? 34 then [92; 34]
  else if c =? 8 then [92; 98]
  else if c =? 12 then [92; 102]
  else if c =? 10 then [92; 110]
  else if c =? 13 then [92; 114]
  else if c =? 9 then [92; 116]
  else if (32 <=? c) && (c <=? 126) then [c]
  else if c <? 65536 then u_escape c
  else
    let n := c - 65536 in
    u_escape (55296 + n / 1024 mod 1024) ++ u_escape (56320 + n mod 1024).
Definition write_string (s : list Z) : list Z := 34 :: flat_map escape s ++ [34].

(** encoder.py:224-244 *)
Definition write_float (x : float) : list Z :=
  match x with
  | Finite x => show x
  | NaN => codes "NaN"
  | Infinity => codes "Infinity"
  | NegativeInfinity => codes "-Infinity"
  end.

(** ['\n' + _indent * level] *)
Definition newline (level : nat) : list Z := 10 :: repeat 32 (4 * level).

(** encoder.py:260-443.  The result is what has been written to the file, and the exception that has been raised then. *)
Definition written := (list Z * option exn)%type.
Definition emit (text : list Z) (k : written) : written := (text ++ fst k, snd k).
Definition then_ (a k : written) : written := match snd a with None => emit (fst a) k | Some e => a end.

Fixpoint write (level : nat) (v : json) : written :=
  match v with
  | JNull => (codes "null", None)
  | JBool b => (if b then codes "true" else codes "false", None)
  | JInt z => (codes (py_str z), None)
  | JFloat x => (write_float x, None)
  | JStr s => (write_string s, None)
  | JList [] => ([91; 93], None)
  | JList (x :: l) =>
      emit (91 :: newline (S level)) (then_ (write (S level) x)
        ((fix items l := match l with
                         | [] => (newline level ++ [93], None)
                         | x :: l => emit (44 :: newline (S level)) (then_ (write (S level) x) (items l))
                         end) l))
  | JDict [] => ([123; 125], None)
  | JDict ((k, x) :: l) =>
      emit (123 :: newline (S level) ++ write_string k ++ [58; 32]) (then_ (write (S level) x)
        ((fix entries l := match l with
                           | [] => (newline level ++ [125], None)
                           | (k, x) :: l => emit (44 :: newline (S level) ++ write_string k ++ [58; 32]) (then_ (write (S level) x) (entries l))
                           end) l))
  | JOther => ([], Some TypeError)
  end.

(** [json.dump(v, f, indent=4)]: the contents of the file and the exception *)
Definition dump (v : json) : written := write 0 v.

(** ** Reading.  [json.JSONDecodeError] is a [ValueError]. *)

Definition whitespace (c : Z) : bool := (c =? 32) || (c =? 9) || (c =? 10) || (c =? 13).
Fixpoint skip (l : list Z) : list Z := match l with c :: t => if whitespace c then skip t else l | [] => [] end.

Definition unhex (c : Z) : option Z :=
  if (48 <=? c) && (c <=? 57) then Some (c - 48)
  else if (97 <=? c) && (c <=? 102) then Some (c - 87)
  else if (65 <=? c) && (c <=? 70) then Some (c - 55)
  else None.
(** Four hexadecimal digits: decoder.py:58-66 *)
Definition unhex4 (l : list Z) : option (Z * list Z) :=
  match l with
  | a :: b :: c :: d :: l =>
      match unhex a, unhex b, unhex c, unhex d with
      | Some a, Some b, Some c, Some d => Some (4096 * a + 256 * b + 16 * c + d, l)
      | _, _, _, _ => None
      end
  | _ => None
  end.

(** decoder.py:68-125: the string until the closing quotation mark and the rest of the text.  The recursion ends after [n] steps. *)
Definition simple_escape (c : Z) : option Z :=
  if c =? 34 then Some 34 else if c =? 92 then Some 92 else if c =? 47 then Some 47 else if c =? 98 then Some 8 else if c =? 102 then Some 12
  else if c =? 110 then Some 10 else if c =? 114 then Some 13 else if c =? 116 then Some 9 else None.
Fixpoint scan_string (n : nat) (l : list Z) : option (list Z * list Z) :=
  match n with
  | O => None
  | S n =>
      match l with
      | [] => None
      | c :: l =>
          if c =? 34 then Some ([], l)
          else if c =? 92 then
            match l with
            | [] => None
            | e :: l =>
                if e =? 117 then
                  match unhex4 l with
                  | None => None
                  | Some (u, l) =>
                      let '(u, l) :=
                        (if (55296 <=? u) && (u <=? 56319) then
                           match l with
                           | b :: e :: m =>
                               if (b =? 92) && (e =? 117) then
                                 match unhex4 m with
                                 | Some (u2, m) => if (56320 <=? u2) && (u2 <=? 57343) then (65536 + 1024 * (u - 55296) + (u2 - 56320), m) else (u, l)
                                 | None => (u, l)
                                 end
                               else (u, l)
                           | _ => (u, l)
                           end
                         else (u, l)) in
                      match scan_string n l with Some (s, r) => Some (u :: s, r) | None => None end
                  end
                else
                  match simple_escape e with
                  | None => None
                  | Some c => match scan_string n l with Some (s, r) => Some (c :: s, r) | None => None end
                  end
            end
          else if c <? 32 then None
          else match scan_string n l with Some (s, r) => Some (c :: s, r) | None => None end
      end
  end.

(** scanner.py:12-14, 47-55: the regular expression for numbers *)
Definition is_digit (c : Z) : bool := (48 <=? c) && (c <=? 57).
Fixpoint span_digits (l : list Z) : list Z * list Z :=
  match l with c :: t => if is_digit c then let '(d, r) := span_digits t in (c :: d, r) else ([], l) | [] => ([], []) end.
Definition integer_part (l : list Z) : option (list Z * list Z) :=
  match l with
  | c :: t => if c =? 48 then Some ([48], t) else if is_digit c then Some (span_digits l) else None
  | [] => None
  end.
Definition fraction_part (l : list Z) : list Z * list Z :=
  match l with
  | c :: t => if c =? 46 then match span_digits t with ([], _) => ([], l) | (d, r) => (c :: d, r) end else ([], l)
  | [] => ([], [])
  end.
Definition exponent_part (l : list Z) : list Z * list Z :=
  match l with
  | c :: t =>
      if (c =? 101) || (c =? 69) then
        let '(sign, u) := match t with s :: u => if (s =? 43) || (s =? 45) then ([s], u) else ([], t) | [] => ([], []) end in
        match span_digits u with ([], _) => ([], l) | (d, r) => (c :: sign ++ d, r) end
      else ([], l)
  | [] => ([], [])
  end.
Definition digits_value (l : list Z) : Z := fold_left (fun n c => 10 * n + (c - 48)) l 0.
(** [float(text)] does not fail for such texts; numbers that are too large are infinite. *)
Definition scan_number (l : list Z) : option (json * list Z) :=
  let '(sign, t) := match l with c :: t => if c =? 45 then ([45], t) else ([], l) | [] => ([], []) end in
  match integer_part t with
  | None => None
  | Some (i, t) =>
      let '(f, t) := fraction_part t in
      let '(e, t) := exponent_part t in
      match f, e with
      | [], [] => Some (JInt (match sign with [] => digits_value i | _ => - digits_value i end), t)
      | _, _ => match read (sign ++ i ++ f ++ e) with
                | Some x => Some (JFloat (Finite x), t)
                | None => Some (JFloat (match sign with [] => Infinity | _ => NegativeInfinity end), t)
                end
      end
  end.

(** A literal and the rest of the text *)
Fixpoint literal (w l : list Z) : option (list Z) :=
  match w, l with
  | [], _ => Some l
  | a :: w, b :: l => if a =? b then literal w l else None
  | _, [] => None
  end.

Definition same_key : list Z -> list Z -> bool := fun a b => if list_eq_dec Z.eq_dec a b then true else false.
(** [dict(pairs)]: the last value of a key counts. *)
Fixpoint insert (k : list Z) (v : json) (l : list (list Z * json)) : list (list Z * json) :=
  match l with [] => [(k, v)] | (k', v') :: l => if same_key k k' then (k', v) :: l else (k', v') :: insert k v l end.
Definition dictionary (l : list (list Z * json)) : list (list Z * json) := fold_left (fun d e => insert (fst e) (snd e) d) l [].

(** The elements of a list after the opening bracket and the first one: decoder.py:217-249; [value] reads an element. *)
Fixpoint items (n : nat) (value : list Z -> option (json * list Z)) (l : list Z) : option (list json * list Z) :=
  match n with
  | O => None
  | S n =>
      match value l with
      | None => None
      | Some (v, l) =>
          match skip l with
          | c :: l =>
              if c =? 93 then Some ([v], l)
              else if c =? 44 then match items n value (skip l) with Some (m, r) => Some (v :: m, r) | None => None end
              else None
          | [] => None
          end
      end
  end.
(** The entries of a dictionary: decoder.py:136-215 *)
Fixpoint entries (n : nat) (value : list Z -> option (json * list Z)) (l : list Z) : option (list (list Z * json) * list Z) :=
  match n with
  | O => None
  | S n =>
      match l with
      | q :: l =>
          if q =? 34 then
            match scan_string (S (List.length l)) l with
            | None => None
            | Some (k, l) =>
                match skip l with
                | c :: l =>
                    if c =? 58 then
                      match value (skip l) with
                      | None => None
                      | Some (v, l) =>
                          match skip l with
                          | c :: l =>
                              if c =? 125 then Some ([(k, v)], l)
                              else if c =? 44 then match entries n value (skip l) with Some (m, r) => Some ((k, v) :: m, r) | None => None end
                              else None
                          | [] => None
                          end
                      end
                    else None
                | [] => None
                end
            end
          else None
      | [] => None
      end
  end.

(** scanner.py:28-64.  The recursion ends after [n] steps. *)
Definition constant (v : json) (w l : list Z) : option (json * list Z) := match literal w l with Some r => Some (v, r) | None => None end.
Fixpoint value (n : nat) (l : list Z) : option (json * list Z) :=
  match n with
  | O => None
  | S n =>
      match l with
      | [] => None
      | c :: t =>
          if c =? 34 then match scan_string (S (List.length t)) t with Some (s, r) => Some (JStr s, r) | None => None end
          else if c =? 123 then
            match skip t with
            | c :: r => if c =? 125 then Some (JDict [], r)
                        else match entries n (value n) (c :: r) with Some (m, r) => Some (JDict (dictionary m), r) | None => None end
            | [] => None
            end
          else if c =? 91 then
            match skip t with
            | c :: r => if c =? 93 then Some (JList [], r)
                        else match items n (value n) (c :: r) with Some (m, r) => Some (JList m, r) | None => None end
            | [] => None
            end
          else if c =? 110 then constant JNull (codes "null") l
          else if c =? 116 then constant (JBool true) (codes "true") l
          else if c =? 102 then constant (JBool false) (codes "false") l
          else
            match scan_number l with
            | Some r => Some r
            | None =>
                if c =? 78 then constant (JFloat NaN) (codes "NaN") l
                else if c =? 73 then constant (JFloat Infinity) (codes "Infinity") l
                else if c =? 45 then constant (JFloat NegativeInfinity) (codes "-Infinity") l
                else None
            end
      end
  end.

(** [json.load(f)]: json/__init__.py:299-359, decoder.py:332-356.  (A byte order mark is not the beginning of a value, either.) *)
Definition load (text : list Z) : result json :=
  match value (S (List.length text)) (skip text) with
  | Some (v, r) => match skip r with [] => Ok v | _ => Err ValueError end
  | None => Err ValueError
  end.

End Json.
Arguments float : clear implicits.
Arguments json : clear implicits.
