(** A faithful notation of rational numbers, and examples of JSON files. *)

From Coq Require Import String Ascii ZArith QArith List Bool Lia ZifyBool.
From Verif.Model Require Import Py Numpy Signal Spectrum Text Json Tables JsonFiles Terms Filter.
From Verif.Spec Require Import JsonSpec JsonFilesSpec.
From Verif.Proofs Require Import TextFacts JsonText JsonValues JsonCrash JsonFilesFacts.
Import ListNotations.
Open Scope list_scope.
Open Scope Z_scope.

(** The digits of the numerator are those before the point, and the digits of the denominator are those behind it. *)
Definition demo_show (x : Q) : list Z := codes (py_str (Qnum x)) ++ 46 :: codes (text (Zpos (Qden x))).
Definition demo_read (t : list Z) : option Q :=
  let '(sign, t) := match t with c :: u => if c =? 45 then (-1, u) else (1, t) | [] => (1, t) end in
  let '(i, r) := span_digits t in
  match r with _ :: r => Some (sign * digits_value i # Z.to_pos (digits_value r)) | [] => None end.

Lemma text_decimal n : 0 <= n -> decimal (codes (text n)) /\ (codes (text n) = codes "0" \/ forall j, codes (text n) <> 48 :: j).
Proof.
  intros N. destruct (text_ok n N) as (DG & _ & c & t & E & H). split; [split; [rewrite E; discriminate|exact DG]|].
  destruct (Z.eq_dec c 48) as [->|NC]; [left; destruct (H eq_refl) as [_ ->]; exact E|right; intros j J; rewrite E in J; injection J as ->; contradiction].
Qed.

Lemma demo_faithful : faithful (fun _ => True) demo_show demo_read.
Proof.
  intros [n d] _. unfold demo_show. cbn [Qnum Qden]. assert (P := text_decimal (Zpos d) ltac:(lia)). destruct (text_ok (Zpos d) ltac:(lia)) as (_ & VD & _).
  assert (G : forall m, 0 <= m -> span_digits (codes (text m) ++ 46 :: codes (text (Zpos d))) = (codes (text m), 46 :: codes (text (Zpos d)))).
  { intros m M. apply span_ok; [apply (text_ok m M)|reflexivity]. }
  destruct (Z.lt_ge_cases n 0) as [L|L].
  - rewrite py_str_neg by auto. split.
    + exists (codes "-"), (codes (text (- n))), (codes "." ++ codes (text (Zpos d))), []. split; [rewrite app_nil_r; reflexivity|]. split; [now right|]. split; [apply text_decimal; lia|].
      split; [right; eexists; split; [reflexivity|apply P]|]. split; [now left|left; discriminate].
    + cbn [codes app]. unfold demo_read. change (Z.of_N (N_of_ascii "-") =? 45) with true. cbv iota. rewrite (G (- n)) by lia. rewrite VD. destruct (text_ok (- n) ltac:(lia)) as (_ & -> & _).
      do 2 f_equal. lia.
  - rewrite py_str_nonneg by auto. split.
    + exists [], (codes (text n)), (codes "." ++ codes (text (Zpos d))), []. split; [rewrite app_nil_r; reflexivity|]. split; [now left|]. split; [apply text_decimal; lia|].
      split; [right; eexists; split; [reflexivity|apply P]|]. split; [now left|left; discriminate].
    + destruct (text_ok n L) as (DG & V & c & t & E & _). unfold demo_read. rewrite E at 1. cbn [app]. assert (C : ascii_digit c) by (rewrite E in DG; now inversion DG). unfold ascii_digit in C.
      replace (c =? 45) with false by lia. rewrite (G n) by lia. rewrite VD, V. do 2 f_equal. lia.
Qed.

Definition demo_json : json Q :=
  JDict [(codes "a ""b""", JList [JInt (-12); JFloat (Finite (-3 # 4)); JFloat NaN; JNull; JBool true; JList []; JDict []]); ([228; 128512], JStr [10; 34; 92; 55357; 65; 128512])].
Lemma demo_json_fine : proper_json (fun _ => True) demo_json /\ complete demo_json /\ container demo_json.
Proof.
  assert (S2 : proper_string [228; 128512]).
  { split; [intros c I; cbn [In] in I; lia|]. intros p a b q E H. unfold high_surrogate in H. assert (I : In a [228; 128512]) by (rewrite E; apply in_or_app; right; now left). cbn [In] in I. lia. }
  assert (S3 : proper_string [10; 34; 92; 55357; 65; 128512]).
  { split; [intros c I; cbn [In] in I; lia|]. intros p a b q E H L. unfold high_surrogate, low_surrogate in *.
    assert (I : In b [10; 34; 92; 55357; 65; 128512]) by (rewrite E; apply in_or_app; right; right; now left). cbn [In] in I. lia. }
  split; [|split; [cbn; tauto|exact I]]. split.
  - cbn [map fst]. repeat (apply NoDup_cons; [cbn; intuition discriminate|]). apply NoDup_nil.
  - split; [apply codes_proper|]. split; [|split; [exact S2|split; [exact S3|exact I]]]. cbn. repeat (split; [try exact I|]); try exact I; try constructor; apply NoDup_nil.
Qed.

Definition demo_signal : signal Q := Signal (Arr [[1; 2 # 3]; [-(1 # 2); 0]]%Q 2) 48000%Q (-3) ["left"; "a ""b"""]%string.
Lemma demo_signal_fine : signal_floats (fun _ => True) demo_signal /\ wf_signal demo_signal /\ 1 <= count demo_signal /\ In [1%Q; 2 # 3] (rows (channels demo_signal)).
Proof.
  split; [split; [repeat constructor|exact I]|]. split; [split; [split; [cbn; lia|repeat constructor]|reflexivity]|]. split; [vm_compute; discriminate|now left].
Qed.
Definition demo_complex_spectrum : spectrum (Q * Q) Q := Spectrum (Arr [[(1, -(2)); (2 # 3, 0)]]%Q 2) (1 # 10) ["spectrum"]%string.
Lemma demo_complex_spectrum_fine : spectrum_floats (fun _ => True) demo_complex_spectrum /\ wf_spectrum demo_complex_spectrum /\ 1 <= sp_count demo_complex_spectrum /\ 1 <= sp_length demo_complex_spectrum.
Proof.
  split; [split; [repeat constructor|exact I]|]. split; [split; [split; [cbn; lia|repeat constructor]|reflexivity]|]. split; vm_compute; discriminate.
Qed.

(** Complex numbers with rational parts; those, whose imaginary part is zero, are real numbers. *)
Definition demo_float (z : Q * Q) : option Q := match snd z with Qmake 0 1 => Some (fst z) | _ => None end.
Definition demo_complex (x : Q) : Q * Q := (x, 0%Q).
Lemma demo_float_inverse : forall z n, demo_float z = Some n -> demo_complex n = z.
Proof. intros [a [[|p|p] [d|d|]]] n E; try discriminate. now injection E as <-. Qed.
Definition demo_stored_filter : filter (Q * Q) Q :=
  Filter [Sum [Polynomial [(1, 0); (2, 0)]%Q true; Bands [10; 20]%Q [(1, 2); (3, 0)]%Q Linear Zero] false; Constant (5, 0)%Q] ["a"; "b"]%string.
Definition demo_complex_filter : filter (Q * Q) Q := Filter [Constant (5, 0)%Q; Polynomial [(1, 0); (2, 1)]%Q true] ["a"; "b"]%string.
Lemma demo_stored_filter_fine :
  Forall (TermsSpec.every (float_term (fun _ => True) demo_float (fun x : Q => x) (fun _ => true) (fun z => demo_complex (fst z)) (fun z => demo_complex (snd z)))) (transfer_functions demo_stored_filter).
Proof.
  assert (R : forall x, real_float (fun _ => True) demo_float (demo_complex x)) by (intros x; exists x; split; [reflexivity|exact I]).
  repeat constructor; try (apply (R _)).
Qed.
Lemma demo_complex_filter_fine :
  Forall (TermsSpec.every (number_term (fun _ => True) demo_float (fun x : Q => x) (fun z => demo_complex (fst z)) (fun z => demo_complex (snd z)))) (transfer_functions demo_complex_filter) /\
  In (Polynomial [(1, 0); (2, 1)]%Q true) (transfer_functions demo_complex_filter) /\ has_complex demo_float (@Polynomial (Q * Q) Q [(1, 0); (2, 1)]%Q true).
Proof.
  split; [repeat constructor; intros n _; exact I|]. split; [right; now left|]. exists (2, 1)%Q. split; [right; now left|reflexivity].
Qed.
