(** JSON texts: reading what has been written. *)

From Coq Require Import String Ascii ZArith List Bool Lia ZifyBool.
From Verif.Model Require Import Py Text Json.
From Verif.Spec Require Import JsonSpec.
From Verif.Proofs Require Import TextFacts JsonText.
Import ListNotations.
Open Scope list_scope.
Open Scope Z_scope.

Section Values.
Context {X : Type}.
Notation json := (json X).
Variable D : X -> Prop.
Variable show : X -> list Z.
Variable read : list Z -> option X.

(** ** Induction over objects *)

Section Induction.
Variable P : json -> Prop.
Hypothesis null : P JNull.
Hypothesis bools : forall b, P (JBool b).
Hypothesis ints : forall z, P (JInt z).
Hypothesis floats : forall x, P (JFloat x).
Hypothesis strings : forall s, P (JStr s).
Hypothesis lists : forall l, Forall P l -> P (JList l).
Hypothesis dicts : forall l, Forall (fun e => P (snd e)) l -> P (JDict l).
Hypothesis others : P JOther.
Fixpoint json_deep (v : json) : P v :=
  match v with
  | JNull => null
  | JBool b => bools b
  | JInt z => ints z
  | JFloat x => floats x
  | JStr s => strings s
  | JList l => lists l ((fix all (l : list json) : Forall P l := match l with [] => Forall_nil _ | x :: l => Forall_cons _ (json_deep x) (all l) end) l)
  | JDict l => dicts l ((fix all (l : list (list Z * json)) : Forall (fun e => P (snd e)) l :=
                           match l with [] => Forall_nil _ | (k, x) :: l => Forall_cons (k, x) (json_deep x) (all l) end) l)
  | JOther => others
  end.
End Induction.

(** ** The parts of lists and dictionaries *)

Fixpoint write_items (level : nat) (l : list json) : written :=
  match l with
  | [] => (newline level ++ [93], None)
  | x :: l => emit (44 :: newline (S level)) (then_ (write show (S level) x) (write_items level l))
  end.
Fixpoint write_entries (level : nat) (l : list (list Z * json)) : written :=
  match l with
  | [] => (newline level ++ [125], None)
  | (k, x) :: l => emit (44 :: newline (S level) ++ write_string k ++ [58; 32]) (then_ (write show (S level) x) (write_entries level l))
  end.
Lemma write_list level x l : write show level (JList (x :: l)) = emit (91 :: newline (S level)) (then_ (write show (S level) x) (write_items level l)).
Proof.
  cbn [write]. do 2 f_equal. induction l as [|y l IH]; [reflexivity|]. cbn [write_items]. now rewrite <- IH.
Qed.
Lemma write_dict level k x l :
  write show level (JDict ((k, x) :: l)) = emit (123 :: newline (S level) ++ write_string k ++ [58; 32]) (then_ (write show (S level) x) (write_entries level l)).
Proof.
  cbn [write]. do 2 f_equal. induction l as [|[k' y] l IH]; [reflexivity|]. cbn [write_entries]. now rewrite <- IH.
Qed.

Lemma proper_list l : proper_json D (JList l) <-> Forall (@proper_json X D) l.
Proof. induction l as [|x l IH]; [split; auto; constructor|]. rewrite Forall_cons_iff. rewrite <- IH. reflexivity. Qed.
Lemma proper_entries (l : list (list Z * json)) :
  (fix all l := match l with [] => True | (k, x) :: l => proper_string k /\ proper_json D x /\ all l end) l <-> Forall (fun e => proper_string (fst e) /\ proper_json D (snd e)) l.
Proof. induction l as [|[k x] l IH]; [split; auto; constructor|]. rewrite Forall_cons_iff, <- IH. cbn [fst snd]. tauto. Qed.
Lemma proper_dict l : proper_json D (JDict l) <-> NoDup (map fst l) /\ Forall (fun e => proper_string (fst e) /\ @proper_json X D (snd e)) l.
Proof. rewrite <- proper_entries. reflexivity. Qed.
Lemma complete_list l : complete (JList l) <-> Forall (@complete X) l.
Proof. induction l as [|x l IH]; [split; auto; constructor|]. rewrite Forall_cons_iff. rewrite <- IH. reflexivity. Qed.
Lemma complete_dict l : complete (JDict l) <-> Forall (fun e => @complete X (snd e)) l.
Proof. induction l as [|[k x] l IH]; [split; auto; constructor|]. rewrite Forall_cons_iff. rewrite <- IH. reflexivity. Qed.

(** ** Whitespace *)

Lemma skip_newline k r : skip (newline k ++ r) = skip r.
Proof. unfold newline. cbn [app skip]. change (whitespace 10) with true. cbv iota. induction (4 * k)%nat as [|n IH]; [reflexivity|]. exact IH. Qed.
Lemma skip_solid c r : whitespace c = false -> skip (c :: r) = c :: r.
Proof. intros W. cbn. now rewrite W. Qed.
Lemma skip_space r : skip (32 :: r) = skip r.
Proof. reflexivity. Qed.

(** ** The beginnings of texts *)

Definition opens (c : Z) : Prop := whitespace c = false /\ c <> 93 /\ c <> 125 /\ c <> 44.
Definition solid (t : list Z) : Prop := exists c u, t = c :: u /\ opens c.
Hypothesis F : faithful D show read.

Lemma opens_numeric c : c = 45 \/ ascii_digit c -> opens c.
Proof. unfold opens, whitespace, ascii_digit. lia. Qed.
Definition numeric (t : list Z) : Prop := exists c u, t = c :: u /\ (c = 45 \/ ascii_digit c).
Lemma numeric_solid t : numeric t -> solid t.
Proof. intros (c & u & E & H). exists c, u. split; [auto|]. now apply opens_numeric. Qed.
Lemma show_numeric x : D x -> numeric (show x).
Proof.
  intros DX. destruct (F x DX) as [(s & i & f & e & -> & [-> | ->] & ((N & DI) & _) & _) _]; [|exists 45; eexists; split; [reflexivity|auto]].
  destruct i as [|c i]; [contradiction|]. inversion DI; subst. exists c. eexists. split; [reflexivity|auto].
Qed.
Lemma int_numeric z : numeric (codes (py_str z)).
Proof.
  destruct (Z.lt_ge_cases z 0).
  - rewrite py_str_neg by auto. exists 45. eexists. split; [reflexivity|auto].
  - rewrite py_str_nonneg by auto. destruct (text_ok z ltac:(lia)) as (DD & _ & c & t & E & _). exists c, t. rewrite E in *. inversion DD; subst. auto.
Qed.
Lemma write_solid level v : proper_json D v -> complete v -> solid (fst (write show level v)).
Proof.
  destruct v as [|b|z|[x| | | ]|s|[|x l]|[|[k x] l]|]; intros P C; try contradiction; cbn [write fst emit]; try (eexists; eexists; split; [reflexivity|]; repeat split; discriminate).
  - destruct b; eexists; eexists; (split; [reflexivity|]); repeat split; discriminate.
  - apply numeric_solid, int_numeric.
  - apply numeric_solid, show_numeric, P.
Qed.

(** ** Reading *)

Lemma value_numeric n t p : numeric t -> scan_number read t = Some p -> value read (S n) t = Some p.
Proof.
  intros (c & u & -> & H) S. cbn [value]. unfold ascii_digit in H. replace (c =? 34) with false by lia. replace (c =? 123) with false by lia.
  replace (c =? 91) with false by lia. replace (c =? 110) with false by lia. replace (c =? 116) with false by lia. replace (c =? 102) with false by lia. now rewrite S.
Qed.
Lemma numeric_app t r : numeric t -> numeric (t ++ r).
Proof. intros (c & u & -> & H). exists c, (u ++ r). auto. Qed.

Lemma escape_length s : Forall (fun c => 0 <= c < 1114112) s -> (List.length s <= List.length (flat_map escape s))%nat.
Proof.
  induction 1 as [|c s C S IH]; [auto|]. cbn [flat_map List.length]. rewrite app_length.
  destruct (escape_cases c C) as [(e & -> & _)|[(-> & _)|[(-> & _)|(_ & u & v & -> & _)]]]; cbn; lia.
Qed.

Lemma read_string s r : proper_string s -> forall t, t = flat_map escape s ++ 34 :: r -> scan_string (S (List.length t)) t = Some (s, r).
Proof.
  intros P t ->. apply scan_written; [exact P|]. rewrite app_length. cbn [List.length].
  pose proof (escape_length s ltac:(apply Forall_forall; apply P)). lia.
Qed.

Lemma value_string n s r : proper_string s -> value read (S n) (write_string s ++ r) = Some (JStr s, r).
Proof.
  intros P. unfold write_string. cbn [app value]. rewrite <- app_assoc. cbn [app]. change (34 =? 34) with true. cbv iota. now rewrite (read_string s r P _ eq_refl).
Qed.

Lemma insert_fresh k (v : json) d : ~ In k (map fst d) -> insert k v d = d ++ [(k, v)].
Proof.
  induction d as [|[k' v'] d IH]; intros N; [reflexivity|]. cbn [insert]. unfold same_key. destruct (list_eq_dec Z.eq_dec k k') as [->|]; [exfalso; apply N; now left|].
  cbn. f_equal. apply IH. intros I. apply N. now right.
Qed.
Lemma dictionary_distinct (l : list (list Z * json)) : NoDup (map fst l) -> dictionary l = l.
Proof.
  unfold dictionary. assert (G : forall l d, NoDup (map fst (d ++ l)) -> fold_left (fun (d : list (list Z * json)) e => insert (fst e) (snd e) d) l d = d ++ l).
  { clear l. induction l as [|[k v] l IH]; intros d N; [now rewrite app_nil_r|]. cbn [fold_left fst snd]. rewrite insert_fresh.
    - rewrite IH; rewrite <- app_assoc; [reflexivity|exact N].
    - rewrite map_app in N. cbn [map fst] in N. apply NoDup_remove_2 in N. intros I. apply N. apply in_or_app. now left. }
  intros N. now rewrite (G l []).
Qed.

(** What the induction says about an object *)
Definition reads (v : json) : Prop := forall level, solid (fst (write show level v)) /\ snd (write show level v) = None /\
  forall n r, ends_number r -> (List.length (fst (write show level v)) <= n)%nat -> value read n (fst (write show level v) ++ r) = Some (v, r).

Lemma emit_text t (k : written) : fst (emit t k) = t ++ fst k.
Proof. reflexivity. Qed.
Lemma then_text (a k : written) : snd a = None -> fst (then_ a k) = fst a ++ fst k /\ snd (then_ a k) = snd k.
Proof. intros E. unfold then_. now rewrite E. Qed.

Lemma items_end level l : snd (write_items level l) = None -> forall r, ends_number (fst (write_items level l) ++ r) /\
  (l = [] -> skip (fst (write_items level l) ++ r) = 93 :: r).
Proof.
  intros _ r. split.
  - destruct l as [|x l]; cbn; repeat split; discriminate.
  - intros ->. cbn [write_items fst]. rewrite <- app_assoc, skip_newline. reflexivity.
Qed.

Lemma items_written level l : Forall reads l -> snd (write_items level l) = None /\
  forall x, reads x -> forall m n r, (List.length (fst (write show (S level) x) ++ fst (write_items level l)) <= m)%nat ->
    (List.length (fst (write show (S level) x) ++ fst (write_items level l)) <= n)%nat ->
    items m (value read n) (fst (write show (S level) x) ++ fst (write_items level l) ++ r) = Some (x :: l, r).
Proof.
  induction l as [|y l IH]; intros R.
  - split; [reflexivity|]. intros x RX m n r LM LN. destruct (RX (S level)) as ((c & u & E & _) & _ & V). destruct m as [|m]; [rewrite E in LM; cbn in LM; lia|]. cbn [items]. rewrite app_length in LN.
    rewrite V by (try lia; apply (items_end level [] eq_refl r)). now rewrite (proj2 (items_end level [] eq_refl r) eq_refl).
  - inversion R as [|? ? RY RL]; subst. destruct (IH RL) as [SL IL]. clear IH. destruct (RY (S level)) as ((c' & u' & E' & W' & _) & SY & VY).
    destruct (then_text (write show (S level) y) (write_items level l) SY) as [T1 T2].
    split; [cbn [write_items]; unfold emit; cbn [snd]; now rewrite T2|].
    intros x RX m n r LM LN. destruct (RX (S level)) as ((c & u & E & _) & SX & VX).
    assert (W : fst (write_items level (y :: l)) = 44 :: newline (S level) ++ fst (write show (S level) y) ++ fst (write_items level l)).
    { cbn [write_items]. rewrite emit_text, T1. reflexivity. }
    rewrite W in *. rewrite app_length in LM, LN. rewrite E in LM at 1. cbn [List.length] in LM, LN. rewrite app_length in LM, LN.
    destruct m as [|m]; [lia|]. cbn [items]. rewrite VX; [|cbn; repeat split; discriminate|lia]. cbn [app].
    rewrite skip_solid by reflexivity. change (44 =? 93) with false. change (44 =? 44) with true. cbv iota.
    rewrite <- app_assoc, skip_newline, <- app_assoc.
    rewrite E' at 1. cbn [app]. rewrite (skip_solid c') by exact W'. 
    assert (Q := IL y RY m n r ltac:(lia) ltac:(lia)). rewrite E' in Q. cbn [app] in Q. now rewrite Q.
Qed.

Lemma entries_end level l r : ends_number (fst (write_entries level l) ++ r) /\ (l = [] -> skip (fst (write_entries level l) ++ r) = 125 :: r).
Proof.
  split.
  - destruct l as [|[k x] l]; cbn; repeat split; discriminate.
  - intros ->. cbn [write_entries fst]. rewrite <- app_assoc, skip_newline. reflexivity.
Qed.

Lemma entries_written level l : Forall (fun e => reads (snd e)) l -> Forall (fun e : list Z * json => proper_string (fst e)) l ->
  snd (write_entries level l) = None /\
  forall k x, proper_string k -> reads x -> forall m n r, (List.length (fst (write show (S level) x) ++ fst (write_entries level l)) <= m)%nat ->
    (List.length (fst (write show (S level) x) ++ fst (write_entries level l)) <= n)%nat ->
    entries m (value read n) (write_string k ++ [58; 32] ++ fst (write show (S level) x) ++ fst (write_entries level l) ++ r) = Some ((k, x) :: l, r).
Proof.
  assert (ST : forall m n k x t r, proper_string k -> reads x ->
    entries (S m) (value read n) (write_string k ++ [58; 32] ++ fst (write show (S level) x) ++ t ++ r) =
    match value read n (fst (write show (S level) x) ++ t ++ r) with
    | None => None
    | Some (v, l) =>
        match skip l with
        | c :: l =>
            if c =? 125 then Some ([(k, v)], l)
            else if c =? 44 then match entries m (value read n) (skip l) with Some (m, r) => Some ((k, v) :: m, r) | None => None end
            else None
        | [] => None
        end
    end).
  { intros m n k x t r PK CX. unfold write_string. cbn [app entries]. change (34 =? 34) with true. cbv iota. rewrite <- app_assoc. cbn [app].
    rewrite (read_string k _ PK _ eq_refl). rewrite (skip_solid 58) by reflexivity. change (58 =? 58) with true. cbv iota. rewrite skip_space.
    destruct (CX (S level)) as ((c & u & E & W & _) & _). rewrite E at 1. cbn [app]. rewrite (skip_solid c) by exact W. rewrite E. reflexivity. }
  induction l as [|[k' y] l IH]; intros R P.
  - split; [reflexivity|]. intros k x PK RX m n r LM LN. destruct (RX (S level)) as ((c & u & E & _) & _ & V). destruct m as [|m]; [rewrite E in LM; cbn in LM; lia|]. rewrite (ST m n k x _ r PK RX). rewrite app_length in LN.
    rewrite V by (try lia; apply (entries_end level [] r)). now rewrite (proj2 (entries_end level [] r) eq_refl).
  - inversion R as [|? ? RY RL]; subst. inversion P as [|? ? PY PL]; subst. cbn [fst snd] in *.
    destruct (IH RL PL) as [SL IL]. clear IH. destruct (RY (S level)) as (_ & SY & VY).
    destruct (then_text (write show (S level) y) (write_entries level l) SY) as [T1 T2].
    split; [cbn [write_entries]; unfold emit; cbn [snd]; now rewrite T2|].
    intros k x PK RX m n r LM LN. destruct (RX (S level)) as ((c & u & E & _) & SX & VX).
    assert (W : fst (write_entries level ((k', y) :: l)) = 44 :: newline (S level) ++ write_string k' ++ [58; 32] ++ fst (write show (S level) y) ++ fst (write_entries level l)).
    { cbn [write_entries]. rewrite emit_text, T1. cbn [app]. rewrite <- !app_assoc. reflexivity. }
    rewrite W in *. rewrite app_length in LM, LN. rewrite E in LM at 1. cbn [List.length] in LM, LN. rewrite !app_length in LM, LN. cbn [List.length] in LM, LN.
    destruct m as [|m]; [lia|]. rewrite (ST m n k x _ r PK RX). rewrite VX; [|cbn; repeat split; discriminate|lia]. cbn [app].
    rewrite skip_solid by reflexivity. change (44 =? 125) with false. change (44 =? 44) with true. cbv iota.
    rewrite <- !app_assoc, skip_newline. 
    assert (Q := IL k' y PY RY m n r ltac:(rewrite app_length; lia) ltac:(rewrite app_length; lia)). unfold write_string in Q |- *. cbn [app] in Q |- *.
    rewrite (skip_solid 34) by reflexivity. rewrite <- !app_assoc in *. cbn [app] in *. now rewrite Q.
Qed.

Theorem value_written v : proper_json D v -> complete v -> reads v.
Proof.
  induction v as [|b|z|x|s|l IH|l IH|] using json_deep; intros P C level; try contradiction; (split; [now apply write_solid|]).
  - split; [reflexivity|]. intros [|n] r _ L; [cbn in L; lia|]. reflexivity.
  - split; [reflexivity|]. intros [|n] r _ L; [destruct b; cbn in L; lia|]. destruct b; reflexivity.
  - split; [reflexivity|]. cbn [write fst]. intros n r E L. destruct (int_numeric z) as (c & u & Q & H). destruct n; [rewrite Q in L; cbn in L; lia|].
    apply value_numeric; [apply numeric_app, int_numeric|]. now apply scan_int.
  - split; [reflexivity|]. cbn [write fst]. intros n r E L. destruct x as [x| | | ]; try (destruct n; [cbn in L; lia|reflexivity]). cbn [write_float] in *.
    destruct (show_numeric x P) as (c & u & Q & H). destruct n; [rewrite Q in L; cbn in L; lia|].
    apply value_numeric; [now apply numeric_app, show_numeric|]. destruct (F x P) as [DN R]. now apply scan_float.
  - split; [reflexivity|]. cbn [write fst]. intros n r E L. destruct n; [cbn in L; lia|]. now apply value_string.
  - apply proper_list in P. apply complete_list in C. assert (RL : Forall reads l). { rewrite Forall_forall in *. intros x I. apply IH; auto. } clear IH.
    destruct l as [|x l]; [split; [reflexivity|]; intros [|n] r _ L; [cbn in L; lia|reflexivity]|].
    inversion C as [|? ? CX CL]; subst. inversion RL as [|? ? RX RR]; subst. destruct (items_written level l RR) as [SI I]. destruct (RX (S level)) as ((c & u & Q & W & N1 & _) & SX & _).
    destruct (then_text (write show (S level) x) (write_items level l) SX) as [T1 T2]. rewrite write_list. split; [unfold emit; cbn [snd]; now rewrite T2|].
    intros n r E L. rewrite emit_text, T1 in *. cbn [app List.length] in L |- *. rewrite app_length in L. destruct n as [|n]; [lia|]. cbn [value].
    change (91 =? 34) with false. change (91 =? 123) with false. change (91 =? 91) with true. cbv iota. rewrite <- !app_assoc, skip_newline.
    specialize (I x RX n n r ltac:(lia) ltac:(lia)). rewrite Q in I |- *. cbn [app] in I |- *. rewrite skip_solid by exact W.
    replace (c =? 93) with false by lia. now rewrite I.
  - apply proper_dict in P. destruct P as [ND P]. apply complete_dict in C. assert (RL : Forall (fun e => reads (snd e)) l). { rewrite Forall_forall in *. intros x I. apply IH; auto. now apply P. } clear IH.
    assert (PS : Forall (fun e : list Z * json => proper_string (fst e)) l) by (rewrite Forall_forall in *; intros e I; now apply P). clear P.
    destruct l as [|[k x] l]; [split; [reflexivity|]; intros [|n] r _ L; [cbn in L; lia|reflexivity]|].
    inversion C as [|? ? CX CL]; subst. inversion RL as [|? ? RX RR]; subst. inversion PS as [|? ? PK PR]; subst. cbn [fst snd] in *.
    destruct (entries_written level l RR PR) as [SI I]. destruct (RX (S level)) as (_ & SX & _).
    destruct (then_text (write show (S level) x) (write_entries level l) SX) as [T1 T2]. rewrite write_dict. split; [unfold emit; cbn [snd]; now rewrite T2|].
    intros n r E L. rewrite emit_text, T1 in *. cbn [app List.length] in L |- *. rewrite !app_length in L. destruct n as [|n]; [lia|]. cbn [value].
    change (123 =? 34) with false. change (123 =? 123) with true. cbv iota. rewrite <- !app_assoc, skip_newline.
    specialize (I k x PK RX n n r ltac:(rewrite app_length; lia) ltac:(rewrite app_length; lia)). unfold write_string in I |- *. cbn [app] in I |- *.
    rewrite skip_solid by reflexivity. change (34 =? 125) with false. cbv iota. rewrite <- !app_assoc in *. cbn [app] in *. rewrite I. now rewrite dictionary_distinct.
Qed.

Theorem load_dump v : proper_json D v -> complete v -> snd (dump show v) = None /\ load read (fst (dump show v)) = Ok v.
Proof.
  intros P C. destruct (value_written v P C O) as ((c & u & E & W & _) & S & V). split; [exact S|]. unfold load, dump.
  rewrite E at 2. rewrite skip_solid by exact W. rewrite <- E. rewrite <- (app_nil_r (fst (write show O v))) at 2. rewrite V; [reflexivity|exact I|lia].
Qed.

(** ** The characters *)

Ltac pr := first [left; reflexivity | right; split; discriminate].

Lemma codes_range : forall z, Forall printable (codes (py_str z)).
Proof.
  intros z. assert (DG : forall l, Forall ascii_digit l -> Forall printable l) by (intros l; apply Forall_impl; unfold ascii_digit, printable; lia).
  destruct (Z.lt_ge_cases z 0).
  - rewrite py_str_neg by auto. cbn [codes]. constructor; [pr|]. apply DG. apply text_ok. lia.
  - rewrite py_str_nonneg by auto. apply DG. apply text_ok. lia.
Qed.
Lemma notation_range t : decimal_notation t -> Forall printable t.
Proof.
  assert (DG : forall l, decimal l -> Forall printable l) by (intros l [_ H]; revert H; apply Forall_impl; unfold printable; lia).
  intros (s & i & f & e & -> & S & (I & _) & FF & E & _). rewrite !Forall_app. repeat split.
  - destruct S as [-> | ->]; repeat (apply Forall_cons; [pr|]); apply Forall_nil.
  - auto.
  - destruct FF as [-> |(d & -> & H)]; [constructor|]. apply Forall_app. split; [(repeat (apply Forall_cons; [pr|]); apply Forall_nil)|auto].
  - destruct E as [-> |(sg & d & -> & SG & H)]; [constructor|]. apply Forall_app. split; [(repeat (apply Forall_cons; [pr|]); apply Forall_nil)|]. apply Forall_app. split; [|auto].
    destruct SG as [-> |[-> | ->]]; repeat (apply Forall_cons; [pr|]); apply Forall_nil.
Qed.
Lemma hex_range n : 0 <= n < 65536 -> Forall printable (hex4 n).
Proof.
  intros N. assert (H : forall d, 0 <= d < 16 -> printable (hex_digit d)) by (intros d DR; unfold printable, hex_digit; destruct (Z.ltb_spec d 10); lia).
  assert (0 <= n / 4096 < 16) by (split; [apply Z.div_pos; lia|apply Z.div_lt_upper_bound; lia]).
  unfold hex4. constructor; [now apply H|]. do 3 (constructor; [apply H, Z.mod_pos_bound; lia|]). constructor.
Qed.
Lemma string_range s : proper_string s -> Forall printable (write_string s).
Proof.
  intros [R _]. unfold write_string. constructor; [pr|]. apply Forall_app. split; [|repeat (apply Forall_cons; [pr|]); apply Forall_nil].
  induction s as [|c s IH]; [constructor|]. cbn [flat_map]. apply Forall_app. split; [|apply IH; intros d DR; apply R; now right].
  assert (C := R c (or_introl eq_refl)). destruct (escape_cases c C) as [(e & -> & _ & E)|[(E & L)|[(-> & L)|(_ & u & v & -> & U & V & _)]]].
  - constructor; [pr|]. constructor; [|constructor]. unfold simple_escape in E. unfold printable.
    repeat match type of E with (if ?a =? ?b then _ else _) = _ => destruct (Z.eqb_spec a b); [lia|] end. discriminate.
  - rewrite E. constructor; [|constructor]. unfold printable. unfold escape in E. destruct (Z.le_gt_cases c 126); [lia|]. exfalso.
    replace (c =? 92) with false in E by lia. replace (c =? 34) with false in E by lia. replace (c =? 8) with false in E by lia. replace (c =? 12) with false in E by lia.
    replace (c =? 10) with false in E by lia. replace (c =? 13) with false in E by lia. replace (c =? 9) with false in E by lia. replace ((32 <=? c) && (c <=? 126)) with false in E by lia.
    destruct (c <? 65536); discriminate.
  - constructor; [pr|]. constructor; [pr|]. apply hex_range. lia.
  - apply Forall_app. split; (constructor; [pr|]); (constructor; [pr|]); apply hex_range; lia.
Qed.
Lemma newline_range k : Forall printable (newline k).
Proof. unfold newline. constructor; [now left|]. apply Forall_forall. intros c I. apply repeat_spec in I. subst. pr. Qed.

Lemma then_range (a k : written) : Forall printable (fst a) -> Forall printable (fst k) -> Forall printable (fst (then_ a k)).
Proof. intros A K. unfold then_. destruct (snd a); [exact A|]. apply Forall_app. auto. Qed.

Theorem write_range v : proper_json D v -> forall level, Forall printable (fst (write show level v)).
Proof.
  induction v as [|b|z|x|s|l IH|l IH|] using json_deep; intros P level.
  - repeat (apply Forall_cons; [pr|]); apply Forall_nil.
  - destruct b; repeat (apply Forall_cons; [pr|]); apply Forall_nil.
  - apply codes_range.
  - destruct x as [x| | | ]; [apply notation_range, (F x P)|repeat (apply Forall_cons; [pr|]); apply Forall_nil..].
  - now apply string_range.
  - apply proper_list in P. assert (R : Forall (fun x => forall level, Forall printable (fst (write show level x))) l) by (rewrite Forall_forall in *; auto). clear IH P.
    destruct l as [|x l]; [(repeat (apply Forall_cons; [pr|]); apply Forall_nil)|]. inversion R as [|? ? RX RL]; subst. rewrite write_list, emit_text. apply Forall_app. split.
    + constructor; [pr|]. apply newline_range.
    + apply then_range; [apply RX|]. clear RX R. induction RL as [|y l RY RL IH]; cbn [write_items].
      * apply Forall_app. split; [apply newline_range|repeat (apply Forall_cons; [pr|]); apply Forall_nil].
      * rewrite emit_text. apply Forall_app. split; [constructor; [pr|apply newline_range]|]. apply then_range; [apply RY|exact IH].
  - apply proper_dict in P. destruct P as [_ P].
    assert (R : Forall (fun e => proper_string (fst e) /\ forall level, Forall printable (fst (write show level (snd e)))) l).
    { rewrite Forall_forall in *. intros e I. split; [now apply P|]. apply IH; [auto|now apply P]. } clear IH P.
    assert (K : forall a k, printable a -> proper_string k -> Forall printable (a :: newline (S level) ++ write_string k ++ [58; 32])).
    { intros a k A PK. constructor; [auto|]. apply Forall_app. split; [apply newline_range|]. apply Forall_app. split; [now apply string_range|repeat (apply Forall_cons; [pr|]); apply Forall_nil]. }
    destruct l as [|[k x] l]; [(repeat (apply Forall_cons; [pr|]); apply Forall_nil)|]. inversion R as [|? ? [PK RX] RL]; subst. cbn [fst snd] in *. rewrite write_dict, emit_text. apply Forall_app. split.
    + apply K; [pr|exact PK].
    + apply then_range; [apply RX|]. clear RX R PK. induction RL as [|[k' y] l [PK RY] RL IH]; cbn [write_entries].
      * apply Forall_app. split; [apply newline_range|repeat (apply Forall_cons; [pr|]); apply Forall_nil].
      * cbn [fst snd] in *. rewrite emit_text. apply Forall_app. split; [apply K; [pr|exact PK]|]. apply then_range; [apply RY|exact IH].
  - constructor.
Qed.

End Values.
