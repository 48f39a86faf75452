(** Representations are parsed to the expressions, that they stand for. *)

From Coq Require Import String ZArith List Bool Lia.
From Verif.Model Require Import Py Numpy Terms Filter Repr.
From Verif.Proofs Require Import PyFacts.
Import ListNotations.
Open Scope list_scope.

Section Parse.
Context {K X : Type}.
Notation token := (token (K:=K) (X:=X)).
Notation expression := (expression (K:=K) (X:=X)).

(** ** The steps of the parser *)
Lemma parse_name n s (l : list token) : parse (S n) (Name s :: l) = parse_trailers n (EName s) l. Proof. reflexivity. Qed.
Lemma parse_round n (l : list token) : parse (S n) (Open Round :: l) =
  match parse_items n Round l with
  | Some ([e], false, l) => parse_trailers n e l
  | Some (es, _, l) => parse_trailers n (ETuple es) l
  | None => None
  end.
Proof. reflexivity. Qed.
Lemma parse_square n (l : list token) : parse (S n) (Open Square :: l) =
  match parse_items n Square l with Some (es, _, l) => parse_trailers n (EList es) l | None => None end.
Proof. reflexivity. Qed.
Lemma parse_curly n (l : list token) : parse (S n) (Open Curly :: l) =
  match parse_entries n l with Some (es, l) => parse_trailers n (EDict es) l | None => None end.
Proof. reflexivity. Qed.
Lemma trailers_dot n e s (l : list token) : parse_trailers (S n) e (Dot :: Name s :: l) = parse_trailers n (EAttribute e s) l. Proof. reflexivity. Qed.
Lemma trailers_call n e (l : list token) : parse_trailers (S n) e (Open Round :: l) =
  match parse_arguments n l with Some (a, l) => parse_trailers n (ECall e a) l | None => None end.
Proof. reflexivity. Qed.
Lemma items_close n b (l : list token) : parse_items (S n) b (Close b :: l) = Some ([], false, l). Proof. now destruct b. Qed.
Lemma arguments_keyword n s (l : list token) : parse_arguments (S n) (Name s :: Equal :: l) =
  match parse n l with
  | Some (e, Comma :: l) => match parse_arguments n l with Some (es, l) => Some ((Some s, e) :: es, l) | None => None end
  | Some (e, Close Round :: l) => Some ([(Some s, e)], l)
  | _ => None
  end.
Proof. reflexivity. Qed.

(** What follows is not a part of the expression. *)
Definition calm (rest : list token) : Prop := match rest with Dot :: _ | Open Round :: _ => False | _ => True end.

Definition parses (l : list token) (e : expression) : Prop :=
  forall n rest, (2 * List.length l <= n)%nat -> calm rest -> parse n (l ++ rest) = Some (e, rest).

Lemma trailers_end n e rest : (1 <= n)%nat -> calm rest -> parse_trailers n e rest = Some (e, rest).
Proof. intros N C. destruct n as [|n]; [lia|]. destruct rest as [|[| | | | |[]| | | | |] rest]; try reflexivity; destruct C. Qed.

Ltac atom := intros n rest N C; destruct n as [|n]; [cbn in N; lia|]; apply (trailers_end n); [cbn in N; lia|auto].

Lemma parses_name s : parses [Name s] (EName s). Proof. atom. Qed.
Lemma parses_str s : parses [Str s] (EStr s). Proof. atom. Qed.
Lemma parses_int z : parses [Int z] (EInt z). Proof. atom. Qed.
Lemma parses_num x : parses [Num x] (ENum x). Proof. atom. Qed.
Lemma parses_freq x : parses [Freq x] (EFreq x). Proof. atom. Qed.

Definition not_close (l : list token) : Prop := match l with Close _ :: _ => False | _ => True end.

Lemma parses_start l e : parses l e -> exists t l', l = t :: l' /\ not_close l.
Proof.
  intros P. destruct l as [|t l].
  - specialize (P 0%nat [] (le_n _) I). discriminate.
  - exists t, l. split; [reflexivity|]. destruct t; try exact I. specialize (P (2 * List.length (Close b :: l))%nat [] (le_n _) I). discriminate.
Qed.

Lemma items_step n b (l : list token) : not_close l -> parse_items (S n) b l =
  match parse n l with
  | Some (e, Comma :: l) => match parse_items n b l with Some (es, _, l) => Some (e :: es, true, l) | None => None end
  | Some (e, Close b' :: l) => if same_bracket b b' then Some ([e], false, l) else None
  | _ => None
  end.
Proof. intros H. destruct l as [|[] l]; try reflexivity. destruct H. Qed.

Lemma same_bracket_refl b : same_bracket b b = true. Proof. now destruct b. Qed.

Lemma not_close_app l r : not_close l -> l <> [] -> not_close (l ++ r).
Proof. destruct l as [|t l]; [congruence|]. now destruct t. Qed.

Definition several {Y} (l : list Y) : bool := match l with _ :: _ :: _ => true | _ => false end.

Lemma items_ok b (ls : list (list token)) es : Forall2 parses ls es -> forall n rest, (2 * List.length (separated ls) + 2 <= n)%nat ->
  parse_items n b (separated ls ++ Close b :: rest) = Some (es, several ls, rest).
Proof.
  induction 1 as [|x e ls es P Q IH]; intros n rest N.
  - destruct n as [|n]; [lia|]. apply items_close.
  - destruct (parses_start _ _ P) as (t & x' & -> & NC). set (x := t :: x') in *. assert (1 <= List.length x)%nat by (cbn; lia). assert (NE : x <> []) by discriminate.
    destruct ls as [|y ls].
    + inversion Q; subst. cbn [separated] in *. destruct n as [|n]; [lia|]. rewrite items_step by now apply not_close_app.
      rewrite P by (exact I || lia). now rewrite same_bracket_refl.
    + change (separated (x :: y :: ls)) with (x ++ Comma :: separated (y :: ls)) in *. rewrite app_length in N. cbn [List.length] in N.
      destruct n as [|n]; [lia|]. rewrite <- app_assoc. cbn [app]. rewrite items_step by now apply not_close_app.
      rewrite P by (exact I || lia). rewrite IH by lia. reflexivity.
Qed.

Lemma parses_list ls es : Forall2 parses ls es -> parses (repr_list ls) (EList es).
Proof.
  intros H n rest N C. unfold repr_list in *. cbn [List.length] in N. rewrite app_length in N. cbn [List.length] in N.
  destruct n as [|n]; [lia|]. cbn [app]. rewrite parse_square, <- app_assoc. cbn [app]. rewrite (items_ok Square ls es H) by lia. apply trailers_end; [lia|auto].
Qed.

Lemma parses_tuple ls es : Forall2 parses ls es -> parses (repr_tuple ls) (ETuple es).
Proof.
  intros H n rest N C. unfold repr_tuple in *. destruct H as [|x e ls es P Q].
  - cbn in N. destruct n as [|[|n]]; try lia. cbn [app separated]. rewrite parse_round, items_close. apply trailers_end; [lia|auto].
  - destruct Q as [|y e' ls es P' Q].
    + cbn [List.length] in N. rewrite app_length in N. cbn [List.length] in N. destruct n as [|[|n]]; try lia. cbn [app]. rewrite parse_round, <- app_assoc. cbn [app].
      destruct (parses_start _ _ P) as (t & x' & -> & NC). set (x := t :: x') in *. assert (1 <= List.length x)%nat by (cbn; lia). assert (NE : x <> []) by discriminate.
      rewrite items_step by now apply not_close_app. rewrite P by (exact I || lia). destruct n as [|n]; [lia|]. rewrite items_close. apply trailers_end; [lia|auto].
    + set (ls' := x :: y :: ls) in *. cbn [List.length] in N. rewrite app_length in N. cbn [List.length] in N. destruct n as [|n]; [lia|]. cbn [app]. rewrite parse_round, <- app_assoc. cbn [app].
      rewrite (items_ok Round ls' (e :: e' :: es)) by (lia || (repeat constructor; auto)). cbn [several ls']. apply trailers_end; [lia|auto].
Qed.

(** ** Calls *)

Definition named (p : string * list token) : list token := keyword (fst p) (snd p).
Definition parses_argument (p : string * list token) (q : option string * expression) : Prop := fst q = Some (fst p) /\ parses (snd p) (snd q).

Lemma arguments_ok ps qs : Forall2 parses_argument ps qs -> forall n rest, (2 * List.length (separated (map named ps)) + 2 <= n)%nat ->
  parse_arguments n (separated (map named ps) ++ Close Round :: rest) = Some (qs, rest).
Proof.
  induction 1 as [|[name x] [name' e] ps qs [E P] Q IH]; intros n rest N.
  - destruct n as [|n]; [lia|]. reflexivity.
  - cbn [fst snd] in E, P. subst name'. destruct (parses_start _ _ P) as (t & x' & -> & NC). set (x := t :: x') in *.
    destruct ps as [|p ps].
    + inversion Q; subst. change (separated (map named [(name, x)])) with (Name name :: Equal :: x) in *. cbn [List.length] in N. destruct n as [|n]; [lia|]. cbn [app]. rewrite arguments_keyword.
      rewrite P by (exact I || lia). reflexivity.
    + change (separated (map named ((name, x) :: p :: ps))) with (Name name :: Equal :: x ++ Comma :: separated (map named (p :: ps))) in *.
      cbn [List.length] in N. rewrite app_length in N. cbn [List.length] in N. destruct n as [|n]; [lia|]. cbn [app]. rewrite arguments_keyword, <- app_assoc. cbn [app].
      rewrite P by (exact I || lia). rewrite IH by lia. reflexivity.
Qed.

Lemma parses_call f ps qs : Forall2 parses_argument ps qs -> parses (repr_call [Name f] (map named ps)) (ECall (EName f) qs).
Proof.
  intros H n rest N C. unfold repr_call in *. cbn [app List.length] in N. rewrite app_length in N. cbn [List.length] in N.
  destruct n as [|[|n]]; try lia. cbn [app]. rewrite parse_name, trailers_call, <- app_assoc. cbn [app]. rewrite (arguments_ok ps qs H) by lia. apply trailers_end; [lia|auto].
Qed.

Lemma parses_factory cls ps qs : Forall2 parses_argument ps qs -> parses (factory cls (map named ps)) (ECall (EAttribute (EName "Filter") cls) qs).
Proof.
  intros H n rest N C. unfold factory, repr_call in *. cbn [app List.length] in N. rewrite app_length in N. cbn [List.length] in N.
  destruct n as [|[|[|n]]]; try lia. cbn [app]. rewrite parse_name, trailers_dot, trailers_call, <- app_assoc. cbn [app]. rewrite (arguments_ok ps qs H) by lia. apply trailers_end; [lia|auto].
Qed.

Lemma parses_array ls es : Forall2 parses ls es -> parses (repr_array (repr_list ls)) (ECall (EName "array") [(None, EList es)]).
Proof.
  intros H n rest N C. pose proof (parses_list ls es H) as P. unfold repr_array in *. cbn [List.length] in N. rewrite app_length in N. cbn [List.length] in N.
  destruct n as [|[|[|n]]]; try lia. cbn [app]. rewrite parse_name, trailers_call, <- app_assoc. cbn [app].
  change (parse_arguments (S n) (repr_list ls ++ Close Round :: rest)) with
    (match parse n (repr_list ls ++ Close Round :: rest) with
     | Some (e, Comma :: l) => match parse_arguments n l with Some (es, l) => Some ((None, e) :: es, l) | None => None end
     | Some (e, Close Round :: l) => Some ([(None, e)], l)
     | _ => None
     end).
  rewrite P by (exact I || lia). apply trailers_end; [lia|auto].
Qed.

(** ** Dictionaries *)

Definition colon (p : list token * list token) : list token := fst p ++ Colon :: snd p.
Definition parses_entry (p : list token * list token) (q : expression * expression) : Prop := parses (fst p) (fst q) /\ parses (snd p) (snd q).

Lemma entries_step n (l : list token) : not_close l -> parse_entries (S n) l =
  match parse n l with
  | Some (k, Colon :: l) =>
      match parse n l with
      | Some (v, Comma :: l) => match parse_entries n l with Some (es, l) => Some ((k, v) :: es, l) | None => None end
      | Some (v, Close Curly :: l) => Some ([(k, v)], l)
      | _ => None
      end
  | _ => None
  end.
Proof. intros H. destruct l as [|[] l]; try reflexivity. destruct H. Qed.

Lemma entries_ok ps qs : Forall2 parses_entry ps qs -> forall n rest, (2 * List.length (separated (map colon ps)) + 2 <= n)%nat ->
  parse_entries n (separated (map colon ps) ++ Close Curly :: rest) = Some (qs, rest).
Proof.
  induction 1 as [|[k v] [ek ev] ps qs [Pk Pv] Q IH]; intros n rest N.
  - destruct n as [|n]; [lia|]. reflexivity.
  - cbn [fst snd] in Pk, Pv. destruct (parses_start _ _ Pk) as (t & k' & -> & NC). set (k := t :: k') in *. assert (1 <= List.length k)%nat by (cbn; lia). assert (NE : k <> []) by discriminate.
    destruct ps as [|p ps].
    + inversion Q; subst. change (separated (map colon [(k, v)])) with (k ++ Colon :: v) in *. rewrite app_length in N. cbn [List.length] in N. destruct n as [|n]; [lia|].
      rewrite <- app_assoc. cbn [app]. rewrite entries_step by now apply not_close_app. rewrite Pk by (exact I || lia). rewrite Pv by (exact I || lia). reflexivity.
    + change (separated (map colon ((k, v) :: p :: ps))) with ((k ++ Colon :: v) ++ Comma :: separated (map colon (p :: ps))) in *.
      rewrite !app_length in N. cbn [List.length] in N. destruct n as [|n]; [lia|]. rewrite <- !app_assoc. cbn [app]. rewrite <- ?app_assoc. cbn [app].
      rewrite entries_step by now apply not_close_app. rewrite Pk by (exact I || lia). rewrite Pv by (exact I || lia). rewrite IH by lia. reflexivity.
Qed.

Lemma parses_dict ps qs : Forall2 parses_entry ps qs -> parses (repr_dict ps) (EDict qs).
Proof.
  intros H n rest N C. unfold repr_dict in *. cbn [List.length] in N. rewrite app_length in N. cbn [List.length] in N.
  destruct n as [|n]; [lia|]. cbn [app]. rewrite parse_curly, <- app_assoc. cbn [app].
  change (map (fun p => fst p ++ Colon :: snd p) ps) with (map colon ps) in *.
  rewrite (entries_ok ps qs H) by lia. apply trailers_end; [lia|auto].
Qed.

Lemma parses_text A dr dres dsr names text e : parses text e -> eval_text A dr dres dsr names text = eval A dr dres dsr names e.
Proof.
  intros P. unfold eval_text. assert (H : parse (2 * List.length text + 1) (text ++ []) = Some (e, [])) by (apply P; [lia|exact I]).
  rewrite app_nil_r in H. now rewrite H.
Qed.

End Parse.
