(** What the evaluation of the representations of terms, filters and bands filters yields. *)

From Coq Require Import String ZArith List Bool Lia.
From Verif.Model Require Import Py Numpy Terms Filter Bands Repr.
From Verif.Spec Require Import TermsSpec FilterSpec BandsSpec ReprSpec.
From Verif.Proofs Require Import PyFacts TermFacts FilterOperators DictionaryFacts ReprParse.
Import ListNotations.
Open Scope list_scope.
Open Scope Z_scope.

Section Facts.
Context {K X : Type}.
Variable A : arithmetic K X.
Variable finite : K -> bool.
Variable finite_frequency : X -> bool.
Variable is_array : list K -> bool.
Variable default_rate : K.
Variables default_resolution default_spectrogram_rate : X.
Notation eval := (eval A default_rate default_resolution default_spectrogram_rate).
Notation eval_text := (eval_text A default_rate default_resolution default_spectrogram_rate).
Notation apply := (apply A default_rate default_resolution default_spectrogram_rate).
Notation token := (token (K:=K) (X:=X)).
Notation value := (Repr.value (K:=K) (X:=X)).
Notation number := (Repr.number finite).
Notation frequency := (Repr.frequency finite_frequency).
Notation repr_term := (repr_term finite finite_frequency is_array).

Section Names.
Variable names : list string.

(** The text is an expression, whose evaluation yields [r]. *)
Definition denotes (l : list token) (r : result value) : Prop := exists e, parses l e /\ eval names e = r.
Definition denotes_all (ls : list (list token)) (vs : list value) : Prop := Forall2 (fun l v => denotes l (Ok v)) ls vs.

Lemma denotes_text l r : denotes l r -> eval_text names l = r.
Proof. intros (e & P & E). now rewrite (parses_text _ _ _ _ _ _ e P). Qed.

Lemma denotes_number x : finite x = true -> denotes (number x) (Ok (VNum x)).
Proof. intros F. exists (ENum x). split; [|reflexivity]. unfold Repr.number. rewrite F. apply parses_num. Qed.
Lemma denotes_frequency x : finite_frequency x = true -> denotes (frequency x) (Ok (VFreq x)).
Proof. intros F. exists (EFreq x). split; [|reflexivity]. unfold Repr.frequency. rewrite F. apply parses_freq. Qed.
Lemma denotes_int z : denotes [Int z] (Ok (VInt z)). Proof. exists (EInt z). split; [apply parses_int|reflexivity]. Qed.
Lemma denotes_str s : denotes [Str s] (Ok (VStr s)). Proof. exists (EStr s). split; [apply parses_str|reflexivity]. Qed.
Lemma denotes_boolean b : denotes (boolean b) (Ok (VBool b)).
Proof. exists (EName (if b then "True" else "False")). split; [apply parses_name|now destruct b]. Qed.

Lemma denotes_each ls vs : denotes_all ls vs -> exists es, Forall2 parses ls es /\ sequence (map (eval names) es) = Ok vs.
Proof.
  induction 1 as [|l v ls vs (e & P & E) _ (es & Ps & Es)]; [exists []; repeat constructor|].
  exists (e :: es). split; [constructor; auto|]. cbn [map sequence]. rewrite E. cbn [bind]. now rewrite Es.
Qed.

Lemma denotes_list ls vs : denotes_all ls vs -> denotes (repr_list ls) (Ok (VList vs)).
Proof. intros H. destruct (denotes_each _ _ H) as (es & P & E). exists (EList es). split; [now apply parses_list|]. cbn. now rewrite E. Qed.
Lemma denotes_tuple ls vs : denotes_all ls vs -> denotes (repr_tuple ls) (Ok (VTuple vs)).
Proof. intros H. destruct (denotes_each _ _ H) as (es & P & E). exists (ETuple es). split; [now apply parses_tuple|]. cbn. now rewrite E. Qed.

Lemma denotes_map {Y} (f : Y -> list token) (g : Y -> value) l : (forall y, In y l -> denotes (f y) (Ok (g y))) -> denotes_all (map f l) (map g l).
Proof. induction l as [|y l IH]; intros H; constructor; [apply H; now left|apply IH; intros; apply H; now right]. Qed.

Lemma denotes_labels labels : denotes (repr_labels labels) (Ok (VTuple (map VStr labels))).
Proof. apply denotes_tuple, denotes_map. intros. apply denotes_str. Qed.

Lemma denotes_dict ps (vs : list (value * value)) : Forall2 (fun p v => denotes (fst p) (Ok (fst v)) /\ denotes (snd p) (Ok (snd v))) ps vs ->
  denotes (repr_dict ps) (Ok (VDict vs)).
Proof.
  intros H. assert (G : exists qs, Forall2 parses_entry ps qs /\
    sequence (map (fun p : expression * expression => let '(k, v) := p in k <- eval names k ;; v <- eval names v ;; Ok (k, v)) qs) = Ok vs).
  { induction H as [|p [v w] ps vs [(e & P & E) (e' & P' & E')] _ (qs & Ps & Es)]; [exists []; repeat constructor|].
    exists ((e, e') :: qs). split; [constructor; [split|]; auto|]. cbn [map sequence]. rewrite E, E'. cbn [bind fst snd]. now rewrite Es. }
  destruct G as (qs & P & E). exists (EDict qs). split; [now apply parses_dict|]. cbn [Repr.eval]. now rewrite E.
Qed.

(** ** Calls *)

Definition denotes_arguments (ps : list (string * list token)) (vs : list (string * value)) : Prop :=
  Forall2 (fun p v => fst v = fst p /\ denotes (snd p) (Ok (snd v))) ps vs.

Lemma denotes_arguments_each ps vs : denotes_arguments ps vs -> exists qs, Forall2 parses_argument ps qs /\
  sequence (map (fun p : option string * expression => let '(n, e) := p in v <- eval names e ;; Ok (n, v)) qs) = Ok (map (fun v => (Some (fst v), snd v)) vs).
Proof.
  induction 1 as [|[n l] [n' v] ps vs [En (e & P & E)] _ (qs & Ps & Es)]; [exists []; repeat constructor|].
  cbn [fst snd] in *. subst n'. exists ((Some n, e) :: qs). split; [constructor; [split|]; auto|]. cbn [map sequence]. rewrite E. cbn [bind fst snd]. now rewrite Es.
Qed.

Lemma existsb_in s (l : list string) : In s l -> existsb (String.eqb s) l = true.
Proof. intros I. apply existsb_exists. exists s. split; auto. apply String.eqb_refl. Qed.

Lemma lookup_known s : In s names -> String.eqb s "True" = false -> String.eqb s "False" = false ->
  lookup_name names s = Ok (if existsb (String.eqb s) ["array"; "float64"; "complex128"]%string then VFunction s else VClass s : value).
Proof. intros I T F. unfold lookup_name. now rewrite T, F, existsb_in. Qed.

Lemma denotes_array ls vs : In "array"%string names -> denotes_all ls vs -> denotes (repr_array (repr_list ls)) (new_array (VList vs)).
Proof.
  intros I H. destruct (denotes_each _ _ H) as (es & P & E). exists (ECall (EName "array") [(None, EList es)]). split; [now apply parses_array|].
  cbn [Repr.eval map sequence]. rewrite E, lookup_known by auto. reflexivity.
Qed.

Lemma denotes_factory cls ps vs : In "Filter"%string names -> In cls factories -> denotes_arguments ps vs ->
  denotes (factory cls (map named ps)) (apply (VFactory cls) (map (fun v => (Some (fst v), snd v)) vs)).
Proof.
  intros I J H. destruct (denotes_arguments_each _ _ H) as (qs & P & E). eexists. split; [apply parses_factory; exact P|].
  cbn [Repr.eval]. rewrite E, lookup_known by auto.
  repeat (destruct J as [<- | J]; [reflexivity|]). destruct J.
Qed.

Lemma keywords_ok (vs : list (string * value)) : keywords (map (fun v => (Some (fst v), snd v)) vs) = Ok vs.
Proof.
  unfold keywords. induction vs as [|[n v] vs IH]; [reflexivity|]. cbn [map sequence fst snd bind]. now rewrite IH.
Qed.

Lemma denotes_class cls ps vs : In cls names -> existsb (String.eqb cls) ["True"; "False"; "array"; "float64"; "complex128"]%string = false -> denotes_arguments ps vs ->
  denotes (repr_call [Name cls] (map named ps)) (apply (VClass cls) (map (fun v => (Some (fst v), snd v)) vs)).
Proof.
  intros I J H. destruct (denotes_arguments_each _ _ H) as (qs & P & E). eexists. split; [apply parses_call; exact P|].
  cbn [Repr.eval]. rewrite E. cbn [existsb] in J. rewrite !orb_false_iff in J. destruct J as (T & F & J). rewrite lookup_known by auto.
  cbn [existsb]. destruct J as (-> & -> & -> & _). reflexivity.
Qed.

Lemma unknown_class cls ps (qs : list (option string * expression)) : ~ In cls names -> cls <> "True"%string -> cls <> "False"%string -> Forall2 parses_argument ps qs ->
  denotes (repr_call [Name cls] (map named ps)) (Err NameError).
Proof.
  intros N T F P. eexists. split; [apply parses_call; exact P|]. cbn [Repr.eval]. unfold lookup_name. apply String.eqb_neq in T, F. rewrite T, F.
  destruct (existsb (String.eqb cls) names) eqn:E; [|reflexivity]. apply existsb_exists in E as (s & I & S). apply String.eqb_eq in S. subst. contradiction.
Qed.

End Names.
End Facts.
