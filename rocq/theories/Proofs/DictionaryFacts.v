(** Filters, that are converted to dictionaries and back. *)

From Coq Require Import String ZArith List Bool Lia.
From Verif.Model Require Import Py Functions Signal Terms Filter.
From Verif.Spec Require Import TermsSpec FilterSpec.
From Verif.Proofs Require Import PyFacts TermFacts TermOperators TermFuel FilterFacts FilterOperators.
Import ListNotations.
Open Scope Z_scope.

Section Dictionary.
Context {K X : Type}.
Variable A : arithmetic K X.
Notation O := (k_ops A).
Notation term := (term K X).
Notation filter := (filter K X).
Notation "0k" := (o_zero O).
Notation value := (value A).
Variable complex_array : list K -> bool.
Variables real imag : K -> K.
Variable unit : K.
Notation as_dict := (as_dict (X:=X) complex_array real imag).
Notation read := (term_from_dict A unit).

Definition item (w : @data K X) : result (@parameter K X) :=
  match w with
  | DDict n => if has_type n then t <- read w ;; Ok (PTerm t) else Ok (PData w)
  | _ => Ok (PData w)
  end.

Lemma as_dict_type t : exists m, as_dict t = DDict m /\ has_type m = true.
Proof. destruct t; eexists; (split; [reflexivity|reflexivity]). Qed.

Lemma item_dict t : item (as_dict t) = (u <- read (as_dict t) ;; Ok (PTerm u)).
Proof. destruct (as_dict_type t) as (m & -> & H). unfold item. now rewrite H. Qed.

Lemma items_ok l us : Forall2 (fun t u => read (as_dict t) = Ok u) l us -> sequence (map item (map as_dict l)) = Ok (map PTerm us).
Proof.
  induction 1 as [|t u l us H _ IH]; [reflexivity|]. cbn [map sequence]. rewrite item_dict, H. cbn [bind]. now rewrite IH.
Qed.

Lemma get_terms_ok us : sequence (map get_term (map PTerm us)) = Ok (us : list term).
Proof. induction us as [|u us IH]; [reflexivity|]. cbn [map sequence get_term bind]. now rewrite IH. Qed.

Lemma plain_items {Y} (mk : Y -> @data K X) (l : list Y) : (forall y, item (mk y) = Ok (PData (mk y))) ->
  sequence (map item (map mk l)) = Ok (map (fun y => PData (mk y)) l).
Proof. intros H. induction l as [|y l IH]; [reflexivity|]. cbn [map sequence]. rewrite H. cbn [bind]. now rewrite IH. Qed.

Lemma get_numbers_ok c : get_numbers (X:=X) (PList (map (fun y => PData (DNum y)) c)) = Ok (c : list K).
Proof. unfold get_numbers. induction c as [|y c IH]; [reflexivity|]. cbn [map sequence get_number bind] in *. now rewrite IH. Qed.

Lemma get_frequencies_ok c : get_frequencies (K:=K) (PList (map (fun y => PData (DFrequency y)) c)) = Ok (c : list X).
Proof. unfold get_frequencies. induction c as [|y c IH]; [reflexivity|]. cbn [map sequence bind] in *. now rewrite IH. Qed.

Lemma numbers_ok c : numbers (DList (map (DNum (X:=X)) c)) = Ok (c : list K).
Proof. unfold numbers. induction c as [|y c IH]; [reflexivity|]. cbn [map sequence bind] in *. now rewrite IH. Qed.

(** The parameters *)
Definition convert (name : string) (v : @data K X) : result (@parameter K X) :=
  match v with
  | DDict m =>
      if String.eqb name "type" then Ok (PData v)
      else if has_type m then t <- read v ;; Ok (PTerm t)
      else if same_keys m then complex_numbers A unit m
      else Ok (PData v)
  | DList m => q <- sequence (map item m) ;; Ok (PList q)
  | _ => Ok (PData v)
  end.

Lemma read_dict l : read (DDict l) =
  (p <- sequence (map (fun e : string * data => let '(name, v) := e in r <- convert name v ;; Ok (name, r)) l) ;;
   match lookup "type" p with
   | Some (PData (DStr cls)) => instantiate A cls (List.filter (fun e => negb (String.eqb (fst e) "type")) p)
   | Some _ => Err KeyError
   | None => Err TypeError
   end).
Proof. reflexivity. Qed.

Lemma read_type cls (l : list (string * @data K X)) ps : Forall2 (fun e q => fst q = fst e /\ convert (fst e) (snd e) = Ok (snd q) /\ fst e <> "type"%string) l ps ->
  read (DDict (entry "type" (DStr cls) :: l)) = instantiate A cls ps.
Proof.
  intros H. rewrite read_dict. cbn [map sequence convert entry bind].
  assert (E : sequence (map (fun e : string * data => let '(name, v) := e in r <- convert name v ;; Ok (name, r)) l) = Ok ps /\
    List.filter (fun e => negb (String.eqb (fst e) "type")) ps = ps).
  { induction H as [|[n v] [n' q] l ps (E & C & N) _ [IH IH']]; [split; reflexivity|]. cbn [fst snd] in *. subst n'. cbn [map sequence List.filter fst].
    rewrite C. cbn [bind]. rewrite IH. apply String.eqb_neq in N. rewrite N. cbn [negb bind]. now rewrite IH'. }
  destruct E as [-> E]. cbn [bind lookup String.eqb]. cbn [List.filter fst negb String.eqb]. now rewrite E.
Qed.

Lemma convert_term name t u : name <> "type"%string -> read (as_dict t) = Ok u -> convert name (as_dict t) = Ok (PTerm u).
Proof.
  intros N H. destruct (as_dict_type t) as (m & E & T). rewrite E in H |- *. unfold convert. apply String.eqb_neq in N. rewrite N, T, H. reflexivity.
Qed.

Lemma convert_terms name l us : Forall2 (fun t u => read (as_dict t) = Ok u) l us -> convert name (DList (map as_dict l)) = Ok (PList (map PTerm us)).
Proof. intros H. unfold convert. now rewrite (items_ok l us H). Qed.

(** The dictionaries of the classes *)
Ltac fields := repeat (apply Forall2_cons; [split; [reflexivity|split; [|discriminate]]|]); try apply Forall2_nil.

Lemma read_constant v : read (as_dict (Constant v)) = Ok (Constant v).
Proof. reflexivity. Qed.

Lemma read_polynomial c x : read (as_dict (Polynomial c x)) = Ok (polynomial_factory A c x).
Proof.
  cbn [Filter.as_dict]. rewrite (read_type "Polynomial" _ [("coefficients", PList (map (fun y => PData (DNum y)) c)); ("transform", PData (DBool x))]%string).
  - change (instantiate A "Polynomial" _) with (c' <- get_numbers (X:=X) (PList (map (fun y => PData (DNum y)) c)) ;; Ok (polynomial_factory (X:=X) A c' x)).
    now rewrite get_numbers_ok.
  - fields; cbn [fst snd entry convert]; auto. now rewrite plain_items.
Qed.

Lemma read_exp c x : read (as_dict (Exp c x)) = Ok (exp_factory A c x).
Proof. reflexivity. Qed.

Lemma interpolation_of_int_int i : interpolation_of_int (interpolation_int i) = Ok i.
Proof. destruct i; reflexivity. Qed.

Lemma read_bands xs ys i e : (forall y, In y ys -> o_add O (o_mul O (imag y) unit) (real y) = y) -> read (as_dict (Bands xs ys i e)) = Ok (bands_factory xs ys i e).
Proof.
  intros C. cbn [Filter.as_dict].
  set (q := if complex_array ys then PArray (X:=X) ys else PList (map (fun y => PData (DNum y)) ys)).
  rewrite (read_type "Bands" _ [("xs", PList (map (fun y => PData (DFrequency y)) xs)); ("ys", q); ("interpolation", PData (DInt (interpolation_int i)));
    ("extrapolation", PData (DInt (interpolation_int e)))]%string).
  - change (instantiate A "Bands" _) with (xs' <- get_frequencies (K:=K) (PList (map (fun y => PData (DFrequency y)) xs)) ;; ys' <- get_numbers (X:=X) q ;;
      i' <- interpolation_of_int (interpolation_int i) ;; e' <- interpolation_of_int (interpolation_int e) ;; Ok (bands_factory xs' ys' i' e')).
    rewrite get_frequencies_ok, !interpolation_of_int_int. cbn [bind]. unfold q. destruct (complex_array ys); [reflexivity|]. now rewrite get_numbers_ok.
  - fields; cbn [fst snd entry]; auto.
    + unfold convert. now rewrite plain_items.
    + unfold q. destruct (complex_array ys).
      * unfold convert. cbn [String.eqb Ascii.eqb Bool.eqb has_type lookup same_keys zlen List.length entry].
        change (same_keys _) with true. cbv iota.
        change (complex_numbers A unit _) with (r <- numbers (X:=X) (DList (map (fun y => DNum (real y)) ys)) ;; m <- numbers (X:=X) (DList (map (fun y => DNum (imag y)) ys)) ;;
          if zlen r =? zlen m then Ok (PArray (X:=X) (map2 (fun r i => o_add O (o_mul O i unit) r) r m)) else Err ValueError).
        rewrite <- (map_map real DNum), <- (map_map imag DNum), !numbers_ok. cbn [bind]. rewrite !zlen_map, Z.eqb_refl. f_equal. f_equal.
        clear q. induction ys as [|y ys IH]; [reflexivity|]. cbn [map map2]. rewrite C by (now left). f_equal. apply IH. intros; apply C. now right.
      * unfold convert. now rewrite plain_items.
Qed.

Lemma read_absolute v x v' : read (as_dict v) = Ok v' -> read (as_dict (Absolute v x)) = absolute_factory A v' x.
Proof.
  intros H. cbn [Filter.as_dict]. rewrite (read_type "Absolute" _ [("value", PTerm v'); ("transform", PData (DBool x))]%string); [reflexivity|].
  fields; cbn [fst snd entry]; auto. now apply convert_term.
Qed.

Lemma read_negative v x v' : read (as_dict v) = Ok v' -> read (as_dict (Negative v x)) = negative_factory A v' x.
Proof.
  intros H. cbn [Filter.as_dict]. rewrite (read_type "Negative" _ [("value", PTerm v'); ("transform", PData (DBool x))]%string); [reflexivity|].
  fields; cbn [fst snd entry]; auto. now apply convert_term.
Qed.

Lemma read_difference m s x m' s' : read (as_dict m) = Ok m' -> read (as_dict s) = Ok s' -> read (as_dict (Difference m s x)) = difference_factory A m' s' x.
Proof.
  intros H H'. cbn [Filter.as_dict]. rewrite (read_type "Difference" _ [("minuend", PTerm m'); ("subtrahend", PTerm s'); ("transform", PData (DBool x))]%string); [reflexivity|].
  fields; cbn [fst snd entry]; auto; now apply convert_term.
Qed.

Lemma read_quotient a b x a' b' : read (as_dict a) = Ok a' -> read (as_dict b) = Ok b' -> read (as_dict (Quotient a b x)) = Ok (quotient_factory A a' b' x).
Proof.
  intros H H'. cbn [Filter.as_dict]. rewrite (read_type "Quotient" _ [("numerator", PTerm a'); ("denominator", PTerm b'); ("transform", PData (DBool x))]%string); [reflexivity|].
  fields; cbn [fst snd entry]; auto; now apply convert_term.
Qed.

Lemma read_sum l x us : Forall2 (fun t u => read (as_dict t) = Ok u) l us -> read (as_dict (Sum l x)) = sum_factory A us x.
Proof.
  intros H. cbn [Filter.as_dict]. rewrite (read_type "Sum" _ [("summands", PList (map PTerm us)); ("transform", PData (DBool x))]%string).
  - change (instantiate A "Sum" _) with (l <- sequence (map get_term (map PTerm us)) ;; sum_factory A l x). now rewrite get_terms_ok.
  - fields; cbn [fst snd entry]; auto; now apply convert_terms.
Qed.

Lemma read_product l x us : Forall2 (fun t u => read (as_dict t) = Ok u) l us -> read (as_dict (Product l x)) = product_factory A us x.
Proof.
  intros H. cbn [Filter.as_dict]. rewrite (read_type "Product" _ [("factors", PList (map PTerm us)); ("transform", PData (DBool x))]%string).
  - change (instantiate A "Product" _) with (l <- sequence (map get_term (map PTerm us)) ;; product_factory A l x). now rewrite get_terms_ok.
  - fields; cbn [fst snd entry]; auto; now apply convert_terms.
Qed.

(** ** Round trips *)

Notation readable := (readable A real imag unit).

Hypothesis EA : exact_arithmetic A.
Variable D : bool.
Notation good := (every (good_node D)).

(** [u] is like [t] *)
Definition like (t u : term) : Prop := forall f s a, nz A D s -> value f s t = Some a -> value f s u = Some a.

Lemma nz_var x s : nz A D s -> nz A D (var A x s).
Proof. intros N E. apply (var_neq A EA). now apply N. Qed.

Lemma like_sum l us f s a : Forall2 like l us -> nz A D s -> vsum A f s l = Some a -> vsum A f s us = Some a.
Proof.
  intros H N. revert a. induction H as [|t u l us Q _ IH]; intros a V; auto. rewrite vsum_cons in V |- *. apply lift2_some in V as (b & c & B & C & ->).
  now rewrite (Q f s b N B), (IH c C).
Qed.

Lemma like_prod l us f s a : Forall2 like l us -> nz A D s -> vprod A f s l = Some a -> vprod A f s us = Some a.
Proof.
  intros H N. revert a. induction H as [|t u l us Q _ IH]; intros a V; auto. rewrite vprod_cons in V |- *. apply lift2_some in V as (b & c & B & C & ->).
  now rewrite (Q f s b N B), (IH c C).
Qed.

Lemma Forall2_nil_iff {Y W} (R : Y -> W -> Prop) l us : Forall2 R l us -> (l = [] <-> us = []).
Proof. destruct 1; split; auto; discriminate. Qed.

Definition round (t u : term) : Prop := read (as_dict t) = Ok u /\ good u /\ like t u.

Lemma round_list (l : list term) : Forall (fun t => exists u, round t u) l ->
  exists us, Forall2 (fun t u => read (as_dict t) = Ok u) l us /\ Forall good us /\ Forall2 like l us.
Proof.
  induction 1 as [|t l (u & R & G & L) _ (us & IH & IH' & IH'')]; [exists []; repeat constructor|].
  exists (u :: us). repeat split; constructor; auto.
Qed.

Lemma lift_like f s op t u a : value f s t = Some a -> forall b, lift op (Some a) = Some b -> value f s u = Some a -> lift op (value f s u) = Some b.
Proof. now intros _ b H ->. Qed.

Lemma round_trip t : good t -> every readable t -> exists u, round t u.
Proof.
  induction t as [v|c x|c x|xs ys i e|v x IHt|v x IHt|l x H|t1 t2 x IHt1 IHt2|l x H|t1 t2 x IHt1 IHt2] using term_induction; intros G R.
  - exists (Constant v). split; [apply read_constant|]. split; auto. now intros f s a _ V.
  - exists (polynomial_factory A c x). split; [apply read_polynomial|].
    assert (Ox : okay D x) by (destruct G as [[_ G] _]; unfold okay; destruct D; auto).
    destruct (polynomial_factory_ok (X:=X) A EA D c x Ox) as [Gu V]. split; auto. intros f s a _ W. rewrite V. exact W.
  - exists (exp_factory A c x). split; [apply read_exp|].
    assert (Ox : okay D x) by (destruct G as [[_ G] _]; unfold okay; destruct D; auto).
    destruct (exp_factory_ok (X:=X) A EA D c x Ox) as [Gu V]. split; auto. intros f s a _ W. rewrite V. exact W.
  - destruct R as [[N C] _]. exists (Bands xs ys i e). split; [|split; auto; now intros f s a _ V]. rewrite read_bands by auto. unfold bands_factory. now destruct e.
  - destruct G as [G0 G]. destruct R as [_ R]. destruct (IHt G R) as (v' & Rv & Gv & Lv).
    assert (Ox : okay D x) by (destruct G0 as [_ G0]; unfold okay; destruct D; auto).
    assert (H : exists w, absolute_factory A v' x = Ok (abs_ A w) /\ good w /\ forall f s a, nz A D s -> value f (var A x s) v = Some a -> value f s w = Some a).
    { unfold absolute_factory. destruct x; [|exists v'; auto]. destruct (invert_transform_total A v') as [w E]. rewrite E. exists w. split; auto.
      destruct (invert_transform_is A EA D (okay_true D true Ox eq_refl) v' w Gv E) as [Gw V]. split; auto. intros f s a N W. apply V; auto. apply Lv; auto. now apply (nz_var true). }
    destruct H as (w & E & Gw & V). exists (abs_ A w). destruct (abs_ok A EA D w Gw) as [Ga Va]. split; [now rewrite (read_absolute _ _ _ Rv)|]. split; auto.
    intros f s a N W. cbn [TermsSpec.value transform] in W. apply lift_some in W as (b & W & ->). apply Va, V; auto.
  - destruct G as [G0 G]. destruct R as [_ R]. destruct (IHt G R) as (v' & Rv & Gv & Lv).
    assert (Ox : okay D x) by (destruct G0 as [_ G0]; unfold okay; destruct D; auto).
    assert (H : exists w, negative_factory A v' x = negate A w /\ good w /\ forall f s a, nz A D s -> value f (var A x s) v = Some a -> value f s w = Some a).
    { unfold negative_factory. destruct x; [|exists v'; auto]. destruct (invert_transform_total A v') as [w E]. rewrite E. exists w. split; auto.
      destruct (invert_transform_is A EA D (okay_true D true Ox eq_refl) v' w Gv E) as [Gw V]. split; auto. intros f s a N W. apply V; auto. apply Lv; auto. now apply (nz_var true). }
    destruct H as (w & E & Gw & V). destruct (negate_total A w) as [u E']. exists u. destruct (negate_is A EA D w u Gw E') as [Gu Vu].
    split; [now rewrite (read_negative _ _ _ Rv), E|]. split; auto.
    intros f s a N W. cbn [TermsSpec.value transform] in W. apply lift_some in W as (b & W & ->). apply Vu; auto.
  - assert (Q : Forall (fun t => exists u, round t u) l).
    { destruct G as [_ G]. destruct R as [_ R]. apply every_list in G, R. rewrite Forall_forall in *. auto. }
    assert (Ox : okay D x) by (destruct G as [[_ G] _]; unfold okay; destruct D; auto).
    destruct (round_list l Q) as (us & Ru & Gu & Lu). destruct (sum_factory_total A us x) as [u E]. exists u. split; [now rewrite (read_sum _ _ _ Ru)|].
    destruct (sum_factory_ok A EA D (invert_transform A) (plus A) us x u (invert_transform_is A EA _) (plus_is A EA _) Ox Gu E) as [G' V]. split; auto.
    intros f s a N W. apply V; auto. rewrite value_sum in W. eapply like_sum; eauto. now apply nz_var.
  - destruct G as ([_ G0] & G1 & G2). destruct R as (_ & R1 & R2). destruct (IHt1 G1 R1) as (m' & Rm & Gm & Lm). destruct (IHt2 G2 R2) as (s' & Rs & Gs & Ls).
    assert (ED : D = true) by (destruct D; [reflexivity|destruct G0]). rewrite ED in G0. unfold untransformed in G0. cbn in G0. subst x.
    assert (Val : forall f s v, value f s (Difference t1 t2 false) = Some v -> exists b c, value f s m' = Some b /\ value f s s' = Some c /\ v = o_sub O b c).
    { intros f s v W. cbn [TermsSpec.value transform] in W. apply lift2_some in W as (b & c & B & C & ->). exists b, c.
      split; [apply Lm; auto; intros N; congruence|split; [apply Ls; auto; intros N; congruence|reflexivity]]. }
    assert (F : exists u, difference_factory A m' s' false = Ok u /\ good u /\ forall f s b c, value f s m' = Some b -> value f s s' = Some c -> value f s u = Some (o_sub O b c)).
    { apply (difference_factory_value A EA D m' s' ED Gm Gs). }
    destruct F as (u & E & Gu & V). exists u. split; [now rewrite (read_difference _ _ _ _ _ Rm Rs)|]. split; auto.
    intros f s a N W. destruct (Val f s a W) as (b & c & B & C & ->). auto.
  - assert (Q : Forall (fun t => exists u, round t u) l).
    { destruct G as [_ G]. destruct R as [_ R]. apply every_list in G, R. rewrite Forall_forall in *. auto. }
    assert (Ox : okay D x) by (destruct G as [[_ G] _]; unfold okay; destruct D; auto).
    destruct (round_list l Q) as (us & Ru & Gu & Lu). destruct (product_factory_total A us x) as [u E]. exists u. split; [now rewrite (read_product _ _ _ Ru)|].
    destruct (product_factory_ok A EA D (invert_transform A) (times A) us x u (invert_transform_is A EA _) (times_is A EA _) Ox Gu E) as [G' V]. split; auto.
    intros f s a N W. apply V; auto. unfold product_value. destruct l as [|t l].
    + rewrite (proj1 (Forall2_nil_iff _ _ _ Lu) eq_refl). exact W.
    + rewrite value_product in W by easy. rewrite value_product by (intros E'; apply (Forall2_nil_iff _ _ _ Lu) in E'; discriminate).
      eapply like_prod; eauto. now apply nz_var.
  - destruct G as ([_ G0] & G1 & G2). destruct R as (_ & R1 & R2). destruct (IHt1 G1 R1) as (m' & Rm & Gm & Lm). destruct (IHt2 G2 R2) as (s' & Rs & Gs & Ls).
    assert (Ox : okay D x) by (unfold okay; destruct D; auto).
    exists (quotient_factory A m' s' x). destruct (quotient_factory_ok A EA D m' s' x Ox Gm Gs) as [Gu V]. split; [now rewrite (read_quotient _ _ _ _ _ Rm Rs)|]. split; auto.
    intros f s a N W. apply V. cbn [TermsSpec.value transform] in W. apply (quotient_some A EA) in W as (b & c & B & C & Nc & ->).
    rewrite (Lm f _ b (nz_var x s N) B), (Ls f _ c (nz_var x s N) C). now apply (quotient_ok A EA).
Qed.

End Dictionary.
