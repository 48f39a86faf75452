(** Proofs about the operators and the factories of terms. *)

From Coq Require Import ZArith List Bool Lia ZifyBool Field.
From Verif.Model Require Import Py Signal Terms.
From Verif.Spec Require Import TermsSpec.
From Verif.Proofs Require Import PyFacts TermFacts.
Import ListNotations.
Open Scope Z_scope.

Section Operators.
Context {K X : Type}.
Variable A : arithmetic K X.
Hypothesis EA : exact_arithmetic A.
Notation O := (k_ops A).
Notation term := (term K X).
Notation "0k" := (o_zero O).
Notation "1k" := (o_one O).
Infix "[+]" := (o_add O) (at level 50, left associativity).
Infix "[-]" := (o_sub O) (at level 50, left associativity).
Infix "[*]" := (o_mul O) (at level 40, left associativity).
Infix "[/]" := (o_div O) (at level 40, left associativity).
Notation "[-1]" := (o_neg O).
Notation value := (value A).

Add Field K_field : (exact_field A EA).

(** ** Polynomials *)

Lemma polynomial_zeros n c s : polynomial A (repeat 0k n ++ c) s = polynomial A c s.
Proof. induction n as [|n IH]; cbn; auto. rewrite IH. ring. Qed.

Lemma polynomial_pad c n s : polynomial A (poly_pad A c n) s = polynomial A c s.
Proof. apply polynomial_zeros. Qed.

Lemma pad_length c n : zlen c <= n -> List.length (poly_pad A c n) = Z.to_nat n.
Proof. intros H. unfold poly_pad, zrepeat, zlen in *. rewrite app_length, repeat_length. lia. Qed.

Lemma polynomial_map2_add a : forall b s, List.length a = List.length b ->
  List.length (map2 (o_add O) a b) = List.length a /\ polynomial A (map2 (o_add O) a b) s = polynomial A a s [+] polynomial A b s.
Proof.
  induction a as [|x a IH]; intros [|y b] s L; try discriminate; cbn.
  - split; auto. ring.
  - injection L as L. destruct (IH b s L) as [E1 E2]. rewrite E2, E1, L. split; auto. ring.
Qed.

Lemma polynomial_map2_sub a : forall b s, List.length a = List.length b ->
  List.length (map2 (o_sub O) a b) = List.length a /\ polynomial A (map2 (o_sub O) a b) s = polynomial A a s [-] polynomial A b s.
Proof.
  induction a as [|x a IH]; intros [|y b] s L; try discriminate; cbn.
  - split; auto. ring.
  - injection L as L. destruct (IH b s L) as [E1 E2]. rewrite E2, E1, L. split; auto. ring.
Qed.

Lemma poly2_add a b s : polynomial A (poly2 A (o_add O) a b) s = polynomial A a s [+] polynomial A b s.
Proof.
  unfold poly2. rewrite (fun L => proj2 (polynomial_map2_add _ _ s L)); [now rewrite !polynomial_pad|]. rewrite !pad_length; lia.
Qed.

Lemma poly2_sub a b s : polynomial A (poly2 A (o_sub O) a b) s = polynomial A a s [-] polynomial A b s.
Proof.
  unfold poly2. rewrite (fun L => proj2 (polynomial_map2_sub _ _ s L)); [now rewrite !polynomial_pad|]. rewrite !pad_length; lia.
Qed.

Lemma map2_not_nil {Y1 Y2 Y3} (op : Y1 -> Y2 -> Y3) a b : a <> [] -> b <> [] -> map2 op a b <> [].
Proof. destruct a, b; easy. Qed.

Lemma pad_not_nil a n : a <> [] -> poly_pad A a n <> [].
Proof. intros H E. apply H. unfold poly_pad in E. now apply app_eq_nil in E. Qed.

Lemma poly2_not_nil op a b : a <> [] -> b <> [] -> poly2 A op a b <> [].
Proof. intros. apply map2_not_nil; now apply pad_not_nil. Qed.

Lemma at_last_length op c w : List.length (at_last op c w) = @List.length K c.
Proof. induction c as [|x [|y c] IH]; auto. cbn [at_last List.length] in *. now rewrite IH. Qed.

Lemma at_last_not_nil op c w : c <> [] -> at_last op c w <> @nil K.
Proof. intros H E. apply H. apply length_zero_iff_nil. erewrite <- at_last_length, E. reflexivity. Qed.

Lemma at_last_add c w s : c <> [] -> polynomial A (at_last (o_add O) c w) s = polynomial A c s [+] w.
Proof.
  induction c as [|x [|y c] IH]; intros N; [easy|cbn; ring|].
  change (at_last (o_add O) (x :: y :: c) w) with (x :: at_last (o_add O) (y :: c) w). cbn [polynomial]. rewrite at_last_length, IH by easy. cbn [polynomial]. ring.
Qed.

Lemma at_last_sub c w s : c <> [] -> polynomial A (at_last (o_sub O) c w) s = polynomial A c s [-] w.
Proof.
  induction c as [|x [|y c] IH]; intros N; [easy|cbn; ring|].
  change (at_last (o_sub O) (x :: y :: c) w) with (x :: at_last (o_sub O) (y :: c) w). cbn [polynomial]. rewrite at_last_length, IH by easy. cbn [polynomial]. ring.
Qed.

Lemma polynomial_scale c w s : polynomial A (map (fun a => a [*] w) c) s = polynomial A c s [*] w.
Proof. induction c as [|a c IH]; cbn; [ring|]. rewrite IH, map_length. ring. Qed.

Lemma polynomial_unscale c w s : w <> 0k -> polynomial A (map (fun a => a [/] w) c) s = polynomial A c s [/] w.
Proof. intros N. induction c as [|a c IH]; cbn; [field; auto|]. rewrite IH, map_length. field. auto. Qed.

Lemma drop_zeros_ok c s : polynomial A (drop_zeros A c) s = polynomial A c s.
Proof. induction c as [|a c IH]; cbn; auto. destruct (is_null A a) eqn:E; auto. apply (is_null_eq A EA) in E as ->. rewrite IH. ring. Qed.

Section Class.
Variable D : bool.
Definition good_node (t : term) : Prop := proper t /\ (if D then untransformed t else no_difference t).
Notation good := (every good_node).

Lemma good_proper t : good t -> every (proper (K:=K) (X:=X)) t.
Proof. apply proper_of. now intros ? []. Qed.

Lemma good_sum l : Forall good l -> good (Sum l false).
Proof. intros H. split; [split; [exact I|destruct D; exact I || reflexivity]|now apply every_list]. Qed.

Lemma good_product l : Forall good l -> good (Product l false).
Proof. intros H. split; [split; [exact I|destruct D; exact I || reflexivity]|now apply every_list]. Qed.

Lemma good_sum_x l m x : good (Sum l x) -> Forall good m -> good (Sum m x).
Proof. intros [[_ H] _] M. split; [split; [exact I|destruct D; auto]|now apply every_list]. Qed.

Lemma good_product_x l m x : good (Product l x) -> Forall good m -> good (Product m x).
Proof. intros [[_ H] _] M. split; [split; [exact I|destruct D; auto]|now apply every_list]. Qed.

Lemma good_sum_inv l x : good (Sum l x) -> Forall good l.
Proof. intros [_ H]. now apply every_list. Qed.

Lemma good_product_inv l x : good (Product l x) -> Forall good l.
Proof. intros [_ H]. now apply every_list. Qed.

Lemma good_constant v : good (Constant v).
Proof. split; [split; [exact I|destruct D; exact I || reflexivity]|exact I]. Qed.

Lemma good_negative t : good t -> good (Negative t false).
Proof. intros H. split; [split; [exact I|destruct D; exact I || reflexivity]|exact H]. Qed.

Lemma good_absolute t : good t -> good (Absolute t false).
Proof. intros H. split; [split; [exact I|destruct D; exact I || reflexivity]|exact H]. Qed.

Lemma good_polynomial c d x : good (Polynomial c x) -> d <> [] -> good (Polynomial d x).
Proof. intros [[_ H] _] M. split; [split; [exact M|destruct D; auto]|exact I]. Qed.

Lemma good_bands xs ys zs i e : good (Bands xs ys i e) -> zlen zs = zlen ys -> good (Bands xs zs i e).
Proof. intros [[(H1 & H2 & H3 & H4) H] _] M. split; [split; [cbn; repeat split; auto; try lia; tauto|destruct D; auto]|exact I]. Qed.

Lemma good_quotient a b : good a -> good b -> good (Quotient a b false).
Proof. intros H M. split; [split; [exact I|destruct D; exact I || reflexivity]|now split]. Qed.


(** ** The methods that call each other *)

Definition okay (x : bool) : Prop := if D then x = false else True.

Lemma okay_false : okay false.
Proof. unfold okay. now destruct D. Qed.

Lemma good_sum_okay l x : okay x -> Forall good l -> good (Sum l x).
Proof. unfold okay. intros H M. split; [split; [exact I|destruct D; auto; exact I]|now apply every_list]. Qed.

Lemma good_product_okay l x : okay x -> Forall good l -> good (Product l x).
Proof. unfold okay. intros H M. split; [split; [exact I|destruct D; auto; exact I]|now apply every_list]. Qed.

Lemma good_polynomial_okay c x : okay x -> c <> [] -> good (Polynomial c x).
Proof. unfold okay. intros H M. split; [split; [exact M|destruct D; auto; exact I]|exact I]. Qed.

Lemma good_exp_okay c x : okay x -> good (Exp c x).
Proof. unfold okay. intros H. split; [split; [exact I|destruct D; auto; exact I]|exact I]. Qed.

Lemma good_quotient_okay a b x : okay x -> good a -> good b -> good (Quotient a b x).
Proof. unfold okay. intros H M N. split; [split; [exact I|destruct D; auto; exact I]|now split]. Qed.

(** Terms without transforms have a value at 0 Hz as well. *)
Definition nz (s : K) : Prop := D = false -> s <> 0k.

Definition inv_fun (F : term -> result term) : Prop := D = false -> forall t u, good t -> F t = Ok u ->
  good u /\ forall f s a, nz s -> value f (inverse A s) t = Some a -> value f s u = Some a.
Definition neg_fun (F : term -> result term) : Prop := forall t u, good t -> F t = Ok u ->
  good u /\ forall f s a, nz s -> value f s t = Some a -> value f s u = Some ([-1] a).
Definition add_fun (F : term -> term -> result term) : Prop := forall t t' u, good t -> good t' -> F t t' = Ok u ->
  good u /\ forall f s a b, nz s -> value f s t = Some a -> value f s t' = Some b -> value f s u = Some (a [+] b).
Definition mul_fun (F : term -> term -> result term) : Prop := forall t t' u, good t -> good t' -> F t t' = Ok u ->
  good u /\ forall f s a b, nz s -> value f s t = Some a -> value f s t' = Some b -> value f s u = Some (a [*] b).

Lemma okay_true x : okay x -> x = true -> D = false.
Proof. unfold okay. destruct D; congruence. Qed.

Lemma inv_list n l m : inv_fun (inv A n) -> D = false -> Forall good l -> sequence (map (inv A n) l) = Ok m ->
  Forall good m /\ zlen m = zlen l /\
  forall f s a, nz s -> (vsum A f (inverse A s) l = Some a -> vsum A f s m = Some a) /\ (vprod A f (inverse A s) l = Some a -> vprod A f s m = Some a).
Proof.
  intros I D0 G. revert m. induction G as [|t l Gt Gl IH]; intros m H; cbn in H.
  - injection H as <-. split; [constructor|]. split; auto.
  - destruct (inv A n t) as [t'|] eqn:E; [|discriminate]. cbn in H. destruct (sequence _) as [l'|] eqn:E'; [|discriminate]. cbn in H. injection H as <-.
    destruct (I D0 _ _ Gt E) as [G' V]. destruct (IH l' eq_refl) as (G'' & L & V'). split; [now constructor|]. split; [rewrite !zlen_cons; lia|].
    intros f s a S. rewrite !vsum_cons, !vprod_cons. split; intros H; apply lift2_some in H as (x & y & V1 & V2 & ->).
    + rewrite (V f s x S V1). rewrite (proj1 (V' f s y S) V2). reflexivity.
    + rewrite (V f s x S V1). rewrite (proj2 (V' f s y S) V2). reflexivity.
Qed.

Lemma vsum_filter f s l : Forall good l -> forall a, vsum A f s l = Some a -> vsum A f s (filter (fun t => negb (is_zero A t)) l) = Some a.
Proof.
  intros G. induction G as [|t l Gt Gl IH]; intros a H; auto. rewrite vsum_cons in H. apply lift2_some in H as (x & y & V1 & V2 & ->).
  cbn [filter]. destruct (is_zero A t) eqn:E; cbn [negb].
  - rewrite (is_zero_sound A EA f t s x (good_proper _ Gt) E V1), (IH y V2). f_equal. ring.
  - rewrite vsum_cons, V1, (IH y V2). reflexivity.
Qed.

Lemma Forall_filter {Y} (P : Y -> Prop) q l : Forall P l -> Forall P (filter q l).
Proof. rewrite !Forall_forall. intros H x I. apply filter_In in I. now apply H. Qed.

Lemma sum_factory_ok INV ADD l x u : inv_fun INV -> add_fun ADD -> okay x -> Forall good l -> sum_factory_ A INV ADD l x = Ok u ->
  good u /\ forall f s a, nz s -> vsum A f (var A x s) l = Some a -> value f s u = Some a.
Proof.
  intros IV IA Ox G H. unfold sum_factory_ in H.
  pose proof (Forall_filter _ (fun s => negb (is_zero A s)) _ G) as G'.
  assert (F : forall f s a, vsum A f s l = Some a -> vsum A f s (filter (fun t => negb (is_zero A t)) l) = Some a).
  { intros. now apply vsum_filter. }
  destruct (filter _ l) as [|t [|t' [|t'' l']]].
  - injection H as <-. split; [apply good_constant|]. intros f s a S V. apply F in V. exact V.
  - inversion_clear G' as [|? ? Gt _]. assert (T : forall f s a, vsum A f s [t] = Some a -> value f s t = Some a).
    { intros f s a V. rewrite vsum_cons in V. apply lift2_some in V as (y & z & V & Z & ->). cbn in Z. injection Z as <-. rewrite V. f_equal. ring. }
    destruct x.
    + destruct (IV (okay_true true Ox eq_refl) _ _ Gt H) as [Gu V]. split; auto.
    + injection H as <-. split; [exact Gt|]. intros f s a S V. apply T, F, V.
  - inversion_clear G' as [|? ? Gt Gt'']. inversion_clear Gt'' as [|? ? Gt' _].
    assert (T : forall f s a, vsum A f s [t; t'] = Some a -> exists b c, value f s t = Some b /\ value f s t' = Some c /\ a = b [+] c).
    { intros f s a V. rewrite !vsum_cons in V. apply lift2_some in V as (y & z & V & Z & ->). apply lift2_some in Z as (y' & z' & V' & Z & ->).
      injection Z as <-. exists y, y'. repeat split; auto. ring. }
    destruct x.
    + destruct (INV t) as [r|] eqn:E; [|discriminate]. cbn in H. destruct (INV t') as [r'|] eqn:E'; [|discriminate]. cbn in H.
      pose proof (okay_true true Ox eq_refl) as D0. destruct (IV D0 _ _ Gt E) as [Gr V]. destruct (IV D0 _ _ Gt' E') as [Gr' V'].
      destruct (IA _ _ _ Gr Gr' H) as [Gu W]. split; auto. intros f s a S Q. destruct (T _ _ _ (F _ _ _ Q)) as (b & c & B & C & ->).
      apply W; auto.
    + destruct (IA _ _ _ Gt Gt' H) as [Gu W]. split; auto. intros f s a S Q. destruct (T _ _ _ (F _ _ _ Q)) as (b & c & B & C & ->).
      apply W; auto.
  - injection H as <-. split; [now apply good_sum_okay|]. intros f s a S V. rewrite value_sum. apply F, V.
Qed.

Lemma vprod_zero f s l : Forall good l -> existsb (is_zero A) l = true -> forall a, vprod A f s l = Some a -> a = 0k.
Proof.
  intros G. induction G as [|t l Gt Gl IH]; intros Z a H; [discriminate|]. rewrite vprod_cons in H. apply lift2_some in H as (x & y & V1 & V2 & ->).
  cbn in Z. apply orb_prop in Z as [Z|Z].
  - rewrite (is_zero_sound A EA f t s x (good_proper _ Gt) Z V1). ring.
  - rewrite (IH Z y V2). ring.
Qed.

Lemma zlen_zero {Y} (l : list Y) : (zlen l =? 0) = true -> l = [].
Proof. destruct l; auto. rewrite zlen_cons. pose proof (zlen_nonneg l). lia. Qed.

Definition product_value (f : X) (s : K) (l : list term) : option K := value f s (Product l false).

Lemma product_factory_ok INV MUL l x u : inv_fun INV -> mul_fun MUL -> okay x -> Forall good l -> product_factory_ A INV MUL l x = Ok u ->
  good u /\ forall f s a, nz s -> product_value f (var A x s) l = Some a -> value f s u = Some a.
Proof.
  intros IV IM Ox G H. unfold product_factory_ in H. destruct ((zlen l =? 0) || existsb (is_zero A) l) eqn:Z.
  - injection H as <-. split; [apply good_constant|]. intros f s a S V. cbn. f_equal. apply orb_prop in Z as [Z|Z].
    + apply zlen_zero in Z as ->. cbn in V. congruence.
    + unfold product_value in V. rewrite value_product in V by (intros ->; discriminate). symmetry. eapply vprod_zero; eauto.
  - assert (NE : l <> []) by (intros ->; discriminate).
    assert (T0 : forall f s, product_value f s l = vprod A f s l) by (intros; now apply value_product). clear Z.
    destruct l as [|t [|t' [|t'' l']]]; [easy|..].
    + inversion_clear G as [|? ? Gt _]. assert (T : forall f s a, vprod A f s [t] = Some a -> value f s t = Some a).
      { intros f s a V. rewrite vprod_cons in V. apply lift2_some in V as (y & z & V & Z & ->). cbn in Z. injection Z as <-. rewrite V. f_equal. ring. }
      destruct x.
      * destruct (IV (okay_true true Ox eq_refl) _ _ Gt H) as [Gu V]. split; [exact Gu|]. intros f s a S W. rewrite T0 in W. apply V; auto.
      * injection H as <-. split; [exact Gt|]. intros f s a S V. rewrite T0 in V. apply T, V.
    + inversion_clear G as [|? ? Gt Gt'']. inversion_clear Gt'' as [|? ? Gt' _].
      assert (T : forall f s a, vprod A f s [t; t'] = Some a -> exists b c, value f s t = Some b /\ value f s t' = Some c /\ a = b [*] c).
      { intros f s a V. rewrite !vprod_cons in V. apply lift2_some in V as (y & z & V & Z & ->). apply lift2_some in Z as (y' & z' & V' & Z & ->).
        injection Z as <-. exists y, y'. repeat split; auto. ring. }
      destruct x.
      * destruct (INV t) as [r|] eqn:E; [|discriminate]. cbn in H. destruct (INV t') as [r'|] eqn:E'; [|discriminate]. cbn in H.
        pose proof (okay_true true Ox eq_refl) as D0. destruct (IV D0 _ _ Gt E) as [Gr V]. destruct (IV D0 _ _ Gt' E') as [Gr' V'].
        destruct (IM _ _ _ Gr Gr' H) as [Gu W]. split; auto. intros f s a S Q. rewrite T0 in Q. destruct (T _ _ _ Q) as (b & c & B & C & ->).
        apply W; auto.
      * destruct (IM _ _ _ Gt Gt' H) as [Gu W]. split; auto. intros f s a S Q. rewrite T0 in Q. destruct (T _ _ _ Q) as (b & c & B & C & ->).
        apply W; auto.
    + injection H as <-. split; [now apply good_product_okay|]. intros f s a S V. rewrite T0 in V. rewrite value_product by easy. exact V.
Qed.

Lemma polynomial_factory_ok c x : okay x ->
  good (polynomial_factory A c x) /\ forall f s, value f s (polynomial_factory A c x) = Some (polynomial A c (var A x s)).
Proof.
  intros Ox. unfold polynomial_factory. pose proof (fun s => drop_zeros_ok c s) as Z. destruct (drop_zeros A c) as [|v [|w c']].
  - split; [apply good_constant|]. intros. now rewrite <- Z.
  - split; [apply good_constant|]. intros. rewrite <- Z. cbn. f_equal. ring.
  - split; [now apply good_polynomial_okay|]. intros. rewrite <- Z. reflexivity.
Qed.

Lemma exp_factory_ok c x : okay x ->
  good (exp_factory A c x) /\ forall f s, value f s (exp_factory A c x) = Some (k_exp A (c [*] var A x s)).
Proof.
  intros Ox. unfold exp_factory. destruct (is_null A c) eqn:E.
  - apply (is_null_eq A EA) in E as ->. split; [apply good_constant|]. intros. cbn. f_equal. rewrite <- (exact_exp_zero A EA). f_equal. ring.
  - split; [now apply good_exp_okay|reflexivity].
Qed.

Lemma quotient_factory_ok t t' x : okay x -> good t -> good t' ->
  good (quotient_factory A t t' x) /\
  forall f s a, quotient A (value f (var A x s) t) (value f (var A x s) t') = Some a -> value f s (quotient_factory A t t' x) = Some a.
Proof.
  intros Ox Gt Gt'. unfold quotient_factory. destruct (is_zero A t) eqn:Z; [|destruct (equal A t t') eqn:E].
  - split; [apply good_constant|]. intros f s a V. apply (quotient_some A EA) in V as (b & c & B & C & N & ->).
    rewrite (is_zero_sound A EA f t _ b (good_proper _ Gt) Z B). cbn. f_equal. field. auto.
  - split; [apply good_constant|]. intros f s a V. apply (quotient_some A EA) in V as (b & c & B & C & N & ->).
    rewrite (equal_sound A EA f t t' _ b c (good_proper _ Gt) (good_proper _ Gt') E B C). cbn. f_equal. field. auto.
  - split; [now apply good_quotient_okay|]. intros f s a V. exact V.
Qed.

Lemma bands_unary op xs ys i e f a : proper (Bands xs ys i e) -> op 0k = 0k -> bands_at A f xs ys i e = Some a ->
  bands_at A f xs (map op ys) i e = Some (op a).
Proof.
  intros (NE & ND & L & PI & PE) Z V. destruct (bands_cases A EA f xs i e NE PI PE) as [B|(k & K0 & B)].
  - rewrite B in V |- *; rewrite ?zlen_map; auto. congruence.
  - rewrite B in V |- *; rewrite ?zlen_map; auto. now rewrite zth_map, V.
Qed.

Lemma bands_binary op xs ys zs i e f a b : proper (Bands xs ys i e) -> zlen zs = zlen xs -> op 0k 0k = 0k ->
  bands_at A f xs ys i e = Some a -> bands_at A f xs zs i e = Some b ->
  bands_at A f xs (map2 op ys zs) i e = Some (op a b).
Proof.
  intros (NE & ND & L & PI & PE) L' Z V W. destruct (bands_cases A EA f xs i e NE PI PE) as [B|(k & K0 & B)].
  - rewrite B in V, W |- *; rewrite ?zlen_map2; auto; try lia. congruence.
  - rewrite B in V, W |- *; rewrite ?zlen_map2; auto; try lia. now rewrite zth_map2, V, W.
Qed.

Lemma abs_ok t : good t -> good (abs_ A t) /\ forall f s a, value f s t = Some a -> value f s (abs_ A t) = Some (o_abs O a).
Proof.
  intros G. destruct t as [v|c x|c x|xs ys i e|v x|v x|l x|m u x|l x|m u x];
    try (split; [now apply good_absolute|intros f s a V; cbn [abs_ TermsSpec.value transform]; cbn [TermsSpec.value transform] in V; now rewrite V]).
  - split; [apply good_constant|]. intros f s a V. cbn in V |- *. congruence.
  - split; [eapply good_bands; eauto; now rewrite zlen_map|]. intros f s a V. cbn in V |- *. destruct G as [[P _] _]. apply bands_unary; auto. apply (exact_abs_zero A EA).
  - split; [exact G|]. intros f s a V. cbn [abs_]. rewrite V. cbn [TermsSpec.value transform] in V. apply lift_some in V as (b & V & ->). now rewrite (exact_abs_abs A EA).
Qed.

Lemma array_equal_ok {Y} (eqb : Y -> Y -> bool) (R : forall x y, eqb x y = true <-> x = y) a b : array_equal eqb a b = true -> a = b.
Proof.
  unfold array_equal. intros H. apply andb_prop in H as [L H]. revert b L H. induction a as [|x a IH]; intros [|y b] L H; auto; try (exfalso; unfold zlen in L; cbn [List.length] in L; lia).
  cbn in H. apply andb_prop in H as [H1 H2]. f_equal; [now apply R|]. apply IH; auto. rewrite !zlen_cons in L. lia.
Qed.

Lemma same_bands_ok t u xs ys ys' i e : same_bands A t u = Some (xs, ys, ys', i, e) -> t = Bands xs ys i e /\ u = Bands xs ys' i e.
Proof.
  unfold same_bands. destruct t as [v|c x|c x|xs1 ys1 i1 e1|v x|v x|l x|m w x|l x|m w x]; try discriminate.
  destruct u as [v|c x|c x|xs2 ys2 i2 e2|v x|v x|l x|m w x|l x|m w x]; try discriminate.
  destruct (array_equal (x_eqb A) xs1 xs2 && interpolation_eqb i1 i2 && interpolation_eqb e1 e2) eqn:E; [|discriminate].
  apply andb_prop in E as [E E3]. apply andb_prop in E as [E1 E2]. apply (array_equal_ok _ (exact_x_eqb A EA)) in E1.
  assert (i1 = i2) by (destruct i1, i2; easy). assert (e1 = e2) by (destruct e1, e2; easy). intros Q. injection Q as <- <- <- <- <-. now subst.
Qed.

Lemma good_bands2 op xs ys ys' i e : good (Bands xs ys i e) -> good (Bands xs ys' i e) -> good (Bands xs (map2 op ys ys') i e).
Proof. intros G G'. eapply good_bands; eauto. destruct G as [[(_ & _ & L & _) _] _], G' as [[(_ & _ & L' & _) _] _]. rewrite zlen_map2. lia. Qed.

Lemma good_not_nil c x : good (Polynomial c x) -> c <> [].
Proof. now intros [[H _] _]. Qed.

Lemma zlen_not_nil {Y} (l : list Y) : l <> [] -> (zlen l =? 0) = false.
Proof. destruct l; [easy|]. rewrite zlen_cons. pose proof (zlen_nonneg l). lia. Qed.

Lemma bind_ok {Y Z} (e : result Y) (k : Y -> result Z) z : bind e k = Ok z -> exists y, e = Ok y /\ k y = Ok z.
Proof. destruct e as [y|]; [eauto|discriminate]. Qed.

Lemma okay_of t : good t -> D = true -> transform t = false.
Proof. intros G HD. destruct t; cbn in G; destruct G as [[_ U] _]; rewrite HD in U; auto. Qed.

Lemma var_negb x s : s <> 0k -> var A x (inverse A s) = var A (negb x) s.
Proof. intros S. destruct x; cbn; auto. now apply inverse_inverse. Qed.

Lemma operators_ok n : inv_fun (inv A n) /\ neg_fun (neg A n) /\ add_fun (add A n) /\ mul_fun (mul A n).
Proof.
  induction n as [|n (IV & IN & IA & IM)]; [repeat split; try discriminate|]. split; [|split; [|split]].
  - (* invert_transform *)
    intros D0 t u G H.
    assert (OK : forall x, okay x) by (intros x; unfold okay; now rewrite D0).
    assert (VN : forall x s, nz s -> (if x : bool then inverse A (inverse A s) else inverse A s) = var A (negb x) s) by (intros; now apply var_negb; auto).
    destruct t as [v|c x|c x|xs ys i e|v x|v x|l x|m w x|l x|m w x]; cbn [inv] in H.
    + injection H as <-. split; auto.
    + injection H as <-. destruct (polynomial_factory_ok c (negb x) (OK _)) as [G' V]. split; auto.
      intros f s a S W. rewrite V. cbn [TermsSpec.value transform] in W. now rewrite VN in W.
    + injection H as <-. destruct (exp_factory_ok c (negb x) (OK _)) as [G' V]. split; auto.
      intros f s a S W. rewrite V. cbn [TermsSpec.value transform] in W. now rewrite VN in W.
    + injection H as <-. split; auto.
    + assert (H' : exists v', (if negb x then inv A n v = Ok v' else v' = v) /\ u = abs_ A v').
      { destruct (negb x); [apply bind_ok in H as (v' & Hv & H)|]; injection H as <-; eauto. }
      destruct H' as (v' & Hv & ->). destruct G as [_ G].
      assert (Q : good v' /\ forall f s a, nz s -> value f (var A (negb x) s) v = Some a -> value f s v' = Some a).
      { destruct (negb x); [now apply IV|subst; auto]. }
      destruct Q as [G' V]. destruct (abs_ok v' G') as [G'' V']. split; auto. intros f s a S W. cbn [TermsSpec.value transform] in W. rewrite VN in W by auto.
      apply lift_some in W as (b & W & ->). auto.
    + assert (H' : exists v', (if negb x then inv A n v = Ok v' else v' = v) /\ neg A n v' = Ok u).
      { destruct (negb x); [apply bind_ok in H as (v' & Hv & H)|]; eauto. }
      destruct H' as (v' & Hv & Hu). destruct G as [_ G].
      assert (Q : good v' /\ forall f s a, nz s -> value f (var A (negb x) s) v = Some a -> value f s v' = Some a).
      { destruct (negb x); [now apply IV|subst; auto]. }
      destruct Q as [G' V]. destruct (IN v' u G' Hu) as [G'' V']. split; auto. intros f s a S W. cbn [TermsSpec.value transform] in W. rewrite VN in W by auto.
      apply lift_some in W as (b & W & ->). auto.
    + destruct (sum_factory_ok _ _ l (negb x) u IV IA (OK _) (good_sum_inv _ _ G) H) as [G' V]. split; auto.
      intros f s a S W. rewrite value_sum, VN in W by auto. auto.
    + destruct G as [[_ N] _]. rewrite D0 in N. destruct N.
    + destruct (product_factory_ok _ _ l (negb x) u IV IM (OK _) (good_product_inv _ _ G) H) as [G' V]. split; auto.
      intros f s a S W. apply V; auto. destruct l as [|t l]; [exact W|]. unfold product_value.
      rewrite value_product in W |- * by easy. now rewrite VN in W.
    + injection H as <-. destruct G as (_ & Gm & Gw). destruct (quotient_factory_ok m w (negb x) (OK _) Gm Gw) as [G' V]. split; auto.
      intros f s a S W. apply V. cbn [TermsSpec.value transform] in W. now rewrite VN in W.
  - (* __neg__ *)
    intros t u G H.
    assert (DEF : u = Negative t false -> good u /\ forall f s a, nz s -> value f s t = Some a -> value f s u = Some ([-1] a)).
    { intros ->. split; [now apply good_negative|]. intros f s a _ V. cbn [TermsSpec.value transform]. now rewrite V. }
    destruct t as [v|c x|c x|xs ys i e|v x|v x|l x|m w x|l x|m w x]; cbn [neg] in H; try (injection H as <-; now apply DEF).
    + injection H as <-. split; [apply good_constant|]. intros f s a _ V. cbn in V |- *. congruence.
    + pose proof G as [[P0 _] _]. pose proof P0 as (_ & _ & _ & PI & PE).
      replace (non_negative i || non_negative e) with false in H by (destruct PI as [->|[->| ->]], PE as [->|[->| ->]]; reflexivity).
      injection H as <-. split; [eapply good_bands; eauto; apply zlen_map|]. intros f s a _ V. cbn in V |- *. apply bands_unary; auto. ring.
    + destruct x.
      * assert (D0 : D = false) by (destruct D eqn:ED; auto; discriminate (okay_of _ G ED)).
        destruct G as [_ G]. destruct (IV D0 v u G H) as [G' V]. split; auto. intros f s a S W. cbn [TermsSpec.value transform] in W.
        apply lift_some in W as (b & W & ->). rewrite (V f s b S W). f_equal. ring.
      * injection H as <-. destruct G as [_ G]. split; auto. intros f s a S W. cbn [TermsSpec.value transform] in W.
        apply lift_some in W as (b & W & ->). rewrite W. f_equal. ring.
    + injection H as <-. destruct G as (G0 & Gm & Gw). split; [split; [exact G0|now split]|]. intros f s a S W. cbn [TermsSpec.value transform] in W |- *.
      apply lift2_some in W as (b & c & B & C & ->). rewrite B, C. cbn. f_equal. ring.
  - (* __add__ *)
    intros t t' u G G' H.
    assert (DEF : u = Sum [t; t'] false -> good u /\ forall f s a b, nz s -> value f s t = Some a -> value f s t' = Some b -> value f s u = Some (a [+] b)).
    { intros ->. split; [apply good_sum; auto|]. intros f s a b _ V W. rewrite value_sum. now apply vsum_two. }
    destruct t as [v|c x|c x|xs ys i e|v x|v x|l x|m w x|l x|m w x]; cbn [add] in H; try (injection H as <-; now apply DEF).
    + destruct (is_null A v) eqn:Z.
      * injection H as <-. apply (is_null_eq A EA) in Z as ->. split; auto. intros f s a b _ V W. injection V as <-. rewrite W. f_equal. ring.
      * destruct t' as [w|c x|c x|xs ys i e|w x|w x|l x|m w x|l x|m w x]; try (injection H as <-; now apply DEF).
        injection H as <-. split; [apply good_constant|]. intros f s a b _ V W. injection V as <-. injection W as <-. reflexivity.
    + destruct t' as [w|d y|d y|xs ys i e|w y|w y|l y|m w y|l y|m w y]; try (injection H as <-; now apply DEF).
      * rewrite (zlen_not_nil c (good_not_nil _ _ G)) in H. injection H as <-. pose proof (good_not_nil _ _ G) as N.
        split; [eapply good_polynomial; eauto; now apply at_last_not_nil|]. intros f s a b _ V W. injection V as <-. injection W as <-.
        cbn [TermsSpec.value transform]. now rewrite at_last_add.
      * destruct (Bool.eqb x y) eqn:E; [|injection H as <-; now apply DEF]. apply eqb_prop in E as <-. injection H as <-.
        split; [eapply good_polynomial; eauto; apply poly2_not_nil; eapply good_not_nil; eauto|].
        intros f s a b _ V W. injection V as <-. injection W as <-. cbn [TermsSpec.value transform]. now rewrite poly2_add.
    + destruct (same_bands A (Bands xs ys i e) t') as [((((xs', ys1), ys2), i'), e')|] eqn:E; [|injection H as <-; now apply DEF].
      apply same_bands_ok in E as [E ->]. injection E as <- <- <- <-. injection H as <-. split; [now apply good_bands2|].
      intros f s a b _ V W. cbn [TermsSpec.value transform] in V, W |- *. destruct G as [[P _] _], G' as [[(_ & _ & L' & _) _] _]. apply bands_binary; auto. ring.
    + destruct l as [|t l].
      * injection H as <-. split; auto. intros f s a b _ V W. injection V as <-. rewrite W. f_equal. ring.
      * remember (t :: l) as tl eqn:Etl.
        assert (H' : (exists m, t' = Sum m x /\ u = Sum (tl ++ m) x) \/ (exists l', (if x then sequence (map (inv A n) tl) = Ok l' else l' = tl) /\ u = Sum (l' ++ [t']) false)).
        { subst tl. assert (H'' : bind (if x then sequence (map (inv A n) (t :: l)) else Ok (t :: l)) (fun l' => Ok (Sum (l' ++ [t']) false)) = Ok u ->
            exists l', (if x then sequence (map (inv A n) (t :: l)) = Ok l' else l' = t :: l) /\ u = Sum (l' ++ [t']) false).
          { clear H. intros H. apply bind_ok in H as (l' & Hl & H). injection H as <-. exists l'. destruct x; [auto|injection Hl as <-; auto]. }
          destruct t' as [w|d y|d y|xs ys i e|w y|w y|m y|m w y|m y|m w y]; try (right; apply H''; exact H).
          destruct (Bool.eqb x y) eqn:E; [|right; apply H''; exact H]. apply eqb_prop in E as <-. injection H as <-. left. eauto. }
        clear Etl H DEF. destruct H' as [(m & -> & ->)|(l' & Hl & ->)].
        { split; [eapply good_sum_x; eauto; apply Forall_app; split; eapply good_sum_inv; eauto|]. intros f s a b _ V W. rewrite value_sum in *.
          now apply vsum_app. }
        { assert (Q : Forall good l' /\ forall f s a, nz s -> vsum A f (var A x s) tl = Some a -> vsum A f s l' = Some a).
          { pose proof (good_sum_inv _ _ G) as Gl. destruct x; [|subst; auto].
            assert (D0 : D = false) by (destruct D eqn:ED; auto; discriminate (okay_of _ G ED)).
            destruct (inv_list n tl l' IV D0 Gl Hl) as (Gl' & _ & V). split; auto. intros f s a S. now apply V. }
          destruct Q as [Gl' V]. split; [apply good_sum, Forall_app; auto|]. intros f s a b S W W'. rewrite value_sum in W |- *.
          apply vsum_app; [now auto|now auto|]. now apply vsum_one. }
    + assert (D0 : D = true) by (destruct D eqn:ED; auto; destruct G as [[_ N] _]; rewrite ED in N; destruct N).
      pose proof (okay_of _ G D0) as Ex. cbn in Ex. subst x. cbn [bind] in H. apply bind_ok in H as (m' & Hm & H). injection H as <-.
      destruct G as (G0 & Gm & Gw). destruct (IA m t' m' Gm G' Hm) as [Gm' V]. split; [split; [exact G0|now split]|].
      intros f s a b S W W'. cbn [TermsSpec.value transform] in W |- *. apply lift2_some in W as (p & q & Vp & Vq & ->).
      rewrite (V f s p b S Vp W'), Vq. cbn. f_equal. ring.
  - (* __mul__ *)
    intros t t' u G G' H.
    assert (DEF : u = Product [t; t'] false -> good u /\ forall f s a b, nz s -> value f s t = Some a -> value f s t' = Some b -> value f s u = Some (a [*] b)).
    { intros ->. split; [apply good_product; auto|]. intros f s a b _ V W. rewrite value_product by easy. now apply vprod_two. }
    destruct t as [v|c x|c x|xs ys i e|v x|v x|l x|m w x|l x|m w x]; cbn [mul] in H; try (injection H as <-; now apply DEF).
    + destruct (is_null A v) eqn:Z; [|destruct (o_eqb O v 1k) eqn:Z1; [|destruct (o_eqb O v ([-1] 1k)) eqn:Z2]].
      * injection H as <-. apply (is_null_eq A EA) in Z as ->. split; auto. intros f s a b _ V W. injection V as <-. cbn. f_equal. ring.
      * injection H as <-. apply (eqb_eq A EA) in Z1 as ->. split; auto. intros f s a b _ V W. injection V as <-. rewrite W. f_equal. ring.
      * apply (eqb_eq A EA) in Z2 as ->. destruct (IN _ _ G' H) as [Gu V']. split; auto. intros f s a b S V W. injection V as <-. rewrite (V' f s b S W). f_equal. ring.
      * destruct t' as [w|c x|c x|xs ys i e|w x|w x|l x|m w x|l x|m w x]; try (injection H as <-; now apply DEF).
        injection H as <-. split; [apply good_constant|]. intros f s a b _ V W. injection V as <-. injection W as <-. reflexivity.
    + destruct t' as [w|d y|d y|xs ys i e|w y|w y|l y|m w y|l y|m w y]; try (injection H as <-; now apply DEF).
      injection H as <-. pose proof (good_not_nil _ _ G) as N. split; [eapply good_polynomial; eauto; now destruct c|].
      intros f s a b _ V W. injection V as <-. injection W as <-. cbn [TermsSpec.value transform]. now rewrite polynomial_scale.
    + destruct (same_bands A (Bands xs ys i e) t') as [((((xs', ys1), ys2), i'), e')|] eqn:E; [|injection H as <-; now apply DEF].
      apply same_bands_ok in E as [E ->]. injection E as <- <- <- <-. injection H as <-. split; [now apply good_bands2|].
      intros f s a b _ V W. cbn [TermsSpec.value transform] in V, W |- *. destruct G as [[P _] _], G' as [[(_ & _ & L' & _) _] _]. apply bands_binary; auto. ring.
    + clear DEF. destruct (zlen l =? 0) eqn:Z.
      { injection H as <-. apply zlen_zero in Z as ->. split; [apply good_constant|]. intros f s a b _ V W. injection V as <-. cbn. f_equal. ring. }
      cbn [orb] in H. destruct (is_zero A t') eqn:Z'.
      { injection H as <-. split; [apply good_constant|]. intros f s a b _ V W. rewrite (is_zero_sound A EA f t' s b (good_proper _ G') Z' W). cbn. f_equal. ring. }
      assert (NE : l <> []) by (intros ->; discriminate).
      pose proof (good_product_inv _ _ G) as Gl.
      assert (H' : (exists m y m', t' = Product m y /\ (if Bool.eqb x y then m' = m else sequence (map (inv A n) m) = Ok m') /\ u = Product (l ++ m') x) \/
                   (exists l', (if x then sequence (map (inv A n) l) = Ok l' else l' = l) /\ u = Product (l' ++ [t']) false)).
      { assert (H'' : bind (if x then sequence (map (inv A n) l) else Ok l) (fun l' => Ok (Product (l' ++ [t']) false)) = Ok u ->
            exists l', (if x then sequence (map (inv A n) l) = Ok l' else l' = l) /\ u = Product (l' ++ [t']) false).
        { clear H. intros H. apply bind_ok in H as (l' & Hl & H). injection H as <-. exists l'. destruct x; [auto|injection Hl as <-; auto]. }
        destruct t' as [w|d y|d y|xs ys i e|w y|w y|m y|m w y|m y|m w y]; try (right; apply H''; exact H).
        left. exists m, y. destruct (Bool.eqb x y) eqn:E; [injection H as <-; eauto|]. apply bind_ok in H as (m' & Hm & H). injection H as <-. eauto. }
      clear H. destruct H' as [(m & y & m' & -> & Hm & ->)|(l' & Hl & ->)].
      { assert (NE' : m <> []) by (intros ->; discriminate).
        assert (Q : Forall good m' /\ forall f s a, nz s -> vprod A f (var A y s) m = Some a -> vprod A f (var A x s) m' = Some a).
        { pose proof (good_product_inv _ _ G') as Gm. destruct (Bool.eqb x y) eqn:E; [apply eqb_prop in E as <-; subst; auto|].
          assert (D0 : D = false) by (destruct D eqn:ED; auto; pose proof (okay_of _ G ED); pose proof (okay_of _ G' ED); cbn in *; subst; discriminate).
          destruct (inv_list n m m' IV D0 Gm Hm) as (Gm' & _ & V). split; auto. intros f s a S. specialize (V f (var A x s) a (fun _ => var_neq A EA x s (S D0))).
          replace (inverse A (var A x s)) with (var A y s) in V; [now apply V|]. destruct x, y; try discriminate; cbn; auto. symmetry. now apply (inverse_inverse A EA); auto. }
        destruct Q as [Gm' V]. split; [eapply good_product_x; eauto; apply Forall_app; auto|]. intros f s a b S W W'.
        rewrite value_product in W, W' by auto. rewrite value_product by (intros Q; now apply app_eq_nil in Q as [? _]).
        apply (vprod_app A EA); [exact W|]. now apply V. }
      { assert (Q : Forall good l' /\ forall f s a, nz s -> vprod A f (var A x s) l = Some a -> vprod A f s l' = Some a).
        { destruct x; [|subst; auto].
          assert (D0 : D = false) by (destruct D eqn:ED; auto; discriminate (okay_of _ G ED)).
          destruct (inv_list n l l' IV D0 Gl Hl) as (Gl' & _ & V). split; auto. intros f s a S. now apply V. }
        destruct Q as [Gl' V]. split; [apply good_product, Forall_app; auto|]. intros f s a b S W W'. rewrite value_product in W by auto.
        rewrite value_product by (intros Q; now apply app_eq_nil in Q as [_ ?]). apply (vprod_app A EA); [apply V; auto|]. now apply vprod_one. }
Qed.

Lemma inv_is n : inv_fun (inv A n). Proof. apply operators_ok. Qed.
Lemma neg_is n : neg_fun (neg A n). Proof. apply operators_ok. Qed.
Lemma add_is n : add_fun (add A n). Proof. apply operators_ok. Qed.
Lemma mul_is n : mul_fun (mul A n). Proof. apply operators_ok. Qed.

Lemma invert_transform_is : inv_fun (invert_transform A).
Proof. intros D0 t u. now apply inv_is. Qed.

Lemma negate_is : neg_fun (negate A).
Proof. intros t u. apply neg_is. Qed.

Lemma plus_is : add_fun (plus A).
Proof. intros t t' u. apply add_is. Qed.

Lemma times_is : mul_fun (times A).
Proof. intros t t' u. apply mul_is. Qed.

Lemma good_difference a b : D = true -> good a -> good b -> good (Difference a b false).
Proof. intros E H M. split; [split; [exact I|rewrite E; reflexivity]|now split]. Qed.

Lemma sub_is n t t' u : good t -> good t' -> sub A n t t' = Ok u ->
  (D = true -> good u) /\ forall f s a b, nz s -> value f s t = Some a -> value f s t' = Some b -> value f s u = Some (a [-] b).
Proof.
  intros G G' H.
  assert (DEF : u = Difference t t' false -> (D = true -> good u) /\ forall f s a b, nz s -> value f s t = Some a -> value f s t' = Some b -> value f s u = Some (a [-] b)).
  { intros ->. split; [intros D1; now apply good_difference|]. intros f s a b _ V W. cbn [TermsSpec.value transform]. now rewrite V, W. }
  destruct t as [v|c x|c x|xs ys i e|v x|v x|l x|m w x|l x|m w x]; cbn [sub] in H; try (injection H as <-; now apply DEF).
  - destruct (is_null A v) eqn:Z.
    + apply (is_null_eq A EA) in Z as ->. destruct (neg_is n t' u G' H) as [Gu V']. split; auto.
      intros f s a b S V W. injection V as <-. rewrite (V' f s b S W). f_equal. ring.
    + destruct t' as [w|c x|c x|xs ys i e|w x|w x|l x|m w x|l x|m w x]; try (injection H as <-; now apply DEF).
      injection H as <-. split; [intros; apply good_constant|]. intros f s a b _ V W. injection V as <-. injection W as <-. reflexivity.
  - destruct t' as [w|d y|d y|xs ys i e|w y|w y|l y|m w y|l y|m w y]; try (injection H as <-; now apply DEF).
    + rewrite (zlen_not_nil c (good_not_nil _ _ G)) in H. injection H as <-. pose proof (good_not_nil _ _ G) as N.
      split; [intros _; eapply good_polynomial; eauto; now apply at_last_not_nil|]. intros f s a b _ V W. injection V as <-. injection W as <-.
      cbn [TermsSpec.value transform]. now rewrite at_last_sub.
    + destruct (Bool.eqb x y) eqn:E; [|injection H as <-; now apply DEF]. apply eqb_prop in E as <-. injection H as <-.
      split; [intros _; eapply good_polynomial; eauto; apply poly2_not_nil; eapply good_not_nil; eauto|].
      intros f s a b _ V W. injection V as <-. injection W as <-. cbn [TermsSpec.value transform]. now rewrite poly2_sub.
  - destruct (same_bands A (Bands xs ys i e) t') as [((((xs', ys1), ys2), i'), e')|] eqn:E; [|injection H as <-; now apply DEF].
    apply same_bands_ok in E as [E ->]. injection E as <- <- <- <-. injection H as <-. split; [intros _; now apply good_bands2|].
    intros f s a b _ V W. cbn [TermsSpec.value transform] in V, W |- *. destruct G as [[P _] _], G' as [[(_ & _ & L' & _) _] _]. apply bands_binary; auto. ring.
  - assert (D0 : D = true) by (destruct D eqn:ED; auto; destruct G as [[_ N] _]; rewrite ED in N; destruct N).
    pose proof (okay_of _ G D0) as Ex. cbn in Ex. subst x. cbn [bind] in H. apply bind_ok in H as (m' & Hm & H). injection H as <-.
    destruct G as (G0 & Gm & Gw). destruct (add_is n w t' m' Gw G' Hm) as [Gm' V]. split; [split; [exact G0|now split]|].
    intros f s a b S W W'. cbn [TermsSpec.value transform] in W |- *. apply lift2_some in W as (p & q & Vp & Vq & ->).
    rewrite (V f s q b S Vq W'), Vp. cbn. f_equal. ring.
Qed.

Lemma existsb_null_zth ys k y : existsb (is_null A) ys = false -> zth ys k = Some y -> y <> 0k.
Proof.
  intros H Z ->. apply zth_In in Z. enough (existsb (is_null A) ys = true) by congruence. apply existsb_exists. exists 0k. split; auto. now apply (is_null_eq A EA).
Qed.

Lemma div_is t t' u : good t -> good t' -> div A t t' = Ok u ->
  good u /\ forall f s a b, value f s t = Some a -> value f s t' = Some b -> b <> 0k -> value f s u = Some (a [/] b).
Proof.
  intros G G' H.
  assert (DEF : u = Quotient t t' false -> good u /\ forall f s a b, value f s t = Some a -> value f s t' = Some b -> b <> 0k -> value f s u = Some (a [/] b)).
  { intros ->. split; [now apply good_quotient|]. intros f s a b V W N. cbn [TermsSpec.value transform]. rewrite V, W. now apply (quotient_ok A EA). }
  destruct t as [v|c x|c x|xs ys i e|v x|v x|l x|m w x|l x|m w x]; cbn [div] in H; try (injection H as <-; now apply DEF).
  - destruct (is_null A v) eqn:Z.
    + injection H as <-. apply (is_null_eq A EA) in Z as ->. split; auto. intros f s a b V W N. injection V as <-. cbn. f_equal. field. auto.
    + destruct t' as [w|c x|c x|xs ys i e|w x|w x|l x|m w x|l x|m w x]; try (injection H as <-; now apply DEF).
      destruct (is_null A w) eqn:Zw; [discriminate|]. injection H as <-. split; [apply good_constant|]. intros f s a b V W N. injection V as <-. injection W as <-. reflexivity.
  - destruct t' as [w|d y|d y|xs ys i e|w y|w y|l y|m w y|l y|m w y]; try (injection H as <-; now apply DEF).
    destruct (is_null A w) eqn:Zw; [discriminate|]. injection H as <-. pose proof (good_not_nil _ _ G) as N. split; [eapply good_polynomial; eauto; now destruct c|].
    intros f s a b V W Nb. injection V as <-. injection W as <-. cbn [TermsSpec.value transform]. now rewrite polynomial_unscale.
  - destruct t' as [w|d y|d y|xs' ys' i' e'|w y|w y|l y|m w y|l y|m w y]; try (injection H as <-; now apply DEF).
    destruct (same_bands A (Bands xs ys i e) (Bands xs' ys' i' e')) as [((((xs'', ys1), ys2), i''), e'')|] eqn:E; [|injection H as <-; now apply DEF].
    apply same_bands_ok in E as [E E']. injection E as <- <- <- <-. injection E' as -> -> -> ->. destruct (existsb (is_null A) ys2) eqn:Z; [discriminate|]. injection H as <-.
    split; [now apply good_bands2|]. intros f s a b V W N. cbn [TermsSpec.value transform] in V, W |- *.
    destruct G as [[P _] _], G' as [[(_ & _ & L' & _) _] _]. destruct P as (NE & ND & L & PI & PE).
    destruct (bands_cases A EA f xs i e NE PI PE) as [B|(k & K0 & B)].
    + exfalso. rewrite B in W by auto. congruence.
    + rewrite B in V, W |- *; rewrite ?zlen_map2; auto; try lia. now rewrite zth_map2, V, W.
Qed.

Lemma exp_not_zero x : k_exp A x <> 0k.
Proof. intros H. apply (one_neq_zero A EA). rewrite <- (exact_exp_neg A EA x), H. ring. Qed.

Lemma product_not_zero x y : x [*] y <> 0k -> x <> 0k /\ y <> 0k.
Proof. intros H. split; intros ->; apply H; ring. Qed.

Lemma invert_is t u : good t -> invert A t = Ok u ->
  good u /\ forall f s a, value f s t = Some a -> a <> 0k -> value f s u = Some (1k [/] a).
Proof.
  intros G H.
  assert (DEF : u = Quotient (Constant 1k) t false -> good u /\ forall f s a, value f s t = Some a -> a <> 0k -> value f s u = Some (1k [/] a)).
  { intros ->. split; [apply good_quotient; auto; apply good_constant|]. intros f s a V N. cbn [TermsSpec.value transform]. rewrite V. now apply (quotient_ok A EA). }
  destruct t as [v|c x|c x|xs ys i e|v x|v x|l x|m w x|l x|m w x]; cbn [invert] in H; try (injection H as <-; now apply DEF).
  - destruct (is_null A v) eqn:Z; [discriminate|]. injection H as <-. split; [apply good_constant|]. intros f s a V N. injection V as <-. reflexivity.
  - injection H as <-. split; [exact G|]. intros f s a V N. injection V as <-. cbn [TermsSpec.value transform]. f_equal.
    set (y := if x then inverse A s else s) in *. pose proof (exact_exp_neg A EA (c [*] y)) as E. replace ([-1] c [*] y) with ([-1] (c [*] y)) by ring.
    rewrite <- E. field. auto.
  - destruct (existsb (is_null A) ys) eqn:Z; [discriminate|]. injection H as <-. split; [eapply good_bands; eauto; apply zlen_map|].
    intros f s a V N. cbn [TermsSpec.value transform] in V |- *. destruct G as [[(NE & ND & L & PI & PE) _] _].
    destruct (bands_cases A EA f xs i e NE PI PE) as [B|(k & K0 & B)].
    + exfalso. rewrite B in V by auto. congruence.
    + rewrite B in V |- *; rewrite ?zlen_map; auto. now rewrite zth_map, V.
  - injection H as <-. destruct G as (G0 & Gm & Gw). split; [split; [exact G0|now split]|]. intros f s a V N. cbn [TermsSpec.value transform] in V |- *.
    apply (quotient_some A EA) in V as (b & c & B & C & Nc & ->). rewrite B, C.
    assert (Nb : b <> 0k) by (intros ->; apply N; field; auto). rewrite (quotient_ok A EA) by auto. f_equal. field. auto.
Qed.

End Class.

End Operators.
