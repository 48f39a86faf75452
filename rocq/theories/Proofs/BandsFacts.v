(** Sums and differences of bands with linear interpolations *)

From Coq Require Import String ZArith List Bool Lia Field_theory Ring Reals Lra.
From Verif.Model Require Import Py Functions Signal Terms Filter Interpolation.
From Verif.Spec Require Import TermsSpec FilterSpec InterpolationSpec ComplexSpec.
From Verif.Proofs Require Import PyFacts TermFacts FilterFacts FilterResults InterpolationFacts ComplexFacts.
Import ListNotations.
Open Scope Z_scope.

Section Linear.
Context {K X : Type}.
Variable N : axes K X.
Notation O := (a_ops N).
Notation "0k" := (o_zero O).
Notation "1k" := (o_one O).
Infix "[+]" := (o_add O) (at level 50, left associativity).
Infix "[-]" := (o_sub O) (at level 50, left associativity).
Infix "[*]" := (o_mul O) (at level 40, left associativity).
Infix "[/]" := (o_div O) (at level 40, left associativity).
Hypothesis FF : field_theory 0k 1k (o_add O) (o_mul O) (o_sub O) (o_neg O) (o_div O) (o_div O 1k) eq.
Add Field KF3 : FF.

Lemma div_mul x y : x [/] y = x [*] (1k [/] y).
Proof. exact (Fdiv_def FF x y). Qed.

Ltac divs := repeat match goal with |- context [o_div O ?a ?d] => lazymatch a with o_one O => fail | _ => rewrite (div_mul a d) end end.

(** The operation on two values, that is computed from the values by a linear combination *)
Variables p q : K.
Definition comb (a b : K) : K := p [*] a [+] q [*] b.
Notation both := (lift2 comb).

Lemma same_length (xs : list X) (ys : list K) : zlen ys = zlen xs -> List.length ys = List.length xs.
Proof. unfold zlen. lia. Qed.

Lemma np_interp_linear x : forall xs ys ys', zlen ys = zlen xs -> zlen ys' = zlen xs ->
  np_interp N x xs (map2 comb ys ys') = both (np_interp N x xs ys) (np_interp N x xs ys').
Proof.
  induction xs as [|x0 [|x1 xs] IH]; intros ys ys' L L'.
  - destruct ys; [|rewrite zlen_cons in L; pose proof (zlen_nonneg ys); change (zlen []) with 0 in *; lia]. reflexivity.
  - pose proof (same_length _ _ L) as M. pose proof (same_length _ _ L') as M'. destruct ys as [|y [|y2 ys]], ys' as [|y' [|y2' ys']]; try discriminate; reflexivity.
  - destruct ys as [|y [|y2 ys]], ys' as [|y' [|y2' ys']]; try reflexivity;
      rewrite ?zlen_cons in L; rewrite ?zlen_cons in L'; try (pose proof (zlen_nonneg xs); change (zlen []) with 0 in *; lia).
    change (map2 comb (y :: y2 :: ys) (y' :: y2' :: ys')) with (comb y y' :: comb y2 y2' :: map2 comb ys ys').
    cbn [np_interp]. destruct (a_ltb N x x0); [reflexivity|]. destruct (a_ltb N x x1) eqn:B.
    + cbn [lift2]. f_equal. unfold comb. divs. ring.
    + specialize (IH (y2 :: ys) (y2' :: ys')). cbn [np_interp map2] in IH. rewrite B in IH. apply IH; rewrite !zlen_cons; lia.
Qed.

Lemma map2_length {Y W V} (f : Y -> W -> V) l m : List.length l = List.length m -> List.length (map2 f l m) = List.length l.
Proof. revert m. induction l as [|x l IH]; intros [|y m] H; try discriminate; [reflexivity|]. cbn. injection H as H. now rewrite IH. Qed.

Lemma map2_app {Y W V} (f : Y -> W -> V) l m l' m' : List.length l = List.length m -> map2 f (l ++ l') (m ++ m') = map2 f l m ++ map2 f l' m'.
Proof. revert m. induction l as [|x l IH]; intros [|y m] H; try discriminate; [reflexivity|]. cbn. injection H as H. now rewrite IH. Qed.

Lemma rev_map2 {Y W V} (f : Y -> W -> V) l m : List.length l = List.length m -> rev (map2 f l m) = map2 f (rev l) (rev m).
Proof.
  revert m. induction l as [|x l IH]; intros [|y m] H; try discriminate; [reflexivity|]. injection H as H. cbn [map2 rev].
  rewrite map2_app by (now rewrite !rev_length). now rewrite IH.
Qed.

Lemma line_linear xa ya ya' xb yb yb' x' y y' x :
  line N xa (comb ya ya') xb (comb yb yb') x' (comb y y') x = comb (line N xa ya xb yb x' y x) (line N xa ya' xb yb' x' y' x).
Proof. unfold line, comb. divs. ring. Qed.

Lemma linear_linear x xs ys ys' : zlen ys = zlen xs -> zlen ys' = zlen xs ->
  linear_ N x xs (map2 comb ys ys') = both (linear_ N x xs ys) (linear_ N x xs ys').
Proof.
  intros L L'. unfold linear_. destruct xs as [|x0 [|x1 xs]].
  - reflexivity.
  - pose proof (same_length _ _ L) as M. pose proof (same_length _ _ L') as M'. destruct ys as [|y ys], ys' as [|y' ys']; try discriminate; reflexivity.
  - pose proof (same_length _ _ L) as M. pose proof (same_length _ _ L') as M'.
    destruct ys as [|y [|y2 ys]], ys' as [|y' [|y2' ys']]; try discriminate.
    change (map2 comb (y :: y2 :: ys) (y' :: y2' :: ys')) with (comb y y' :: comb y2 y2' :: map2 comb ys ys').
    destruct (a_ltb N x x0); [cbn [lift2]; f_equal; apply line_linear|].
    change (comb y y' :: comb y2 y2' :: map2 comb ys ys') with (map2 comb (y :: y2 :: ys) (y' :: y2' :: ys')).
    rewrite rev_map2 by congruence. rewrite np_interp_linear by auto. clear L L'.
    assert (R : List.length (rev (y :: y2 :: ys)) = List.length (rev (x0 :: x1 :: xs))) by (now rewrite !rev_length).
    assert (R' : List.length (rev (y' :: y2' :: ys')) = List.length (rev (x0 :: x1 :: xs))) by (now rewrite !rev_length).
    revert R R'. generalize (rev (y :: y2 :: ys)), (rev (y' :: y2' :: ys')), (rev (x0 :: x1 :: xs)). intros [|a [|b l]] [|a' [|b' l']] [|u [|v w]] R R'; try discriminate; try reflexivity.
    cbn [map2]. destruct (a_ltb N u x); [|reflexivity]. cbn [lift2]. f_equal. apply line_linear.
Qed.

Lemma at_support_linear x xs : forall ys ys', zlen ys = zlen xs -> zlen ys' = zlen xs ->
  at_support N x xs (map2 comb ys ys') = both (at_support N x xs ys) (at_support N x xs ys').
Proof.
  induction xs as [|x0 xs IH]; intros ys ys' L L'; pose proof (same_length _ _ L) as M; pose proof (same_length _ _ L') as M'; destruct ys, ys'; try discriminate; [reflexivity|].
  cbn [at_support map2]. destruct (a_eqb N x0 x); [reflexivity|]. rewrite !zlen_cons in *. apply IH; lia.
Qed.

Lemma stairs_lin_linear x xs ys ys' : zlen ys = zlen xs -> zlen ys' = zlen xs ->
  stairs_lin_ N x xs (map2 comb ys ys') = both (stairs_lin_ N x xs ys) (stairs_lin_ N x xs ys').
Proof.
  intros L L'. unfold stairs_lin_. rewrite zlen_map2, L, L', Z.min_id. destruct (zth xs (Z.max _ 0)); [|reflexivity]. destruct (zth xs _); [|reflexivity].
  rewrite zth_map2. reflexivity.
Qed.

Lemma interpolate_linear i x xs ys ys' : additive i -> zlen ys = zlen xs -> zlen ys' = zlen xs ->
  interpolate_ N i x xs (map2 comb ys ys') = both (interpolate_ N i x xs ys) (interpolate_ N i x xs ys').
Proof.
  intros P L L'. unfold interpolate_, interpolation_. destruct (existsb _ xs); [now apply at_support_linear|].
  destruct P as [->|[->|[->|[->| ->]]]]; cbn [interpolation_function].
  - cbn [lift2]. f_equal. unfold comb. ring.
  - now apply linear_linear.
  - apply linear_linear; now rewrite zlen_map.
  - now apply stairs_lin_linear.
  - unfold stairs_log_. destruct xs as [|x0 xt]; [reflexivity|]. destruct (a_ltb N x _); [now apply at_support_linear|].
    destruct (a_ltb N _ x); [now apply at_support_linear|]. apply stairs_lin_linear; now rewrite zlen_map.
Qed.

End Linear.

Section ComplexBands.
Variables power modulo : C -> C -> C.
Variables log2_c exp2_c : C -> C.
Notation A := (complex_arithmetic power modulo log2_c exp2_c).
Notation N := (real_axes (complex_ops power modulo) C_of_R log2_c exp2_c).
Variable junk : C.

Lemma complex_contains : contains_reals (complex_ops power modulo) C_of_R.
Proof.
  constructor.
  - apply complex_field.
  - intros x y. apply C_ext; cbn; ring.
  - intros x y H. apply C_ext; cbn; unfold norm2; cbn; field; auto.
  - reflexivity.
  - intros x y H. now injection H.
Qed.

Lemma array_equal_refl xs : array_equal (x_eqb A) xs xs = true.
Proof.
  unfold array_equal. rewrite Z.eqb_refl. cbn [andb]. apply forallb_forall. intros [a b] I. cbn. apply R_eqb_eq.
  induction xs as [|x xs IH]; [destruct I|]. destruct I as [I|I]; [congruence|auto].
Qed.
Lemma interpolation_eqb_refl i : interpolation_eqb i i = true.
Proof. now destruct i. Qed.

Lemma map2_ext {Y W V} (f g : Y -> W -> V) l m : (forall x y, f x y = g x y) -> map2 f l m = map2 g l m.
Proof. intros H. revert m. induction l as [|x l IH]; intros [|y m]; cbn; auto. now rewrite H, IH. Qed.

Lemma evaluate_bands f xs ys i e : evaluate A junk (Bands xs ys i e) f = bands_at A f xs ys i e.
Proof. reflexivity. Qed.

Lemma bands_combine (op : C -> C -> C) (p q : C) i e xs ys ys' f : (forall a b, op a b = comb N p q a b) -> additive i -> additive e ->
  zlen ys = zlen xs -> zlen ys' = zlen xs ->
  bands_at A f xs (map2 op ys ys') i e = lift2 op (bands_at A f xs ys i e) (bands_at A f xs ys' i e).
Proof.
  intros E I J L L'. rewrite (map2_ext _ _ _ _ E).
  assert (E' : forall x y, lift2 op x y = lift2 (comb N p q) x y) by (intros [x|] [y|]; cbn; auto; now rewrite E). rewrite E'.
  unfold bands_at. destruct xs as [|x0 xs].
  - cbn [lift2]. f_equal. apply C_ext; cbn; ring.
  - change (interpolate A) with (interpolate_ N). destruct (_ || _); apply interpolate_linear; auto; apply complex_field.
Qed.

Lemma bands_operators xs ys ys' i e : additive i -> additive e -> zlen ys = zlen xs -> zlen ys' = zlen xs ->
  exists s d n, plus A (Bands xs ys i e) (Bands xs ys' i e) = Ok s /\ minus A (Bands xs ys i e) (Bands xs ys' i e) = Ok d /\ negate A (Bands xs ys i e) = Ok n /\
    forall f, evaluate A junk s f = lift2 Cadd (evaluate A junk (Bands xs ys i e) f) (evaluate A junk (Bands xs ys' i e) f) /\
      evaluate A junk d f = lift2 Csub (evaluate A junk (Bands xs ys i e) f) (evaluate A junk (Bands xs ys' i e) f) /\
      evaluate A junk n f = lift Cneg (evaluate A junk (Bands xs ys i e) f).
Proof.
  intros I J L L'. exists (Bands xs (map2 Cadd ys ys') i e), (Bands xs (map2 Csub ys ys') i e), (Bands xs (map Cneg ys) i e).
  assert (SB : same_bands A (Bands xs ys i e) (Bands xs ys' i e) = Some (xs, ys, ys', i, e)).
  { cbn [same_bands]. now rewrite array_equal_refl, !interpolation_eqb_refl. }
  split; [unfold plus; cbn [weight Nat.add add]; now rewrite SB|]. split; [unfold minus, sub; now rewrite SB|].
  split; [unfold negate; cbn [weight neg]; destruct I as [->|[->|[->|[->| ->]]]], J as [->|[->|[->|[->| ->]]]]; reflexivity|].
  intros f. rewrite !evaluate_bands. split; [|split].
  - apply (bands_combine Cadd (1, 0)%R (1, 0)%R); auto. intros a b. apply C_ext; cbn; ring.
  - apply (bands_combine Csub (1, 0)%R (-1, 0)%R); auto. intros a b. apply C_ext; cbn; ring.
  - replace (map Cneg ys) with (map2 (fun a _ => Cneg a) ys ys) by (clear; induction ys; cbn; congruence).
    rewrite (bands_combine (fun a _ => Cneg a) (-1, 0)%R (0, 0)%R); auto; [|intros a b; apply C_ext; cbn; ring].
    now destruct (bands_at A f xs ys i e).
Qed.

(** ** Products of bands with linear interpolation and sums of bands, that are 1 between the supporting points *)

Lemma linear_middle (a b : C) : interpolate_ N Linear 2%R [1; 3]%R [a; b] = Some (Cadd a (Cmul (C_of_R (1 / 2)) (Csub b a))).
Proof.
  rewrite (interpolate_linear_y (complex_ops power modulo) C_of_R log2_c exp2_c complex_contains Linear Lin [1; 3]%R [a; b] 0 1%R 2%R 3%R a b); try reflexivity.
  - unfold mix, progress. cbn [scaled]. replace ((2 - 1) / (3 - 1))%R with (1 / 2)%R by field. reflexivity.
  - now left.
  - show_increasing.
  - repeat split. left. lra.
Qed.

Lemma linear_product_wrong :
  let t := Bands [1; 3]%R [C_of_R 1; C_of_R 3] Linear Linear in
  exists u, times A t t = Ok u /\ evaluate A junk t 2%R = Some (C_of_R 2) /\ evaluate A junk u 2%R = Some (C_of_R 5).
Proof.
  intros t. exists (Bands [1; 3]%R (map2 Cmul [C_of_R 1; C_of_R 3] [C_of_R 1; C_of_R 3]) Linear Linear).
  split.
  { unfold times, t. cbn [weight Nat.add mul same_bands]. now rewrite array_equal_refl, !interpolation_eqb_refl. }
  unfold t. rewrite !evaluate_bands. unfold bands_at. cbn [last]. change (x_ltb A) with R_ltb. unfold R_ltb.
  destruct (Rlt_dec 2 1); [lra|]. destruct (Rlt_dec 3 2); [lra|]. cbn [orb]. change (interpolate A) with (interpolate_ N). cbn [map2]. rewrite !linear_middle.
  split; f_equal; apply C_ext; cbn; field.
Qed.

Lemma ones_sum_wrong :
  let t := Bands [1; 3]%R [C_of_R 1; C_of_R 3] One One in
  exists u, plus A t t = Ok u /\ evaluate A junk t 2%R = Some (C_of_R 1) /\ evaluate A junk u 2%R = Some (C_of_R 1).
Proof.
  intros t. exists (Bands [1; 3]%R (map2 Cadd [C_of_R 1; C_of_R 3] [C_of_R 1; C_of_R 3]) One One). split.
  { unfold plus, t. cbn [weight Nat.add add same_bands]. now rewrite array_equal_refl, !interpolation_eqb_refl. }
  unfold t. rewrite !evaluate_bands. unfold bands_at. cbn [last]. change (x_ltb A) with R_ltb. unfold R_ltb.
  destruct (Rlt_dec 2 1); [lra|]. destruct (Rlt_dec 3 2); [lra|]. cbn [orb]. change (interpolate A) with (interpolate_ N).
  unfold interpolate_, interpolation_. cbn [existsb]. change (a_eqb N) with R_eqb. unfold R_eqb. destruct (Req_EM_T 1 2); [lra|]. destruct (Req_EM_T 3 2); [lra|].
  cbn [orb]. split; reflexivity.
Qed.

End ComplexBands.
