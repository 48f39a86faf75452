(** What the bands filter does at its supporting points, conversions to decibels, and the cases, in which files cannot be read. *)

From Coq Require Import String ZArith List Bool Lia Permutation Sorted ZifyBool Reals Lra.
From Verif.Model Require Import Py Functions Signal Terms Filter Interpolation Bands.
From Verif.Model Require Pcm.
From Verif.Spec Require RealSpec.
From Verif.Spec Require Import InterpolationSpec ComplexSpec BandsSpec.
From Verif.Proofs Require FilterFacts.
From Verif.Proofs Require Import PyFacts SignalHelpers SignalAlgebra TableFacts LevelFacts InterpolationFacts BandsClass BandsTables BandsFiles.
Import ListNotations.
Open Scope Z_scope.

(** ** Construction *)

Lemma term_permutation {K X} (A : arithmetic K X) (d e : list (X * K)) i x : ordered A -> dictionary d -> Permutation d e -> bands_term A d i x = bands_term A e i x.
Proof.
  intros OA D P. pose proof (dictionary_perm d e P D) as E.
  destruct (bands_term_ok A OA d i x D) as (t & -> & S). destruct (bands_term_ok A OA e i x E) as (u & -> & (xs & ys & -> & H & L & I)).
  f_equal. apply (supported_unique A OA d i (extrapolated x)); auto. exists xs, ys. split; auto. split; auto. split; auto.
  intros a b. rewrite I. split; apply Permutation_in; auto using Permutation_sym.
Qed.

Lemma insertion_order {K X} (A : arithmetic K X) b b' i e labels : ordered A -> Forall2 (fun d d' => dictionary d /\ Permutation d d') b b' ->
  match mk_bands A b i e labels, mk_bands A b' i e labels with
  | Ok B, Ok B' => b_filter B = b_filter B' /\ b_interpolations B = b_interpolations B' /\ b_extrapolations B = b_extrapolations B'
  | Err x, Err y => x = y
  | _, _ => False
  end.
Proof.
  intros OA H. assert (L : zlen b' = zlen b) by (induction H; rewrite ?zlen_cons; auto; lia). unfold mk_bands, dict. rewrite L.
  destruct (extended_flags i (zlen b)) as [il|]; cbn [bind]; auto. destruct (extended_flags e (zlen b)) as [el|]; cbn [bind]; auto.
  assert (E : forall cs, map2 (fun d ie => bands_term A d (fst ie) (snd ie)) b cs = map2 (fun d ie => bands_term A d (fst ie) (snd ie)) b' cs).
  { clear L. induction H as [|d d' b b' (D & P) H IH]; intros [|c cs]; cbn [map2]; auto. rewrite IH. f_equal. now apply term_permutation. }
  rewrite E. destruct (sequence _) as [tfs|]; cbn [bind]; auto.
Qed.

Lemma call_bands {K X} (A : arithmetic K X) junk f tfs : (forall t, In t tfs -> exists xs ys i e, t = Bands xs ys i e) ->
  call_channels A junk f tfs false = map (fun t => match t with Bands xs ys i e => bands_at A f xs ys i e | _ => None end) tfs.
Proof.
  induction tfs as [|t tfs IH]; intros H; cbn [call_channels map]; auto. destruct (H t (or_introl eq_refl)) as (xs & ys & i & e & ->).
  cbn [call transform xorb]. rewrite IH by (intros; apply H; now right). reflexivity.
Qed.

Lemma real_ascending {K} (A : arithmetic K R) xs : (forall x y, x_ltb A x y = R_ltb x y) -> ascending A xs -> increasing xs.
Proof.
  intros H S i j a b Ha Hb L. specialize (S i j a b Ha Hb L). rewrite H in S. unfold R_ltb in S. now destruct (Rlt_dec a b).
Qed.

Lemma made_channel {K X} (A : arithmetic K X) b i e labels B : made A b i e labels B -> forall t, In t (transfer_functions (b_filter B)) ->
  exists c d i' e', zth b c = Some d /\ zth (transfer_functions (b_filter B)) c = Some t /\ supported A d i' e' t.
Proof.
  intros (C & _ & _ & _ & _ & M) t Ht. apply In_nth_error in Ht. destruct Ht as (n & Hn).
  assert (Zt : zth (transfer_functions (b_filter B)) (Z.of_nat n) = Some t).
  { unfold zth. destruct (Z.ltb_spec (Z.of_nat n) 0); [lia|]. now rewrite Nat2Z.id. }
  destruct (zth_in b (Z.of_nat n)) as (d & Hd); [apply zth_range in Zt; unfold f_count in C; lia|].
  destruct (M _ _ Hd) as (ic & ec & t' & l & _ & _ & _ & Zt' & S & _). rewrite Zt in Zt'. injection Zt' as <-. eauto 10.
Qed.

(** ** Decibels *)

Definition mapped {K X} (g : K -> K) (b : list (list (X * K))) : list (list (X * K)) := map (map (fun '(f, y) => (f, g y))) b.

Lemma mapped_dictionary {K X} (g : K -> K) (b : list (list (X * K))) : Forall dictionary b -> Forall dictionary (mapped g b).
Proof.
  intros H. unfold mapped. rewrite Forall_map. eapply Forall_impl; [|exact H]. intros d. unfold dictionary. rewrite map_map.
  now replace (map (fun x => fst (let '(f, y) := x in (f, g y))) d) with (map fst d) by (apply map_ext; now intros []).
Qed.

Lemma mapped_twice {K X} (g h : K -> K) (b : list (list (X * K))) : (forall d x y, In d b -> In (x, y) d -> h (g y) = y) -> mapped h (mapped g b) = b.
Proof.
  intros H. unfold mapped. rewrite map_map. rewrite <- (map_id b) at 2. apply map_ext_in. intros d Hd. rewrite map_map. rewrite <- (map_id d) at 2.
  apply map_ext_in. intros [x y] Hy. now rewrite (H d x y).
Qed.

Definition terms_of {K X} (A : arithmetic K X) (b : list (list (X * K))) (cs : list (interpolation * interpolation)) : list (result (term K X)) :=
  map2 (fun d ie => bands_term A d (fst ie) (snd ie)) b cs.

Lemma map2_taken {T U W} (f : T -> U * U -> W) b : forall (il el : list U), zlen b <= zlen il -> zlen b <= zlen el ->
  map2 f b (combine il el) = map2 f b (combine (ztake (zlen b) il) (ztake (zlen b) el)).
Proof.
  induction b as [|d b IH]; intros il el Li Le; [reflexivity|]. rewrite zlen_cons in *. pose proof (zlen_nonneg b).
  destruct il as [|i il], el as [|e el]; rewrite ?zlen_cons, ?zlen_nil in *; try lia.
  unfold ztake in *. replace (Z.to_nat (1 + zlen b)) with (S (Z.to_nat (zlen b))) by lia. cbn [firstn combine map2]. f_equal. apply IH; lia.
Qed.

Lemma mk_bands_inv {K X} (A : arithmetic K X) b i e labels B : ordered A -> Forall dictionary b -> mk_bands A b i e labels = Ok B ->
  exists tfs il el ls, B = MkBands (Filter tfs ls) b il el /\ zlen il = zlen b /\ zlen el = zlen b /\ zlen ls = zlen b /\
    sequence (terms_of A b (combine il el)) = Ok tfs.
Proof.
  intros OA D E. unfold mk_bands, dict in E. pose proof (zlen_nonneg b) as N.
  assert (X1 : forall f il, extended_flags f (zlen b) = Ok il -> zlen b <= zlen il).
  { clear E. intros [j|l] il; cbn [extended_flags]; [intros [= <-]; rewrite zlen_repeat; lia|]. destruct (Z.ltb_spec (zlen l) (zlen b)); [|intros [= <-]; lia].
    destruct (rev l); [discriminate|]. intros [= <-]. rewrite zlen_app, zlen_repeat. lia. }
  destruct (extended_flags i (zlen b)) as [il|] eqn:Ei; [|discriminate]. cbn [bind] in E. destruct (extended_flags e (zlen b)) as [el|] eqn:Ee; [|discriminate]. cbn [bind] in E.
  specialize (X1 i il Ei) as Li. specialize (X1 e el Ee) as Le. clear X1.
  rewrite (map2_taken _ b il el Li Le) in E.
  change (map2 _ _ _) with (terms_of A b (combine (ztake (zlen b) il) (ztake (zlen b) el))) in E.
  destruct (sequence (terms_of A b (combine (ztake (zlen b) il) (ztake (zlen b) el)))) as [tfs|] eqn:Es; [|discriminate]. cbn [bind] in E.
  assert (Lt : zlen tfs = zlen b).
  { apply FilterFacts.sequence_zth in Es. destruct Es as (-> & _). unfold terms_of. rewrite zlen_map2.
    apply Z.min_l. unfold zlen at 2. rewrite combine_length, Nat2Z.inj_min. fold (zlen (ztake (zlen b) il)). fold (zlen (ztake (zlen b) el)). rewrite !zlen_take. lia. }
  assert (Sub : forall (l : list interpolation), zlen b <= zlen l -> subseq (between 0 (zlen b)) l = ztake (zlen b) l).
  { intros l Hln. unfold subseq. rewrite lower_between, upper_between by lia. unfold zdrop, ztake. rewrite Z.sub_0_r. reflexivity. }
  rewrite Lt, !Sub in E by auto. unfold mk_filter in E. rewrite Lt in E. injection E as <-.
  eexists tfs, _, _, _. split; [reflexivity|]. rewrite !zlen_take. split; [lia|]. split; [lia|]. split; [|exact Es]. apply sanitize_labels_ok. lia.
Qed.

Lemma mk_bands_exact {K X} (A : arithmetic K X) (b : list (list (X * K))) il el ls tfs : zlen il = zlen b -> zlen el = zlen b -> zlen ls = zlen b ->
  sequence (terms_of A b (combine il el)) = Ok tfs -> mk_bands A b (Flags il) (Flags el) ls = Ok (MkBands (Filter tfs ls) b il el).
Proof.
  intros Li Le Ll E. unfold mk_bands. cbn [extended_flags]. unfold dict. rewrite Li, Le, Z.ltb_irrefl. cbn [bind]. change (map2 _ _ _) with (terms_of A b (combine il el)). rewrite E. cbn [bind].
  assert (Lt : zlen tfs = zlen b).
  { apply FilterFacts.sequence_zth in E. destruct E as (-> & _). unfold terms_of. rewrite zlen_map2.
    apply Z.min_l. unfold zlen in *. rewrite combine_length. lia. }
  assert (Sub : forall (l : list interpolation), zlen l = zlen b -> subseq (between 0 (zlen b)) l = l).
  { intros l Hln. unfold subseq. pose proof (zlen_nonneg b). rewrite lower_between, upper_between by lia. unfold zdrop, ztake. rewrite Z.sub_0_r, <- Hln. unfold zlen. rewrite Nat2Z.id. cbn [skipn Z.to_nat]. apply firstn_all. }
  unfold extended_labels. rewrite Ll, Z.ltb_irrefl. rewrite Lt, !Sub by auto. unfold mk_filter. rewrite Lt. unfold sanitize_labels. rewrite Ll, Z.ltb_irrefl. reflexivity.
Qed.

(** Every bands filter can also be made with sequences of flags and labels for all channels. *)
Lemma mk_bands_again {K X} (A : arithmetic K X) b i e labels B : ordered A -> Forall dictionary b -> mk_bands A b i e labels = Ok B ->
  exists il el ls, mk_bands A b (Flags il) (Flags el) ls = Ok B /\ made A b (Flags il) (Flags el) ls B.
Proof.
  intros OA D E. destruct (mk_bands_inv A b i e labels B OA D E) as (tfs & il & el & ls & -> & Li & Le & Ll & Es). exists il, el, ls.
  destruct (mk_bands_ok A OA b (Flags il) (Flags el) ls) as (B2 & EB2 & M2); auto.
  { destruct (Z.eq_dec (zlen b) 0) as [Z|Z]; [left; lia|right]. cbn. split; intros ->; change (zlen (@nil interpolation)) with 0 in *; lia. }
  rewrite (mk_bands_exact A b il el ls tfs) in EB2 |- * by auto. injection EB2 as <-. auto.
Qed.

Lemma value_at_support K (A : arithmetic K R) log2_k exp2_k of_real b i e labels junk B c d x y :
  ordered A -> (forall x y, x_ltb A x y = R_ltb x y) -> (forall i, interpolate A i = interpolate_ (real_axes (k_ops A) of_real log2_k exp2_k) i) ->
  Forall dictionary b -> mk_bands A b i e labels = Ok B ->
  zth b c = Some d -> In (x, y) d -> zth (filter_call A junk (b_filter B) x) c = Some (Some y).
Proof.
  intros OA Hlt HI D E Hd Hxy.
  destruct (mk_bands_again A b i e labels B OA D E) as (il & el & ls & _ & M).
  pose proof (made_channel A b (Flags il) (Flags el) ls B M) as Mc. destruct M as (C & _ & _ & _ & _ & M).
  destruct (M c d Hd) as (ic & ec & t & l & _ & _ & _ & Zt & (xs & ys & -> & S & L & P) & _).
  unfold filter_call. rewrite call_bands.
  2:{ intros t Ht. destruct (Mc t Ht) as (c' & d' & i' & e' & _ & _ & xs' & ys' & -> & _). eauto. }
  rewrite zth_map, Zt. cbn [option_map]. f_equal.
  apply P in Hxy. apply In_nth_error in Hxy. destruct Hxy as (n & Hn).
  assert (Hx : zth xs (Z.of_nat n) = Some x /\ zth ys (Z.of_nat n) = Some y).
  { unfold zth. destruct (Z.ltb_spec (Z.of_nat n) 0); [lia|]. rewrite Nat2Z.id. clear -Hn. revert xs ys Hn. induction n as [|n IH]; intros [|a xs] [|b ys] H; cbn in *; try discriminate; auto.
    injection H as -> ->. auto. }
  pose proof (bands_support K A log2_k exp2_k of_real ic (extrapolated ec) xs ys (Z.of_nat n) x y junk false HI (real_ascending A xs Hlt S) L (proj1 Hx) (proj2 Hx)) as Q.
  cbn [call transform xorb fix_sample] in Q. congruence.
Qed.

(** The supporting points of [D] are those of [B] with other values, and everything else is the same. *)
Lemma converted_ok {K X} (A : arithmetic K X) (g : K -> K) b i e labels B : ordered A -> Forall dictionary b -> mk_bands A b i e labels = Ok B ->
  exists D, mk_bands A (mapped g (b_bands B)) (Flags (b_interpolations B)) (Flags (b_extrapolations B)) (f_labels (b_filter B)) = Ok D /\ converted g B D.
Proof.
  intros OA D E. destruct (mk_bands_inv A b i e labels B OA D E) as (tfs & il & el & ls & -> & Li & Le & Ll & Es). cbn [b_bands b_interpolations b_extrapolations b_filter f_labels].
  pose proof (mapped_dictionary g b D) as Dm. assert (Lm : zlen (mapped g b) = zlen b) by (unfold mapped; apply zlen_map).
  destruct (mk_bands_ok A OA (mapped g b) (Flags il) (Flags el) ls) as (B & EB & M); auto.
  { destruct (Z.eq_dec (zlen b) 0) as [Z|Z]; [left; lia|right]. cbn. split; intros ->; change (zlen (@nil interpolation)) with 0 in *; lia. }
  destruct (mk_bands_inv A _ _ _ _ B OA Dm EB) as (tfs' & il' & el' & ls' & -> & Li' & Le' & Ll' & Es').
  exists (MkBands (Filter tfs' ls') (mapped g b) il' el'). split; [exact EB|].
  assert (Q : il' = il /\ el' = el /\ ls' = ls).
  { destruct M as (_ & _ & _ & _ & _ & M). cbn [b_bands b_interpolations b_extrapolations b_filter f_labels] in M.
    assert (W : forall c, 0 <= c < zlen b -> zth il' c = zth il c /\ zth el' c = zth el c /\ zth ls' c = zth ls c).
    { intros c Hc. destruct (zth_in (mapped g b) c) as (d & Hd); [lia|]. destruct (M c d Hd) as (ic & ec & t & l & Fi & Fe & Fl & _ & _ & Zl & Zi & Ze).
      cbn in Fi, Fe. rewrite Z.min_l in Fi, Fe by lia. destruct (zth_in ls c) as (l' & Hl'); [lia|]. rewrite (own_labels ls c l' l) in Zl by auto. repeat split; congruence. }
    repeat split; apply zth_ext_in; try lia; intros c Hc; apply W; lia. }
  destruct Q as (-> & -> & ->). split; [reflexivity|]. split; [reflexivity|]. split; [reflexivity|]. split; [reflexivity|]. cbn [b_filter transfer_functions].
  destruct M as (C & _ & _ & _ & _ & M). cbn [b_bands b_interpolations b_extrapolations b_filter f_labels transfer_functions f_count] in *.
  intros c xs ys ic ec Ht.
  assert (S : supported A (nth (Z.to_nat c) b []) ic ec (Bands xs ys ic ec) /\ exists d e', zth b c = Some d /\ d = nth (Z.to_nat c) b [] /\ zth il c = Some ic /\ zth el c = Some e' /\ ec = extrapolated e').
  { destruct (mk_bands_ok A OA b (Flags il) (Flags el) ls) as (B2 & EB2 & M2); auto.
    { destruct (Z.eq_dec (zlen b) 0) as [Z|Z]; [left; lia|right]. cbn. split; intros ->; change (zlen (@nil interpolation)) with 0 in *; lia. }
    rewrite (mk_bands_exact A b il el ls tfs) in EB2 by auto. injection EB2 as <-. destruct M2 as (C2 & _ & _ & _ & _ & M2).
    cbn [b_bands b_interpolations b_extrapolations b_filter f_labels transfer_functions] in *. unfold f_count in C2. cbn in C2.
    destruct (zth_in b c) as (d & Hd); [apply zth_range in Ht; lia|]. destruct (M2 c d Hd) as (ic2 & ec2 & t & l & Fi & Fe & _ & Zt & St & _ & Zi & Ze).
    rewrite Ht in Zt. injection Zt as <-. pose proof St as (xs2 & ys2 & Q & _). injection Q as -> -> -> ->.
    assert (Hn : d = nth (Z.to_nat c) b []).
    { symmetry. apply nth_error_nth. unfold zth in Hd. destruct (c <? 0); [discriminate|]. exact Hd. }
    rewrite <- Hn. split; auto. exists d, ec2. auto. }
  destruct S as (S & d & e' & Hd & Hn & Zi & Ze & ->). rewrite <- Hn in S. clear Hn.
  destruct (M c (map (fun '(f, y) => (f, g y)) d)) as (ic2 & ec2 & t & l & Fi & Fe & _ & Zt & St & _ & Zi2 & Ze2).
  { unfold mapped. now rewrite zth_map, Hd. }
  rewrite Zt. f_equal. assert (ic2 = ic) by congruence. assert (ec2 = e') by congruence. subst ic2 ec2.
  apply (supported_unique A OA (map (fun '(f, y) => (f, g y)) d) ic (extrapolated e')); auto.
  destruct S as (xs' & ys' & Q & Sa & L & P). injection Q as <- <-. exists xs, (map g ys). split; auto. split; auto. split; [now rewrite zlen_map|].
  assert (Cm : combine xs (map g ys) = map (fun '(f, y) => (f, g y)) (combine xs ys)).
  { clear. revert ys. induction xs as [|x xs IH]; intros [|y ys]; cbn; auto. now rewrite IH. }
  intros x y. rewrite Cm, !in_map_iff. split; intros ((a, v) & Q & Hin); exists (a, v); split; auto; now apply P.
Qed.

Lemma converted_back {K X} (A : arithmetic K X) (g h : K -> K) b i e labels B D : ordered A -> Forall dictionary b -> mk_bands A b i e labels = Ok B ->
  mk_bands A (mapped g (b_bands B)) (Flags (b_interpolations B)) (Flags (b_extrapolations B)) (f_labels (b_filter B)) = Ok D ->
  (forall d x y, In d b -> In (x, y) d -> h (g y) = y) ->
  mk_bands A (mapped h (b_bands D)) (Flags (b_interpolations D)) (Flags (b_extrapolations D)) (f_labels (b_filter D)) = Ok B.
Proof.
  intros OA Db E ED H. destruct (converted_ok A g b i e labels B OA Db E) as (D' & ED' & (Q1 & Q2 & Q3 & Q4 & _)). rewrite ED in ED'. injection ED' as <-.
  rewrite Q1, Q2, Q3, Q4. destruct (mk_bands_inv A b i e labels B OA Db E) as (tfs & il & el & ls & -> & Li & Le & Ll & Es).
  cbn [b_bands b_interpolations b_extrapolations b_filter f_labels]. change (map (map _) b) with (mapped g b). rewrite (mapped_twice g h b H). now apply mk_bands_exact.
Qed.

Section Decibels.
Context {X : Type}.
Variable A : arithmetic R X.
Hypothesis OA : ordered A.
Hypothesis M : forall x y, o_mul (k_ops A) x y = (x * y)%R.
Hypothesis Q : forall x y, o_div (k_ops A) x y = (x / y)%R.
Variables reference factor : R.
Hypothesis Hr : (0 < reference)%R.
Hypothesis Hf : (factor <> 0)%R.

Lemma ln10 : (0 < ln 10)%R.
Proof. rewrite <- ln_1. apply ln_increasing; lra. Qed.

Lemma to_db_ok b i e labels B : Forall dictionary b -> mk_bands A b i e labels = Ok B ->
  exists D, to_db A decimal_logarithm B reference factor = Ok D /\ converted (fun y => factor * decimal_logarithm (y / reference))%R B D /\
    ((forall d x y, In d b -> In (x, y) d -> 0 < y)%R -> from_db A power_of_10 D reference factor = Ok B).
Proof.
  intros Db E. destruct (converted_ok A (fun y => factor * decimal_logarithm (y / reference))%R b i e labels B OA Db E) as (D & ED & C).
  assert (Et : to_db A decimal_logarithm B reference factor = Ok D).
  { rewrite <- ED. unfold to_db, mapped. f_equal. apply map_ext. intros d. apply map_ext. intros [f y]. now rewrite M, Q. }
  exists D. split; auto. split; auto. intros Pos.
  rewrite <- (converted_back A (fun y => factor * decimal_logarithm (y / reference))%R (fun y => reference * power_of_10 (y / factor))%R b i e labels B D OA Db E ED).
  - unfold from_db, mapped. f_equal. apply map_ext. intros d. apply map_ext. intros [f y]. now rewrite M, Q.
  - intros d x y Hd Hy. specialize (Pos d x y Hd Hy). unfold decimal_logarithm, power_of_10, Rpower. pose proof ln10.
    replace (factor * (ln (y / reference) / ln 10) / factor * ln 10)%R with (ln (y / reference)) by (field; lra).
    rewrite exp_ln; [field; lra|]. apply Rdiv_lt_0_compat; auto.
Qed.

Lemma from_db_ok b i e labels B : Forall dictionary b -> mk_bands A b i e labels = Ok B ->
  exists D, from_db A power_of_10 B reference factor = Ok D /\ converted (fun y => reference * power_of_10 (y / factor))%R B D /\
    to_db A decimal_logarithm D reference factor = Ok B.
Proof.
  intros Db E. destruct (converted_ok A (fun y => reference * power_of_10 (y / factor))%R b i e labels B OA Db E) as (D & ED & C).
  assert (Et : from_db A power_of_10 B reference factor = Ok D).
  { rewrite <- ED. unfold from_db, mapped. f_equal. apply map_ext. intros d. apply map_ext. intros [f y]. now rewrite M, Q. }
  exists D. split; auto. split; auto.
  rewrite <- (converted_back A (fun y => reference * power_of_10 (y / factor))%R (fun y => factor * decimal_logarithm (y / reference))%R b i e labels B D OA Db E ED).
  - unfold to_db, mapped. f_equal. apply map_ext. intros d. apply map_ext. intros [f y]. now rewrite M, Q.
  - intros d x y Hd Hy. unfold decimal_logarithm, power_of_10, Rpower. pose proof ln10.
    replace (reference * exp (y / factor * ln 10) / reference)%R with (exp (y / factor * ln 10)) by (field; lra).
    rewrite ln_exp. field; lra.
Qed.
End Decibels.

(** ** Cases, in which files cannot be read *)

Section Files.
Context {K X : Type}.
Variable A : arithmetic K X.

Lemma other_terms F : (exists t, In t (transfer_functions F) /\ forall xs ys i e, t <> Bands xs ys i e) -> as_table A F = Err ValueError.
Proof.
  intros (t & Ht & N). unfold as_table. assert (E : forall tfs i d, In t tfs -> add_channels A i tfs d = Err ValueError).
  { induction tfs as [|u tfs IH]; intros i d H; [destruct H|]. destruct H as [->|H].
    - destruct t; cbn; try reflexivity. now elim (N xs ys inter extra).
    - destruct u; cbn; try reflexivity. now apply IH. }
  now rewrite E.
Qed.

Section Text.
Variable is_float : X -> bool.
Variable is_real : K -> bool.
Variable zero : X.
Hypothesis OA : ordered A.

Lemma integer_frequencies F gnuplot path : bands_filter A F -> frequencies F (fun f => is_float f = false /\ x_ltb A f zero = false) ->
  (exists xs ys i e x, In (Bands xs ys i e) (transfer_functions F) /\ In x xs) ->
  exists lines, write_text A is_float is_real F = Ok lines /\ read_text A zero gnuplot path lines = Err (if gnuplot then ValueError else OSError).
Proof.
  intros G Fr (xs & ys & i & e & x & Ht & Hx). destruct (as_table_ok A OA F G) as (fs & N & P & Q & E).
  destruct fs as [|f fs].
  - exfalso. apply (P x). destruct (G _ Ht) as (xs' & ys' & i' & e' & W & S & L). injection W as <- <- <- <-.
    unfold present. apply existsb_exists. exists (Bands xs ys i e). split; auto. cbn [value]. rewrite <- (existsb_get A OA xs ys x L).
    apply existsb_exists. exists x. split; auto. now apply x_eqb_refl.
  - eexists. unfold write_text. rewrite E. cbn [bind]. split; [reflexivity|]. unfold read_text, rows_of. cbn [map for_each fst snd].
    destruct (Q f (or_introl eq_refl)) as (t & xs2 & ys2 & i2 & e2 & Ht2 & -> & Hx2). destruct (Fr _ _ _ _ _ Ht2 Hx2) as (F1 & F2).
    unfold read_line. cbn [fst snd number]. rewrite F1. cbn [starts_table]. rewrite F2. now destruct gnuplot.
Qed.

Lemma fewer_columns gnuplot path f g (y1 y2 y3 : K) : x_ltb A f zero = false -> x_ltb A g zero = false ->
  read_text A zero gnuplot path [(CReal f, [CReal y1; CReal y2]); (CReal g, [CReal y3])] = Err AttributeError.
Proof. intros Hf Hg. unfold read_text, for_each, read_line. cbn [fst snd starts_table]. rewrite Hf, Hg. reflexivity. Qed.

Lemma not_decibels gnuplot path f (y : K) : x_ltb A f zero = false -> exists B,
  read_text A zero gnuplot path [(CReal f, [CReal y])] = Ok B /\ transfer_functions (b_filter B) = [Bands [f] [y] Logarithmic StairsLin].
Proof.
  intros Hf. unfold read_text, for_each, read_line. cbn [fst snd starts_table]. rewrite Hf. cbn [negb bind read_columns dict_set].
  unfold mk_bands, bands_term, dict_item. cbn. rewrite (x_eqb_refl A OA f). cbn. eexists. split; reflexivity.
Qed.

End Text.

Lemma no_channels F path : transfer_functions F = [] -> f_labels F = [] ->
  (exists file B, write_npy A F = Ok file /\ read_npy A path file = Ok B /\ f_count (b_filter B) = 1) /\
  (exists file, write_npz A F = Ok file /\ read_npz A file = Err IndexError).
Proof.
  intros E L. assert (T : as_table A F = Ok []) by (unfold as_table, f_count; now rewrite E). split.
  - unfold write_npy. rewrite T. cbn [bind]. eexists _, _. split; [reflexivity|]. split; reflexivity.
  - unfold write_npz, write_npy, flags_of. rewrite T, E, L. eexists. split; reflexivity.
Qed.

End Files.

(** ** Examples *)

Definition real_arithmetic (power modulo : R -> R -> R) : arithmetic R R :=
  {| k_ops := RealSpec.real_ops power modulo; k_exp := exp; x_ltb := R_ltb; x_eqb := R_eqb; s_of := fun f => f;
     interpolate := interpolate_ (real_axes (RealSpec.real_ops power modulo) (fun x => x) (fun x => x) (fun x => x)) |}.

Lemma real_ordered {K} (A : arithmetic K R) : (forall x y, x_ltb A x y = R_ltb x y) -> (forall x y, x_eqb A x y = R_eqb x y) -> ordered A.
Proof.
  intros L E. split.
  - intros x y. rewrite E. apply R_eqb_eq.
  - intros x. rewrite L. unfold R_ltb. destruct (Rlt_dec x x); auto. now apply Rlt_irrefl in r.
  - intros x y z. rewrite !L. unfold R_ltb. destruct (Rlt_dec x y), (Rlt_dec y z), (Rlt_dec x z); intros; auto; try discriminate. elim n. now apply (Rlt_trans x y z).
  - intros x y. rewrite !L. unfold R_ltb. destruct (Rlt_dec x y), (Rlt_dec y x); auto. left. lra.
Qed.

Definition demo_bands : list (list (R * R)) := [[(15, 3); (5, 4)]; []; [(5, 2)]]%R.

Lemma demo_dictionaries : Forall dictionary demo_bands.
Proof.
  repeat constructor; cbn; try tauto. intros [H|[]]. lra.
Qed.

Definition demo_stored : filter R R :=
  mk_filter [Bands [5; 15]%R [4; 3]%R LogX Linear; Bands [] [] Linear Zero; Bands [5; 10]%R [2; 1]%R StairsLog StairsLin] ["a"; "b"; "c"]%string.

Lemma ascending_two {K} (A : arithmetic K R) a b : (forall x y, x_ltb A x y = R_ltb x y) -> (a < b)%R -> ascending A [a; b].
Proof.
  intros L H i j x y Hi Hj Lt. rewrite !zth_cons, !zth_nil in Hi, Hj. destruct (Z.eqb_spec i 0), (Z.eqb_spec j 0), (Z.eqb_spec (i - 1) 0), (Z.eqb_spec (j - 1) 0); try discriminate; try lia.
  injection Hi as <-. injection Hj as <-. rewrite L. unfold R_ltb. destruct (Rlt_dec a b); auto; contradiction.
Qed.

Lemma demo_stored_ok (A : arithmetic R R) : (forall x y, x_ltb A x y = R_ltb x y) ->
  bands_filter A demo_stored /\ zlen (f_labels demo_stored) = f_count demo_stored /\ 0 < f_count demo_stored /\
  frequencies demo_stored (fun f => true = true /\ x_ltb A f 0%R = false).
Proof.
  intros L. split; [|split; [reflexivity|split; [reflexivity|]]].
  - intros t Ht. cbn in Ht. destruct Ht as [<-|[<-|[<-|[]]]].
    + eexists _, _, _, _. split; [reflexivity|]. split; [apply ascending_two; auto; lra|reflexivity].
    + eexists _, _, _, _. split; [reflexivity|]. split; [|reflexivity]. intros i j x y H. now rewrite zth_nil in H.
    + eexists _, _, _, _. split; [reflexivity|]. split; [apply ascending_two; auto; lra|reflexivity].
  - intros xs ys i e x Ht Hx. split; auto. rewrite L. unfold R_ltb. destruct (Rlt_dec x 0); auto. exfalso. cbn in Ht.
    destruct Ht as [H|[H|[H|[]]]]; injection H as <- _ _ _; cbn in Hx; intuition lra.
Qed.
