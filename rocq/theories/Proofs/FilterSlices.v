(** Selections of the channels of filters *)

From Coq Require Import String ZArith List Bool Lia.
From Verif.Model Require Import Py Functions Signal Terms Filter.
From Verif.Spec Require Import TermsSpec FilterSpec SliceSpec.
From Verif.Proofs Require Import PyFacts SliceFacts SignalAlgebra SignalHelpers SignalExtra TermFacts FilterFacts FilterOperators FilterResults.
Import ListNotations.
Open Scope Z_scope.

Section Slices.
Context {K X : Type}.
Variable A : arithmetic K X.
Notation O := (k_ops A).
Notation term := (term K X).
Notation filter := (filter K X).
Variable junk : K.
Hypothesis EA : exact_arithmetic A.

Lemma filter_slice F (a b k : option Z) : labelled F -> let step := match k with Some k => k | None => 1 end in 0 < step ->
  exists G, filter_getitem F (KOne (KSlice (option_map NInt a) (option_map NInt b) (option_map NInt k))) = Ok G /\ labelled G /\
    (forall i, 0 <= i -> (i < f_count G <-> selected a b (f_count F) (starts_at a (f_count F) + i * step))) /\
    (forall i, 0 <= i < f_count G -> zth (f_labels G) i = zth (f_labels F) (starts_at a (f_count F) + i * step)) /\
    (forall i f, 0 <= i < f_count G -> plain_at A F f -> response A junk G i f = response A junk F (starts_at a (f_count F) + i * step) f).
Proof.
  intros L step P. assert (E : forall a n, slice_entry (option_map NInt a) n = Ok a) by (intros [?|] n; reflexivity).
  unfold filter_getitem. cbn [key_to_slice]. rewrite !E. cbn [bind]. set (s := Slice a b k).
  assert (S : slice_step s <> 0) by (unfold slice_step, s; cbn [sl_step]; fold step; lia).
  destruct (getslice_ok (transfer_functions F) s S) as (t & -> & Lt & Ht). destruct (getslice_ok (f_labels F) s S) as (l & -> & Ll & Hl). cbn [bind].
  fold (f_count F) in *. rewrite L in Ll, Hl. exists (mk_filter t l). split; [reflexivity|].
  assert (LL : f_labels (mk_filter t l) = l) by (apply labels_mk; lia).
  split; [unfold labelled; rewrite LL; cbn; unfold f_count; cbn; lia|].
  assert (Cn : f_count (mk_filter t l) = slice_count s (f_count F)) by exact Lt. rewrite Cn.
  assert (C0 : forall i, 0 <= i -> (i < slice_count s (f_count F) <-> selected a b (f_count F) (starts_at a (f_count F) + i * step)))
    by (intros i I; apply slice_count_pos; auto; apply zlen_nonneg).
  assert (F0 : 0 < slice_count s (f_count F) -> slice_first s (f_count F) = starts_at a (f_count F)).
  { intros Q. unfold s at 1. rewrite slice_first_pos; auto; [|apply zlen_nonneg]. apply (C0 0) in Q; [|lia]. destruct Q as [Q _]. lia. }
  split; [exact C0|]. split.
  - intros i I. rewrite LL, Hl. replace (_ && _) with true by lia. now rewrite F0 by lia.
  - intros i f I Q.
    assert (QG : plain_at A (mk_filter t l) f).
    { destruct Q as [Q|Q]; [now left|right]. cbn [transfer_functions mk_filter]. apply Forall_zth. intros j y Y. rewrite Ht in Y.
      destruct (_ && _); [|discriminate]. rewrite Forall_zth in Q. eauto. }
    rewrite !(channels_independent A junk EA) by auto. cbn [transfer_functions mk_filter]. rewrite Ht. replace (_ && _) with true by lia.
    rewrite F0 by lia. reflexivity.
Qed.

Lemma filter_channel F (i : Z) : labelled F -> 0 <= i < f_count F ->
  exists G, filter_getitem F (KOne (KNum (NInt i))) = Ok G /\ f_count G = 1 /\ Some (f_labels G) = option_map (fun l => [l]) (zth (f_labels F) i) /\
    forall f, plain_at A F f -> response A junk G 0 f = response A junk F i f.
Proof.
  intros L I. destruct (filter_slice F (Some i) (Some (i + 1)) None L) as (G & E & LG & C & Q & V); [lia|].
  assert (St : starts_at (Some i) (f_count F) = i) by (unfold starts_at, from_end; destruct (i <? 0) eqn:Z; lia).
  rewrite St in *. unfold selected, from_end in C.
  assert (C1 : f_count G = 1).
  { pose proof (C 0) as C0. pose proof (C 1) as C1. pose proof (zlen_nonneg (transfer_functions G)) as P. fold (f_count G) in P.
    destruct (i <? 0) eqn:Z1; destruct (i + 1 <? 0) eqn:Z2; lia. }
  exists G. split; [exact E|]. split; [exact C1|]. split.
  - specialize (Q 0 ltac:(lia)). rewrite Z.mul_0_l, Z.add_0_r in Q. rewrite <- Q. unfold labelled in LG. rewrite C1 in LG.
    destruct (f_labels G) as [|l [|m r]]; rewrite ?zlen_cons in LG; try (pose proof (zlen_nonneg r)); try (unfold zlen in LG; cbn in LG; lia); try lia. reflexivity.
  - intros f P. rewrite V by (auto; lia). f_equal. lia.
Qed.

Lemma filter_tuple_key (F : filter) k : filter_getitem F (KTuple [KNum (NInt k)]) = Err TypeError.
Proof. reflexivity. Qed.

End Slices.

Section More.
Context {K X : Type}.
Variable A : arithmetic K X.

Lemma filter_incompatible (F G : filter K X) : ~ compatible (f_count F) (f_count G) ->
  filter_add A F G = Err ValueError /\ filter_sub A F G = Err ValueError /\ filter_mul A F G = Err ValueError /\ filter_div A F G = Err ValueError.
Proof. intros H. repeat split; now apply filter_algebra_incompatible. Qed.

Hypothesis EA : exact_arithmetic A.
Variable junk : K.

Lemma no_null ys : ~ In (o_zero (k_ops A)) ys -> existsb (is_null A) ys = false.
Proof.
  intros H. destruct (existsb _ ys) eqn:E; [|reflexivity]. apply existsb_exists in E as (y & I & Z). apply (is_null_eq A EA) in Z. now subst.
Qed.

Lemma div_divisor (t t' : term K X) : divisor A t' -> exists u, div A t t' = Ok u.
Proof.
  intros D. destruct t as [v|c x|c x|xs ys i e|v x|v x|l x|m w x|l x|m w x]; cbn [div]; eauto.
  - destruct (is_null A v); eauto. destruct t'; eauto. apply (is_null_neq A EA) in D. rewrite D. eauto.
  - destruct t'; eauto. apply (is_null_neq A EA) in D. rewrite D. eauto.
  - destruct t' as [v'|c x|c x|xs' ys' i' e'|v' x|v' x|l x|m w x|l x|m w x]; eauto.
    cbn [same_bands]. destruct (_ && _); eauto. rewrite no_null by exact D. eauto.
Qed.

Lemma invert_divisor (t : term K X) : divisor A t -> exists u, invert A t = Ok u.
Proof.
  intros D. destruct t; cbn [invert]; eauto.
  - apply (is_null_neq A EA) in D. rewrite D. eauto.
  - rewrite no_null by exact D. eauto.
Qed.

Lemma sequence_map2_total {Y1 Y2 Y3 : Type} (op : Y1 -> Y2 -> result Y3) l m : (forall x y, In y m -> exists z, op x y = Ok z) -> exists r, sequence (map2 op l m) = Ok r.
Proof.
  revert m. induction l as [|x l IH]; intros [|y m] H; cbn [map2 sequence]; eauto. destruct (H x y) as [z ->]; [now left|].
  destruct (IH m) as [r E]; [intros; apply H; now right|]. cbn [bind]. rewrite E. cbn [bind]. eauto.
Qed.

Lemma filter_algebra_divisor (g : term K X -> term K X -> result (term K X)) label F G : (forall t t', In t' (transfer_functions G) -> exists u, g t t' = Ok u) ->
  compatible (f_count F) (f_count G) -> exists H, filter_algebra g label F G = Ok H.
Proof.
  intros T C. unfold filter_algebra.
  assert (M1 : forall t, exists l, sequence (map (fun u => g t u) (transfer_functions G)) = Ok l) by (intros t; apply sequence_total; auto).
  assert (M2 : exists l, sequence (map2 g (transfer_functions F) (transfer_functions G)) = Ok l) by (now apply sequence_map2_total).
  unfold compatible, f_count in C. destruct (transfer_functions F) as [|t [|t2 l]] eqn:EF.
  - destruct (transfer_functions G) as [|u [|u2 m]] eqn:EG; [eexists; reflexivity|eexists; reflexivity|].
    exfalso. rewrite !zlen_cons in C. pose proof (zlen_nonneg m). change (zlen []) with 0 in C. lia.
  - destruct (M1 t) as [r ->]. cbn. eauto.
  - destruct (transfer_functions G) as [|u [|u2 m]] eqn:EG.
    + exfalso. rewrite !zlen_cons in C. pose proof (zlen_nonneg l). change (zlen []) with 0 in C. lia.
    + destruct (sequence_total (fun t => g t u) (t :: t2 :: l)) as [r E]; [intros y _; apply T; now left|]. rewrite E. cbn. eauto.
    + replace (zlen (t :: t2 :: l) =? zlen (u :: u2 :: m)) with true.
      * destruct M2 as [r ->]. cbn. eauto.
      * rewrite !zlen_cons in *. pose proof (zlen_nonneg l). pose proof (zlen_nonneg m). lia.
Qed.

Lemma filter_map_divisor (g : term K X -> result (term K X)) F : (forall t, In t (transfer_functions F) -> exists u, g t = Ok u) -> exists H, filter_map g F = Ok H.
Proof. intros T. unfold filter_map. destruct (sequence_total g (transfer_functions F) T) as [l ->]. cbn. eauto. Qed.

Lemma filter_div_complete k F G : regular_filter k F -> regular_filter k G -> compatible (f_count F) (f_count G) ->
  (filter_div A F G = Err ZeroDivisionError /\ ~ Forall (divisor A) (transfer_functions G)) \/
  exists H, filter_div A F G = Ok H /\ pointwise2 A junk k (o_div (k_ops A)) (not_zero A) F G H /\ labels_of "Quotient" H /\ regular_filter k H.
Proof.
  intros RF RG C. destruct (filter_div_ok A EA junk k F G RF RG C) as [E|E]; [left|now right]. split; [exact E|]. intros D. rewrite Forall_forall in D.
  destruct (filter_algebra_divisor (div A) "Quotient" F G) as [H E']; auto; [intros; now apply div_divisor, D|]. unfold filter_div in E. congruence.
Qed.

Lemma filter_rdiv_number_complete k F v : regular_filter k F ->
  (filter_rdiv_number A F v = Err ZeroDivisionError /\ ~ Forall (divisor A) (transfer_functions F)) \/
  exists H, filter_rdiv_number A F v = Ok H /\ pointwise1 A junk k (fun a => o_div (k_ops A) v a) (not_zero A) F H /\ (labelled F -> f_labels H = f_labels F) /\ regular_filter k H.
Proof.
  intros R. destruct (filter_rdiv_number_ok A EA junk k F v R) as [E|E]; [left|now right]. split; [exact E|]. intros D. rewrite Forall_forall in D.
  destruct (filter_map_divisor (fun t => div A (Constant v) t) F) as [H E']; [intros; now apply div_divisor, D|]. unfold filter_rdiv_number in E. congruence.
Qed.

Lemma filter_invert_complete k F : regular_filter k F ->
  (filter_invert A F = Err ZeroDivisionError /\ ~ Forall (divisor A) (transfer_functions F)) \/
  exists H, filter_invert A F = Ok H /\ pointwise1 A junk k (fun a => o_div (k_ops A) (o_one (k_ops A)) a) (not_zero A) F H /\ (labelled F -> f_labels H = f_labels F) /\ regular_filter k H.
Proof.
  intros R. destruct (filter_invert_ok A EA junk k F R) as [E|E]; [left|now right]. split; [exact E|]. intros D. rewrite Forall_forall in D.
  destruct (filter_map_divisor (invert A) F) as [H E']; [intros; now apply invert_divisor, D|]. unfold filter_invert in E. congruence.
Qed.

Lemma evaluate_is_value (t : term K X) f : s_of A f <> o_zero (k_ops A) -> evaluate A junk t f = value A f (s_of A f) t.
Proof. intros N. unfold evaluate. now rewrite (call_value A EA junk f N t false). Qed.

Lemma invert_transform_evaluate (t : term K X) : regular NoDifferences t ->
  exists u, invert_transform A t = Ok u /\ regular NoDifferences u /\
    forall f a, s_of A f <> o_zero (k_ops A) -> value A f (inverse A (s_of A f)) t = Some a -> evaluate A junk u f = Some a.
Proof.
  intros R. destruct (invert_transform_good A EA t R) as (u & E & Ru & V). exists u. split; auto. split; auto.
  intros f a N W. rewrite evaluate_is_value by auto. auto.
Qed.

End More.
