(** Proofs about the interpolation functions. *)

From Coq Require Import ZArith List Bool Reals Lia Lra ZifyBool Field.
From Verif.Model Require Import Py Signal Terms Interpolation.
From Verif.Spec Require Import RealSpec InterpolationSpec.
From Verif.Proofs Require Import PyFacts.
Import ListNotations.
Open Scope Z_scope.

Ltac short H := exfalso; unfold zlen in *; cbn [List.length] in *; lia.

(** ** Supporting points, with any numbers *)

Section Any.
Context {K X : Type}.
Variable N : axes K X.
Hypothesis E : forall x y, a_eqb N x y = true <-> x = y.

Lemma at_support_ok : forall xs ys k x, NoDup xs -> zlen ys = zlen xs -> zth xs k = Some x -> at_support N x xs ys = zth ys k.
Proof.
  induction xs as [|x0 xs IH]; intros ys k x D L H; [now rewrite zth_nil in H|].
  destruct ys as [|y0 ys]; [short L|]. inversion_clear D as [|? ? D1 D2]. cbn [at_support].
  rewrite zth_cons in H. rewrite zth_cons. destruct (k =? 0) eqn:K0.
  - injection H as <-. now rewrite (proj2 (E x0 x0) eq_refl).
  - destruct (a_eqb N x0 x) eqn:Q; [apply E in Q as <-; exfalso; apply D1; eapply zth_In; eauto|].
    apply IH; auto. rewrite !zlen_cons in L. lia.
Qed.

Lemma interpolate_support flag xs ys k x : NoDup xs -> zlen ys = zlen xs -> zth xs k = Some x -> interpolate_ N flag x xs ys = zth ys k.
Proof.
  intros D L H. unfold interpolate_, interpolation_. rewrite (proj2 (existsb_exists _ _)); [now apply at_support_ok|].
  exists x. split; [eapply zth_In; eauto|now apply E].
Qed.

Lemma interpolate_elsewhere flag xs ys x : ~ In x xs -> interpolate_ N flag x xs ys = interpolation_function N flag x xs ys.
Proof.
  intros H. unfold interpolate_, interpolation_. destruct (existsb _ xs) eqn:Q; auto. apply existsb_exists in Q as (y & I & Q). apply E in Q as ->. easy.
Qed.

End Any.

(** ** Real x values *)

Section Real.
Context {K : Type}.
Variable O : ops K.
Variable of_real : R -> K.
Variables log2_k exp2_k : K -> K.
Notation N := (real_axes O of_real log2_k exp2_k).

Lemma R_ltb_lt x y : R_ltb x y = true <-> (x < y)%R.
Proof. unfold R_ltb. destruct (Rlt_dec x y); split; auto; discriminate. Qed.

Lemma R_ltb_ge x y : R_ltb x y = false <-> (y <= x)%R.
Proof. unfold R_ltb. destruct (Rlt_dec x y); split; auto; try discriminate; intros; lra. Qed.

Lemma R_eqb_eq x y : R_eqb x y = true <-> x = y.
Proof. unfold R_eqb. destruct (Req_EM_T x y); split; auto; discriminate. Qed.

Lemma increasing_cons x xs : increasing (x :: xs) -> increasing xs.
Proof.
  intros H i j a b A B L. assert (0 <= i) by (apply zth_range in A; lia).
  apply (H (i + 1) (j + 1)); try lia; rewrite zth_cons; destruct (Z.eqb_spec (i + 1) 0), (Z.eqb_spec (j + 1) 0); try lia;
    [now replace (i + 1 - 1) with i by lia|now replace (j + 1 - 1) with j by lia].
Qed.

Lemma increasing_head x xs y : increasing (x :: xs) -> In y xs -> (x < y)%R.
Proof.
  intros H I. apply In_zth in I as (j & Y). pose proof (zth_range _ _ _ Y). apply (H 0 (j + 1)); auto; try lia.
  rewrite zth_cons. destruct (Z.eqb_spec (j + 1) 0); try lia. now replace (j + 1 - 1) with j by lia.
Qed.

Lemma increasing_nil : increasing [].
Proof. intros i j a b A. now rewrite zth_nil in A. Qed.

Lemma increasing_intro x xs : (forall y, In y xs -> (x < y)%R) -> increasing xs -> increasing (x :: xs).
Proof.
  intros H I i j a b A B L. pose proof (zth_range _ _ _ A). pose proof (zth_range _ _ _ B). rewrite zth_cons in A. rewrite zth_cons in B.
  destruct (Z.eqb_spec j 0); [lia|]. destruct (Z.eqb_spec i 0); [injection A as <-; apply H; eapply zth_In; eauto|]. apply (I (i - 1) (j - 1)); auto. lia.
Qed.

Lemma increasing_nodup xs : increasing xs -> NoDup xs.
Proof.
  induction xs as [|x xs IH]; intros H; constructor.
  - intros I. pose proof (increasing_head x xs x H I). lra.
  - apply IH. eapply increasing_cons; eauto.
Qed.

Lemma increasing_le xs i j a b : increasing xs -> zth xs i = Some a -> zth xs j = Some b -> i <= j -> (a <= b)%R.
Proof. intros H A B L. destruct (Z.eq_dec i j) as [->|]; [assert (a = b) by congruence; lra|]. apply Rlt_le, (H i j); auto. lia. Qed.

Lemma zth_between xs k a x b : increasing xs -> between_points xs k a x b -> ~ In x xs.
Proof.
  intros H (A & B & L) I. apply In_zth in I as (j & Q).
  destruct (Z.le_gt_cases j k) as [J|J].
  - pose proof (increasing_le xs j k x a H Q A J). lra.
  - pose proof (increasing_le xs (k + 1) j b x H B Q ltac:(lia)). lra.
Qed.

Lemma linear_inside (x : R) xs ys : zlen ys = zlen xs -> 2 <= zlen xs -> (forall a, zth xs 0 = Some a -> (a <= x)%R) -> (forall b, zth xs (zlen xs - 1) = Some b -> (x <= b)%R) ->
  linear_ N x xs ys = np_interp N x xs ys.
Proof.
  intros L T A B. destruct xs as [|x0 [|x1 xt]]; try short T. destruct ys as [|y0 [|y1 yt]]; try short L.
  unfold linear_. cbn [a_ltb real_axes]. rewrite (proj2 (R_ltb_ge x x0)) by (apply A; reflexivity).
  remember (x0 :: x1 :: xt) as xs eqn:Ex. remember (y0 :: y1 :: yt) as ys eqn:Ey.
  pose proof (zth_rev xs 0) as R0. pose proof (zlen_rev xs) as LR. pose proof (zlen_rev ys) as LR'.
  destruct (rev xs) as [|xl [|xp r]]; try short LR. destruct (rev ys) as [|yl [|yp r']]; try short LR'.
  change (zth (xl :: xp :: r) 0) with (Some xl) in R0. replace (zlen xs - 1 - 0) with (zlen xs - 1) in R0 by lia.
  now rewrite (proj2 (R_ltb_ge xl x)) by (apply B; auto).
Qed.

Lemma np_interp_cons x x0 x1 xs y0 y1 ys : np_interp N x (x0 :: x1 :: xs) (y0 :: y1 :: ys) =
  if R_ltb x x0 then Some y0
  else if R_ltb x x1 then Some (o_add O (o_mul O (o_div O (o_sub O y1 y0) (of_real (x1 - x0)%R)) (of_real (x - x0)%R)) y0)
  else np_interp N x (x1 :: xs) (y1 :: ys).
Proof. reflexivity. Qed.

Lemma np_interp_inside : forall xs ys k a x b ya yb, increasing xs -> zlen ys = zlen xs -> between_points xs k a x b -> zth ys k = Some ya -> zth ys (k + 1) = Some yb ->
  np_interp N x xs ys = Some (o_add O (o_mul O (o_div O (o_sub O yb ya) (of_real (b - a)%R)) (of_real (x - a)%R)) ya).
Proof.
  induction xs as [|x0 xs IH]; intros ys k a x b ya yb I L (A & B & Q) Ya Yb; [now rewrite zth_nil in A|].
  destruct ys as [|y0 ys]; [now rewrite zth_nil in Ya|]. pose proof (zth_range _ _ _ A) as RA. pose proof (zth_range _ _ _ B) as RB. rewrite zlen_cons in *.
  destruct xs as [|x1 xs]; [short RB|]. destruct ys as [|y1 ys]; [short L|].
  rewrite np_interp_cons.
  assert (x0 <= x)%R. { pose proof (increasing_le (x0 :: x1 :: xs) 0 k x0 a I eq_refl A ltac:(lia)). lra. }
  rewrite (proj2 (R_ltb_ge x x0)) by auto. destruct (Z.eq_dec k 0) as [->|K0].
  - rewrite zth_cons in A. rewrite zth_cons in B. rewrite zth_cons in Ya. rewrite zth_cons in Yb. cbn [Z.eqb] in A, Ya. replace (0 + 1 =? 0) with false in * by reflexivity. rewrite zth_cons in B. rewrite zth_cons in Yb. replace (0 + 1 - 1 =? 0) with true in * by reflexivity.
    injection A as <-. injection B as <-. injection Ya as <-. injection Yb as <-. now rewrite (proj2 (R_ltb_lt x x1)).
  - assert (x1 <= x)%R. { pose proof (increasing_le (x0 :: x1 :: xs) 1 k x1 a I eq_refl A ltac:(lia)). lra. }
    rewrite (proj2 (R_ltb_ge x x1)) by auto. rewrite zth_cons in A. rewrite zth_cons in B. rewrite zth_cons in Ya. rewrite zth_cons in Yb.
    replace (k =? 0) with false in * by lia. replace (k + 1 =? 0) with false in * by lia. replace (k + 1 - 1) with (k - 1 + 1) in * by lia.
    apply (IH (y1 :: ys) (k - 1) a x b ya yb); auto.
    + eapply increasing_cons; eauto.
    + rewrite zlen_cons in L; lia.
    + now split.
Qed.

Lemma increasing_log2 xs : positive xs -> increasing xs -> increasing (map log2 xs).
Proof.
  intros P I i j a b A B L. rewrite zth_map in A, B. destruct (zth xs i) as [a'|] eqn:A'; [|discriminate]. destruct (zth xs j) as [b'|] eqn:B'; [|discriminate].
  injection A as <-. injection B as <-. pose proof (I i j a' b' A' B' L). pose proof (P a' (zth_In _ _ _ A')). pose proof (P b' (zth_In _ _ _ B')).
  unfold log2. apply Rmult_lt_compat_r; [apply Rinv_0_lt_compat; rewrite <- ln_1; apply ln_increasing; lra|]. apply ln_increasing; lra.
Qed.

Lemma log2_increasing a b : (0 < a)%R -> (a < b)%R -> (log2 a < log2 b)%R.
Proof. intros. unfold log2. apply Rmult_lt_compat_r; [apply Rinv_0_lt_compat; rewrite <- ln_1; apply ln_increasing; lra|]. apply ln_increasing; lra. Qed.

(** ** Stairs *)

Lemma searchsorted_ok x : forall xs, increasing xs -> 0 <= searchsorted N xs x <= zlen xs /\
  forall j a, zth xs j = Some a -> (j < searchsorted N xs x -> (a < x)%R) /\ (searchsorted N xs x <= j -> (x <= a)%R).
Proof.
  induction xs as [|x0 xs IH]; intros I; cbn [searchsorted].
  - split; [unfold zlen; cbn [List.length]; lia|]. intros j a Q. now rewrite zth_nil in Q.
  - destruct (IH (increasing_cons _ _ I)) as (B & H). cbn [a_ltb real_axes]. rewrite zlen_cons. destruct (R_ltb x0 x) eqn:L.
    + apply R_ltb_lt in L. split; [lia|]. intros j a Q. pose proof (zth_range _ _ _ Q). rewrite zth_cons in Q. destruct (Z.eqb_spec j 0).
      * injection Q as <-. split; intros; [auto|lia].
      * apply H in Q as (Q1 & Q2). split; intros; [apply Q1|apply Q2]; lia.
    + apply R_ltb_ge in L. split; [pose proof (zlen_nonneg xs); lia|]. intros j a Q. pose proof (zth_range _ _ _ Q). split; intros; [lia|].
      rewrite zth_cons in Q. destruct (Z.eqb_spec j 0); [injection Q as <-; auto|].
      apply zth_In in Q. pose proof (increasing_head _ _ _ I Q). lra.
Qed.

Definition closest (x : R) (xs : list R) (k : Z) (a : R) : Prop :=
  zth xs k = Some a /\ forall j b, zth xs j = Some b -> (Rabs (x - a) <= Rabs (x - b))%R /\ (k < j -> (Rabs (x - a) < Rabs (x - b))%R).

Lemma stairs_lin_ok x xs ys : xs <> [] -> increasing xs -> zlen ys = zlen xs -> exists k a, closest x xs k a /\ stairs_lin_ N x xs ys = zth ys k.
Proof.
  intros E I L. destruct (searchsorted_ok x xs I) as (B & H). unfold stairs_lin_. set (i := searchsorted N xs x) in *. clearbody i. cbn zeta.
  assert (0 < zlen xs) by (destruct xs; [easy|rewrite zlen_cons; pose proof (zlen_nonneg xs); lia]). rewrite L.
  destruct (zth_in xs (Z.max ((if zlen xs <=? i then i - 1 else i) - 1) 0)) as (xl & Xl); [destruct (Z.leb_spec (zlen xs) i); lia|].
  destruct (zth_in xs (if zlen xs <=? i then i - 1 else i)) as (xr & Xr); [destruct (Z.leb_spec (zlen xs) i); lia|].
  rewrite Xl, Xr. cbn [a_sub a_fabs a_ltb real_axes].
  destruct (Z.leb_spec (zlen xs) i) as [J|J].
  - assert (i = zlen xs) by lia. subst i. assert (xr < x)%R by (eapply H; eauto; lia).
    pose proof (increasing_le xs (Z.max (zlen xs - 1 - 1) 0) (zlen xs - 1) _ _ I Xl Xr ltac:(lia)).
    rewrite (proj2 (R_ltb_ge _ _)) by (rewrite !Rabs_right; lra). exists (zlen xs - 1), xr. split; auto. split; auto. intros j b Q. pose proof (zth_range _ _ _ Q).
    pose proof (increasing_le xs j (zlen xs - 1) _ _ I Q Xr ltac:(lia)). assert (b < x)%R by (eapply H; eauto; lia).
    split; [rewrite !Rabs_right; lra|lia].
  - destruct (Z.eq_dec i 0) as [->|J0].
    + replace (Z.max (0 - 1) 0) with 0 in Xl by lia. assert (xl = xr) by congruence. subst xl. assert (x <= xr)%R by (eapply H; eauto; lia).
      rewrite (proj2 (R_ltb_ge _ _)) by lra. exists 0, xr. split; auto. split; auto. intros j b Q. pose proof (zth_range _ _ _ Q).
      pose proof (increasing_le xs 0 j _ _ I Xr Q ltac:(lia)). split; [rewrite !Rabs_left1; lra|]. intros Z. pose proof (I 0 j _ _ Xr Q Z). rewrite !Rabs_left1; lra.
    + replace (Z.max (i - 1) 0) with (i - 1) in Xl by lia. assert (xl < x)%R by (eapply H; eauto; lia). assert (x <= xr)%R by (eapply H; eauto; lia).
      destruct (R_ltb (Rabs (x - xl)) (Rabs (x - xr))) eqn:T.
      * apply R_ltb_lt in T. exists (i - 1), xl. split; auto. split; auto. intros j b Q. destruct (Z.lt_ge_cases j i) as [K1|K1].
        -- pose proof (increasing_le xs j (i - 1) _ _ I Q Xl ltac:(lia)). split; [rewrite !Rabs_right; lra|lia].
        -- pose proof (increasing_le xs i j _ _ I Xr Q ltac:(lia)). rewrite (Rabs_left1 (x - xr)) in T by lra. rewrite (Rabs_left1 (x - b)) by lra. split; intros; lra.
      * apply R_ltb_ge in T. exists i, xr. split; auto. split; auto. intros j b Q. destruct (Z.lt_ge_cases j i) as [K1|K1].
        -- pose proof (increasing_le xs j (i - 1) _ _ I Q Xl ltac:(lia)). rewrite (Rabs_right (x - xl)) in T by lra. rewrite (Rabs_right (x - b)) by lra. split; [lra|lia].
        -- pose proof (increasing_le xs i j _ _ I Xr Q ltac:(lia)). rewrite !Rabs_left1 by lra. split; [lra|]. intros Z. pose proof (I i j _ _ Xr Q Z). lra.
Qed.

Lemma minimum_ok : forall xs x, (forall y, In y xs -> (x < y)%R) -> minimum N x xs = x.
Proof.
  induction xs as [|y xs IH]; intros x H; cbn [minimum]; auto. cbn [a_ltb real_axes]. rewrite (proj2 (R_ltb_ge y x)); [|apply Rlt_le, H; now left].
  apply IH. intros z Hz. apply H. now right.
Qed.

Lemma maximum_ok : forall xs x, increasing (x :: xs) -> zth (x :: xs) (zlen xs) = Some (maximum N x xs).
Proof.
  induction xs as [|y xs IH]; intros x I; cbn [maximum]; auto. cbn [a_ltb real_axes]. rewrite (proj2 (R_ltb_lt x y)) by (eapply increasing_head; eauto; now left).
  rewrite zth_cons, zlen_cons. pose proof (zlen_nonneg xs). destruct (Z.eqb_spec (1 + zlen xs) 0); [lia|]. replace (1 + zlen xs - 1) with (zlen xs) by lia.
  apply IH. eapply increasing_cons; eauto.
Qed.

Lemma nearest_support s xs x k : (forall a, In a xs -> s = Log -> (0 < a)%R) -> increasing xs -> zth xs k = Some x -> nearest (scaled s) xs x k.
Proof.
  intros P I H. exists x. split; auto. intros j b Q. rewrite Rminus_diag_eq by auto. rewrite Rabs_R0. split; [apply Rabs_pos|]. intros J.
  apply Rabs_pos_lt. pose proof (I k j x b H Q J). destruct s; cbn [scaled]; [lra|].
  pose proof (log2_increasing x b (P x (zth_In _ _ _ H) eq_refl) H0). lra.
Qed.

Lemma stairs_nearest xs ys x : xs <> [] -> increasing xs -> zlen ys = zlen xs ->
  exists k, nearest (fun x => x) xs x k /\ interpolate_ N StairsLin x xs ys = zth ys k.
Proof.
  intros E I L. destruct (in_dec Req_EM_T x xs) as [Q|Q].
  - apply In_zth in Q as (k & Q). exists k. split; [apply (nearest_support Lin); auto; discriminate|].
    apply interpolate_support; auto using increasing_nodup. exact R_eqb_eq.
  - rewrite interpolate_elsewhere by (auto; exact R_eqb_eq). destruct (stairs_lin_ok x xs ys E I L) as (k & a & H & R). exists k. split; auto. exists a. auto.
Qed.

Lemma stairs_log_nearest xs ys x : xs <> [] -> increasing xs -> positive xs -> zlen ys = zlen xs -> (0 < x)%R ->
  exists k, nearest log2 xs x k /\ interpolate_ N StairsLog x xs ys = zth ys k.
Proof.
  intros E I P L X. destruct (in_dec Req_EM_T x xs) as [Q|Q].
  - apply In_zth in Q as (k & Q). exists k. split; [apply (nearest_support Log); auto|].
    apply interpolate_support; auto using increasing_nodup. exact R_eqb_eq.
  - rewrite interpolate_elsewhere by (auto; exact R_eqb_eq). cbn [interpolation_function stairs_log_]. destruct xs as [|x0 xt]; [easy|]. unfold stairs_log_.
    rewrite minimum_ok by (intros y; apply increasing_head; auto). cbn [a_ltb real_axes].
    destruct (R_ltb x x0) eqn:T; [|destruct (R_ltb (maximum N x0 xt) x) eqn:T'].
    + apply R_ltb_lt in T. exists 0. split; [|apply at_support_ok; auto using increasing_nodup; exact R_eqb_eq].
      exists x0. split; auto. intros j b B. pose proof (zth_range _ _ _ B). pose proof (log2_increasing x x0 X T). destruct (Z.eq_dec j 0) as [->|J].
      * injection B as <-. split; [lra|lia].
      * assert (x0 < b)%R by (eapply (I 0 j); eauto; lia). pose proof (log2_increasing x0 b ltac:(lra) H1). rewrite !Rabs_left1 by lra. split; intros; lra.
    + apply R_ltb_lt in T'. pose proof (maximum_ok xt x0 I) as M. exists (zlen xt). split; [|apply at_support_ok; auto using increasing_nodup; exact R_eqb_eq].
      eexists. split; [exact M|]. intros j b B. pose proof (zth_range _ _ _ B). rewrite zlen_cons in *. set (m := maximum _ _ _) in *.
      assert (0 < m)%R by (apply P; eapply zth_In; eauto). pose proof (log2_increasing m x ltac:(auto) T').
      destruct (Z.eq_dec j (zlen xt)) as [->|J].
      * assert (b = m) by congruence. subst. split; [lra|lia].
      * assert (b < m)%R by (eapply I; [exact B|exact M|lia]). assert (0 < b)%R by (apply P; eapply zth_In; eauto).
        pose proof (log2_increasing b m ltac:(auto) ltac:(auto)). split; [rewrite !Rabs_right; lra|lia].
    + destruct (stairs_lin_ok (log2 x) (map log2 (x0 :: xt)) ys) as (k & a & (A & H) & R); [easy|now apply increasing_log2|now rewrite zlen_map|].
      exists k. split; auto. rewrite zth_map in A. destruct (zth (x0 :: xt) k) as [a'|] eqn:A'; [|discriminate]. injection A as <-. exists a'. split; auto.
      intros j b B. apply H. now rewrite zth_map, B.
Qed.

Lemma stairs_log_below xs ys a x : increasing xs -> zlen ys = zlen xs -> zth xs 0 = Some a -> (x <= a)%R -> interpolate_ N StairsLog x xs ys = zth ys 0.
Proof.
  intros I L A X. destruct (Req_EM_T x a) as [->|Q]; [apply interpolate_support; auto using increasing_nodup; exact R_eqb_eq|].
  destruct xs as [|x0 xt]; [now rewrite zth_nil in A|]. injection A as <-.
  rewrite interpolate_elsewhere; [|exact R_eqb_eq|intros [F|F]; [lra|pose proof (increasing_head _ _ _ I F); lra]].
  cbn [interpolation_function stairs_log_]. rewrite minimum_ok by (intros y; apply increasing_head; auto). cbn [a_ltb real_axes].
  rewrite (proj2 (R_ltb_lt x x0)) by lra. apply at_support_ok; auto using increasing_nodup. exact R_eqb_eq.
Qed.

Hypothesis C : contains_reals O of_real.
Add Field K_field : (reals_field O of_real C).

Lemma of_real_neq x y : x <> y -> o_sub O (of_real x) (of_real y) <> o_zero O.
Proof.
  intros H Q. apply H. assert (x - y = 0)%R; [|lra]. apply (reals_injective O of_real C). now rewrite (reals_sub O of_real C), (reals_zero O of_real C).
Qed.

Lemma mix_ok a x b ya yb : (a < b)%R ->
  o_add O (o_mul O (o_div O (o_sub O yb ya) (of_real (b - a)%R)) (of_real (x - a)%R)) ya = mix O of_real (progress a x b) ya yb.
Proof.
  intros L. unfold mix, progress. rewrite (reals_div O of_real C) by lra. rewrite !(reals_sub O of_real C). field. apply of_real_neq. lra.
Qed.

Lemma linear_ok xs ys k a x b ya yb : increasing xs -> zlen ys = zlen xs -> between_points xs k a x b -> zth ys k = Some ya -> zth ys (k + 1) = Some yb ->
  linear_ N x xs ys = Some (mix O of_real (progress a x b) ya yb).
Proof.
  intros I L (A & B & Q) Ya Yb. pose proof (zth_range _ _ _ A). pose proof (zth_range _ _ _ B). rewrite linear_inside; auto; try lia.
  - rewrite (np_interp_inside xs ys k a x b ya yb); auto; [|now split]. f_equal. apply mix_ok. lra.
  - intros c Hc. pose proof (increasing_le xs 0 k c a I Hc A ltac:(lia)). lra.
  - intros c Hc. pose proof (increasing_le xs (k + 1) (zlen xs - 1) b c I B Hc ltac:(lia)). lra.
Qed.

Lemma line_ok xa ya xb yb x' y x : xa <> xb -> o_sub O y ya = o_mul O (of_real (progress xa x' xb)) (o_sub O yb ya) ->
  line N xa ya xb yb x' y x = mix O of_real (progress xa x xb) ya yb.
Proof.
  intros D Hy. unfold line, mix, progress in *. cbn [of_x real_axes a_sub a_ops]. rewrite (reals_div O of_real C) in Hy by lra. rewrite (reals_div O of_real C) by lra.
  rewrite !(reals_sub O of_real C) in *. pose proof (of_real_neq xb xa ltac:(auto)) as Z.
  transitivity (o_add O (o_add O ya (o_sub O y ya)) (o_mul O (o_div O (o_sub O yb ya) (o_sub O (of_real xb) (of_real xa))) (o_sub O (of_real x) (of_real x')))).
  - field. auto.
  - rewrite Hy. field. auto.
Qed.

Lemma linear_before xs ys a x b ya yb : increasing xs -> zlen ys = zlen xs -> zth xs 0 = Some a -> zth xs 1 = Some b -> zth ys 0 = Some ya -> zth ys 1 = Some yb -> (x < a)%R ->
  linear_ N x xs ys = Some (mix O of_real (progress a x b) ya yb).
Proof.
  intros I L A B Ya Yb Q. destruct xs as [|x0 [|x1 xt]]; try discriminate. destruct ys as [|y0 [|y1 yt]]; try discriminate.
  injection A as <-. injection B as <-. injection Ya as <-. injection Yb as <-. assert (x0 < x1)%R by (apply (I 0 1); auto; lia).
  unfold linear_. cbn [a_ltb real_axes]. rewrite (proj2 (R_ltb_lt x x0)) by auto. f_equal. apply line_ok; [lra|].
  unfold progress. replace ((x0 - x0) / (x1 - x0))%R with 0%R by (field; lra). rewrite (reals_zero O of_real C). ring.
Qed.

Lemma linear_after xs ys a x b ya yb : increasing xs -> zlen ys = zlen xs -> zth xs (zlen xs - 2) = Some a -> zth xs (zlen xs - 1) = Some b ->
  zth ys (zlen xs - 2) = Some ya -> zth ys (zlen xs - 1) = Some yb -> (b < x)%R ->
  linear_ N x xs ys = Some (mix O of_real (progress a x b) ya yb).
Proof.
  intros I L A B Ya Yb Q. pose proof (zth_range _ _ _ A) as RA.
  destruct xs as [|x0 [|x1 xt]]; try short RA. destruct ys as [|y0 [|y1 yt]]; try short L.
  assert (x0 <= b)%R by (apply (increasing_le (x0 :: x1 :: xt) 0 (zlen (x0 :: x1 :: xt) - 1)); auto; lia).
  assert (a < b)%R by (eapply I; eauto; lia).
  unfold linear_. cbn [a_ltb real_axes]. rewrite (proj2 (R_ltb_ge x x0)) by lra.
  remember (x0 :: x1 :: xt) as xs eqn:Ex. remember (y0 :: y1 :: yt) as ys eqn:Ey.
  pose proof (zth_rev xs 0) as R0. pose proof (zth_rev xs 1) as R1. pose proof (zth_rev ys 0) as S0. pose proof (zth_rev ys 1) as S1.
  replace (zlen xs - 1 - 0) with (zlen xs - 1) in R0 by lia. replace (zlen xs - 1 - 1) with (zlen xs - 2) in R1 by lia.
  replace (zlen ys - 1 - 0) with (zlen xs - 1) in S0 by lia. replace (zlen ys - 1 - 1) with (zlen xs - 2) in S1 by lia.
  rewrite A in R1. rewrite B in R0. rewrite Ya in S1. rewrite Yb in S0.
  destruct (rev xs) as [|xl [|xp r]]; try discriminate. destruct (rev ys) as [|yl [|yp r']]; try discriminate.
  injection R0 as ->. injection R1 as ->. injection S0 as ->. injection S1 as ->.
  rewrite (proj2 (R_ltb_lt b x)) by auto. f_equal. apply line_ok; [lra|].
  unfold progress. replace ((b - a) / (b - a))%R with (1 - 0)%R by (field; lra). rewrite (reals_sub O of_real C), (reals_zero O of_real C).
  replace (of_real 1) with (o_one O); [ring|].
  assert (Q1 : of_real 1 = o_div O (of_real 1) (of_real 1)) by (rewrite <- (reals_div O of_real C) by lra; f_equal; field).
  assert (Z : of_real 1 <> o_zero O) by (rewrite <- (reals_zero O of_real C); intros Z; apply (reals_injective O of_real C) in Z; lra).
  rewrite Q1. field. auto.
Qed.

Lemma line_points_elsewhere xs k a x b : increasing xs -> line_points xs k a x b -> ~ In x xs.
Proof.
  intros I (A & B & Q). destruct Q as [Q|[(-> & Q)|(Q1 & Q)]].
  - apply (zth_between xs k a x b); auto. now split.
  - intros F. apply In_zth in F as (j & J). pose proof (zth_range _ _ _ J). pose proof (increasing_le xs 0 j _ _ I A J ltac:(lia)). lra.
  - intros F. apply In_zth in F as (j & J). pose proof (zth_range _ _ _ J). pose proof (increasing_le xs j (k + 1) _ _ I J B ltac:(lia)). lra.
Qed.

Lemma linear_line xs ys k a x b ya yb : increasing xs -> zlen ys = zlen xs -> line_points xs k a x b -> zth ys k = Some ya -> zth ys (k + 1) = Some yb ->
  linear_ N x xs ys = Some (mix O of_real (progress a x b) ya yb).
Proof.
  intros I L (A & B & Q) Ya Yb. destruct Q as [Q|[(-> & Q)|(Q1 & Q)]].
  - apply (linear_ok xs ys k); auto. now split.
  - now apply linear_before.
  - apply linear_after; auto; rewrite <- Q1; [now replace (k + 2 - 2) with k by lia|now replace (k + 2 - 1) with (k + 1) by lia|now replace (k + 2 - 2) with k by lia|now replace (k + 2 - 1) with (k + 1) by lia].
Qed.

Lemma line_points_log xs k a x b : increasing xs -> positive xs -> (0 < x)%R -> line_points xs k a x b -> line_points (map log2 xs) k (log2 a) (log2 x) (log2 b).
Proof.
  intros I P X (A & B & Q). repeat split; try (rewrite zth_map; first [rewrite A|rewrite B]; reflexivity). rewrite zlen_map.
  assert (0 < a)%R by (apply P; eapply zth_In; eauto). assert (0 < b)%R by (apply P; eapply zth_In; eauto).
  destruct Q as [Q|[(-> & Q)|(Q1 & Q)]]; [left|right; left|right; right]; repeat split; auto; now apply log2_increasing.
Qed.

(** [_linear] after the x axis has been scaled *)
Lemma linear_scaled s xs ys k a x b ya yb : increasing xs -> on_scale s xs x -> zlen ys = zlen xs -> line_points xs k a x b -> zth ys k = Some ya -> zth ys (k + 1) = Some yb ->
  linear_ N (scaled s x) (map (scaled s) xs) ys = Some (mix O of_real (progress (scaled s a) (scaled s x) (scaled s b)) ya yb).
Proof.
  intros I S L P Ya Yb. destruct s; cbn [scaled on_scale] in *.
  - rewrite map_id. now apply (linear_line xs ys k).
  - destruct S as (S & X). apply (linear_line (map log2 xs) ys k); auto.
    + now apply increasing_log2.
    + now rewrite zlen_map.
    + now apply line_points_log.
Qed.

Lemma interpolate_linear_y i s xs ys k a x b ya yb : linear_y i -> x_scale i = Some s -> increasing xs -> on_scale s xs x -> zlen ys = zlen xs ->
  line_points xs k a x b -> zth ys k = Some ya -> zth ys (k + 1) = Some yb ->
  interpolate_ N i x xs ys = Some (mix O of_real (progress (scaled s a) (scaled s x) (scaled s b)) ya yb).
Proof.
  intros Y S I On L P Ya Yb. rewrite interpolate_elsewhere; [|exact R_eqb_eq|eapply line_points_elsewhere; eauto].
  rewrite <- (linear_scaled s xs ys k a x b ya yb); auto.
  destruct Y as [-> | ->]; injection S as <-; cbn [interpolation_function scaled]; [now rewrite map_id|reflexivity].
Qed.

Lemma stairs_one_point x x0 y0 : stairs_lin_ N x [x0] [y0] = Some y0.
Proof.
  destruct (stairs_lin_ok x [x0] [y0]) as (k & a & (A & _) & R); try easy.
  - intros m j c d M J Q. apply zth_range in M. apply zth_range in J. unfold zlen in *. cbn [List.length] in *. lia.
  - apply zth_range in A. unfold zlen in A. cbn [List.length] in A. rewrite R. now replace k with 0 by lia.
Qed.

Lemma interpolate_one_point i x x0 y0 : i <> Zero -> i <> One -> ~ logarithmic_y i -> interpolate_ N i x [x0] [y0] = Some y0.
Proof.
  intros Z1 Z2 Z3. unfold interpolate_, interpolation_. cbn [existsb at_support]. destruct (a_eqb N x0 x) eqn:Q; cbn [orb]; auto.
  destruct i; try easy; cbn [interpolation_function linear_ map]; auto.
  - exfalso. apply Z3. now right.
  - exfalso. apply Z3. now left.
  - apply stairs_one_point.
  - unfold stairs_log_. cbn [minimum maximum at_support]. cbn [a_ltb a_eqb real_axes]. rewrite (proj2 (R_eqb_eq x0 x0) eq_refl).
    destruct (R_ltb x x0); auto. destruct (R_ltb x0 x); auto. cbn [map]. apply stairs_one_point.
Qed.

End Real.

(** ** Real values *)

Lemma real_contains_reals power modulo : contains_reals (real_ops power modulo) (fun x => x).
Proof.
  constructor; cbn; auto. constructor; cbn.
  - constructor; intros; ring.
  - lra.
  - intros. unfold Rdiv. ring.
  - intros. field. auto.
Qed.

Section RealValues.
Variables power modulo : R -> R -> R.
Notation O := (real_ops power modulo).
Notation N := (real_axes O (fun x => x) log2 exp2).

Lemma ln2_pos : (0 < ln 2)%R.
Proof. rewrite <- ln_1. apply ln_increasing; lra. Qed.

Lemma exp2_log2 y : (0 < y)%R -> exp2 (log2 y) = y.
Proof. intros H. unfold exp2, log2, Rpower. replace (ln y / ln 2 * ln 2)%R with (ln y) by (field; pose proof ln2_pos; lra). now apply exp_ln. Qed.

Lemma exp2_mix t y0 y1 : (0 < y0)%R -> (0 < y1)%R -> exp2 (mix O (fun x => x) t (log2 y0) (log2 y1)) = geometric_mix t y0 y1.
Proof.
  intros H0 H1. unfold exp2, geometric_mix, mix, Rpower, log2. cbn. rewrite <- exp_plus. f_equal. field. pose proof ln2_pos. lra.
Qed.

Lemma interpolate_log_y i s xs ys k a x b ya yb : logarithmic_y i -> x_scale i = Some s -> increasing xs -> on_scale s xs x -> zlen ys = zlen xs -> positive ys ->
  line_points xs k a x b -> zth ys k = Some ya -> zth ys (k + 1) = Some yb ->
  interpolate_ N i x xs ys = Some (geometric_mix (progress (scaled s a) (scaled s x) (scaled s b)) ya yb).
Proof.
  intros Y S I On L Py P Ya Yb. rewrite interpolate_elsewhere; [|exact R_eqb_eq|eapply line_points_elsewhere; eauto].
  rewrite <- exp2_mix by (apply Py; eapply zth_In; eauto).
  pose proof (linear_scaled O (fun x => x) log2 exp2 (real_contains_reals power modulo) s xs (map log2 ys) k a x b (log2 ya) (log2 yb) I On) as Q.
  rewrite zlen_map in Q. specialize (Q L P). rewrite !zth_map, Ya, Yb in Q. specialize (Q eq_refl eq_refl).
  destruct Y as [-> | ->]; injection S as <-; cbn [interpolation_function scaled log2_k log2_x exp2_k real_axes] in *; [rewrite map_id in Q|change (map (scaled Log) xs) with (map log2 xs) in Q]; now rewrite Q.
Qed.

Lemma progress_between a x b : (a < x < b)%R -> (0 < progress a x b < 1)%R.
Proof.
  intros H. unfold progress. split; [apply Rdiv_lt_0_compat; lra|]. apply (Rmult_lt_reg_r (b - a)); [lra|].
  unfold Rdiv. rewrite Rmult_assoc, Rinv_l by lra. lra.
Qed.

Lemma mix_between t y0 y1 : (0 < t < 1)%R -> (Rmin y0 y1 <= mix O (fun x => x) t y0 y1 <= Rmax y0 y1)%R.
Proof. intros T. unfold mix. cbn. unfold Rmin, Rmax. destruct (Rle_dec y0 y1); split; nra. Qed.

Lemma Rpower_same y p : (0 < y)%R -> (Rpower y (1 - p) * Rpower y p = y)%R.
Proof. intros H. rewrite <- Rpower_plus. replace (1 - p + p)%R with 1%R by lra. now apply Rpower_1. Qed.

Lemma geometric_between t y0 y1 : (0 < y0)%R -> (0 < y1)%R -> (0 < t < 1)%R -> (Rmin y0 y1 <= geometric_mix t y0 y1 <= Rmax y0 y1)%R.
Proof.
  intros H0 H1 T. unfold geometric_mix. assert (P : forall z p, (0 < Rpower z p)%R) by (intros; apply exp_pos).
  pose proof (P y0 (1 - t)%R). pose proof (P y1 t). pose proof (P y1 (1 - t)%R). pose proof (P y0 t).
  unfold Rmin, Rmax. destruct (Rle_dec y0 y1) as [L|L].
  - pose proof (Rle_Rpower_l y0 y1 t ltac:(lra) ltac:(lra)). pose proof (Rle_Rpower_l y0 y1 (1 - t) ltac:(lra) ltac:(lra)).
    split; [rewrite <- (Rpower_same y0 t H0) at 1; apply Rmult_le_compat_l|apply (Rle_trans _ (Rpower y1 (1 - t) * Rpower y1 t)); [apply Rmult_le_compat_r|rewrite Rpower_same]]; lra.
  - pose proof (Rle_Rpower_l y1 y0 t ltac:(lra) ltac:(lra)). pose proof (Rle_Rpower_l y1 y0 (1 - t) ltac:(lra) ltac:(lra)).
    split; [rewrite <- (Rpower_same y1 t H1) at 1; apply Rmult_le_compat_r|apply (Rle_trans _ (Rpower y0 (1 - t) * Rpower y0 t)); [apply Rmult_le_compat_l|rewrite Rpower_same]]; lra.
Qed.

Lemma scaled_increasing s xs x a b : on_scale s xs x -> (s = Log -> (0 < a)%R) -> (a < b)%R -> (scaled s a < scaled s b)%R.
Proof. destruct s; cbn; auto. intros _ H. now apply log2_increasing, H. Qed.

Lemma nearest_between s xs k a x b m : increasing xs -> on_scale s xs x -> between_points xs k a x b -> nearest (scaled s) xs x m -> m = k \/ m = k + 1.
Proof.
  intros I On (A & B & Q) (c & C & H).
  assert (Pos : forall d, In d xs -> s = Log -> (0 < d)%R) by (intros d F E; subst s; apply On; auto).
  assert (scaled s a < scaled s x)%R by (eapply scaled_increasing; eauto; [apply Pos; eapply zth_In; eauto|lra]).
  assert (scaled s x < scaled s b)%R by (eapply scaled_increasing; eauto; [intros E; subst s; apply On|lra]).
  destruct (Z.lt_trichotomy m k) as [M|[M|M]]; auto.
  - destruct (H k a A) as (Hd & _). pose proof (I m k c a C A M).
    assert (scaled s c < scaled s a)%R by (eapply scaled_increasing; eauto; apply Pos; eapply zth_In; eauto). rewrite !Rabs_right in Hd by lra. lra.
  - destruct (Z.eq_dec m (k + 1)); auto. destruct (H (k + 1) b B) as (Hd & _). assert (b < c)%R by (eapply (I (k + 1) m); eauto; lia).
    assert (scaled s b < scaled s c)%R by (eapply scaled_increasing; eauto; apply Pos; eapply zth_In; eauto). rewrite !Rabs_left in Hd by lra. lra.
Qed.

Lemma interpolate_between i s xs ys k a x b ya yb : x_scale i = Some s -> increasing xs -> on_scale s xs x -> zlen ys = zlen xs -> (logarithmic_y i -> positive ys) ->
  between_points xs k a x b -> zth ys k = Some ya -> zth ys (k + 1) = Some yb ->
  exists y, interpolate_ N i x xs ys = Some y /\ (Rmin ya yb <= y <= Rmax ya yb)%R.
Proof.
  intros S I On L Py P Ya Yb. assert (LP : line_points xs k a x b) by (destruct P as (A & B & Q); split; [|split]; auto).
  assert (T : (0 < progress (scaled s a) (scaled s x) (scaled s b) < 1)%R).
  { apply progress_between. destruct P as (A & B & Q). destruct s; cbn in *; auto. destruct On as (On & X). split; apply log2_increasing; try lra. apply On. eapply zth_In; eauto. }
  assert (St : forall m, nearest (scaled s) xs x m -> exists y, zth ys m = Some y /\ (Rmin ya yb <= y <= Rmax ya yb)%R).
  { intros m M. destruct (nearest_between s xs k a x b m I On P M) as [-> | ->]; [exists ya|exists yb]; split; auto; split;
      [apply Rmin_l|apply Rmax_l|apply Rmin_r|apply Rmax_r]. }
  assert (NE : xs <> []) by (intros ->; destruct P as (A & _); now rewrite zth_nil in A).
  destruct i; try discriminate; injection S as <-.
  - eexists. split; [eapply interpolate_linear_y; eauto; [apply real_contains_reals|now left|reflexivity]|]. now apply mix_between.
  - eexists. split; [eapply interpolate_log_y; eauto; [now right|reflexivity|apply Py; now right]|].
    apply geometric_between; auto; apply Py; (now right) || (eapply zth_In; eauto).
  - eexists. split; [eapply interpolate_linear_y; eauto; [apply real_contains_reals|now right|reflexivity]|]. now apply mix_between.
  - eexists. split; [eapply interpolate_log_y; eauto; [now left|reflexivity|apply Py; now left]|].
    apply geometric_between; auto; apply Py; (now left) || (eapply zth_In; eauto).
  - destruct (stairs_nearest O (fun x => x) log2 exp2 xs ys x NE I L) as (m & M & R). rewrite R. now apply St.
  - destruct On as (On & X). destruct (stairs_log_nearest O (fun x => x) log2 exp2 xs ys x NE I On L X) as (m & M & R). rewrite R. now apply St.
Qed.

End RealValues.

(** Tactics for examples *)
Ltac show_increasing := repeat (first [apply increasing_nil|apply increasing_intro; [intros ? Q; cbn [In] in Q; repeat (destruct Q as [Q|Q]; [subst; lra|]); easy|]]).
Ltac show_positive := intros ? Q; cbn [In] in Q; repeat (destruct Q as [Q|Q]; [subst; lra|]); easy.

(** ** Bands *)

Lemma last_zth {Y} : forall (l : list Y) d x, zth (x :: l) (zlen l) = Some (last (x :: l) d).
Proof.
  induction l as [|y l IH]; intros d x; [reflexivity|]. change (last (x :: y :: l) d) with (last (y :: l) d). rewrite <- IH, zth_cons, zlen_cons.
  pose proof (zlen_nonneg l). destruct (Z.eqb_spec (1 + zlen l) 0); [lia|]. now replace (1 + zlen l - 1) with (zlen l) by lia.
Qed.

Lemma bands_support K (A : arithmetic K R) log2_k exp2_k of_real inter extra xs ys k x y junk (transformed : bool) :
  (forall i, interpolate A i = interpolate_ (real_axes (k_ops A) of_real log2_k exp2_k) i) ->
  increasing xs -> zlen ys = zlen xs -> zth xs k = Some x -> zth ys k = Some y ->
  call A junk x (Bands xs ys inter extra) transformed false = (Some y, false).
Proof.
  intros HI I L Hx Hy. cbn. unfold bands_at. destruct xs as [|x0 xt]; [now rewrite zth_nil in Hx|].
  rewrite !HI, !(interpolate_support (real_axes (k_ops A) of_real log2_k exp2_k) R_eqb_eq _ (x0 :: xt) ys k x), Hy; auto using increasing_nodup. now destruct (_ || _).
Qed.

Lemma interpolate_constants K (O : ops K) of_real log2_k exp2_k x xs ys : ~ In x xs ->
  interpolate_ (real_axes O of_real log2_k exp2_k) Zero x xs ys = Some (o_zero O) /\
  interpolate_ (real_axes O of_real log2_k exp2_k) One x xs ys = Some (o_one O).
Proof. intros H. split; rewrite interpolate_elsewhere; auto; exact R_eqb_eq. Qed.

Lemma nearest_unique s xs x k m : nearest s xs x k -> nearest s xs x m -> k = m.
Proof.
  intros (a & A & H) (b & B & H'). destruct (H m b B) as (L & S). destruct (H' k a A) as (L' & S').
  destruct (Z.lt_trichotomy k m) as [Q|[Q|Q]]; auto; [specialize (S Q)|specialize (S' Q)]; lra.
Qed.

(** ** Examples *)

Lemma log2_four : log2 4 = 2%R /\ log2 2 = 1%R /\ log2 1 = 0%R.
Proof.
  pose proof ln2_pos. unfold log2. replace 4%R with (2 * 2)%R by lra. rewrite ln_mult, ln_1 by lra. repeat split; field; lra.
Qed.

Lemma interpolation_example power modulo :
  (interpolate_ (real_axes (real_ops power modulo) (fun x => x) log2 exp2) Logarithmic 2 [1; 4; 5] [2; 8; 3] = Some 4 /\
   interpolate_ (real_axes (real_ops power modulo) (fun x => x) log2 exp2) LogX 2 [1; 4; 5] [2; -8; 3] = Some (-3) /\
   interpolate_ (real_axes (real_ops power modulo) (fun x => x) log2 exp2) Linear 2 [1; 4; 5] [2; -8; 3] = Some (-4/3) /\
   interpolate_ (real_axes (real_ops power modulo) (fun x => x) log2 exp2) Linear 7 [1; 4; 5] [2; -8; 3] = Some 25)%R.
Proof.
  assert (I : increasing [1; 4; 5]%R) by show_increasing. assert (P : positive [1; 4; 5]%R) by show_positive.
  destruct log2_four as (L4 & L2 & L1).
  assert (Lp : line_points [1; 4; 5]%R 0 1 2 4) by (split; [reflexivity|split; [reflexivity|left; lra]]).
  repeat split.
  - rewrite (interpolate_log_y power modulo Logarithmic Log [1; 4; 5]%R [2; 8; 3]%R 0 1 2 4 2 8); try (reflexivity || easy); [|now right|split; [auto|lra]|show_positive].
    f_equal. cbn [scaled]. rewrite L1, L2, L4. unfold progress, geometric_mix. replace ((1 - 0) / (2 - 0))%R with (/2)%R by lra. replace (1 - /2)%R with (/2)%R by lra.
    rewrite Rpower_mult_distr by lra. replace (2 * 8)%R with (4 * 4)%R by lra. rewrite Rpower_sqrt by lra. apply sqrt_square. lra.
  - rewrite (interpolate_linear_y (real_ops power modulo) (fun x => x) log2 exp2 (real_contains_reals power modulo) LogX Log [1; 4; 5]%R [2; -8; 3]%R 0 1 2 4 2%R (-8)%R);
      try (reflexivity || easy); [|now right|split; [auto|lra]].
    f_equal. cbn [scaled]. rewrite L1, L2, L4. unfold progress, mix. cbn. lra.
  - rewrite (interpolate_linear_y (real_ops power modulo) (fun x => x) log2 exp2 (real_contains_reals power modulo) Linear Lin [1; 4; 5]%R [2; -8; 3]%R 0 1 2 4 2%R (-8)%R);
      try (reflexivity || easy); [|now left].
    f_equal. unfold progress, mix. cbn. lra.
  - rewrite (interpolate_linear_y (real_ops power modulo) (fun x => x) log2 exp2 (real_contains_reals power modulo) Linear Lin [1; 4; 5]%R [2; -8; 3]%R 1 4 7 5 (-8)%R 3%R);
      try (reflexivity || easy); [|now left|split; [reflexivity|split; [reflexivity|right; right; split; [reflexivity|lra]]]].
    f_equal. unfold progress, mix. cbn. lra.
Qed.

Lemma stairs_example K (O : ops K) of_real log2_k exp2_k y1 y4 :
  interpolate_ (real_axes O of_real log2_k exp2_k) StairsLin (24/10)%R [1; 4]%R [y1; y4] = Some y1 /\
  interpolate_ (real_axes O of_real log2_k exp2_k) StairsLog (24/10)%R [1; 4]%R [y1; y4] = Some y4 /\
  interpolate_ (real_axes O of_real log2_k exp2_k) StairsLin (25/10)%R [1; 4]%R [y1; y4] = Some y4.
Proof.
  assert (I : increasing [1; 4]%R) by show_increasing. assert (P : positive [1; 4]%R) by show_positive. destruct log2_four as (L4 & L2 & L1).
  assert (Idx : forall k a, zth [1; 4]%R k = Some a -> k = 0 /\ a = 1%R \/ k = 1 /\ a = 4%R).
  { intros k a Q. pose proof (zth_range _ _ _ Q) as G. unfold zlen in G. cbn [List.length] in G. assert (k = 0 \/ k = 1) as [-> | ->] by lia; injection Q as <-; auto. }
  repeat split.
  - destruct (stairs_nearest O of_real log2_k exp2_k [1; 4]%R [y1; y4] (24/10)%R) as (k & (a & A & H) & ->); try easy.
    destruct (Idx _ _ A) as [(-> & ->)|(-> & ->)]; auto. destruct (H 0 1%R eq_refl) as (H0 & _). rewrite Rabs_left, Rabs_right in H0; lra.
  - destruct (stairs_log_nearest O of_real log2_k exp2_k [1; 4]%R [y1; y4] (24/10)%R) as (k & (a & A & H) & ->); try easy; [lra|].
    assert (B1 : (1 < log2 (24/10)%R)%R) by (rewrite <- L2; apply log2_increasing; lra).
    assert (B2 : (log2 (24/10)%R < 2)%R) by (rewrite <- L4; apply log2_increasing; lra).
    destruct (Idx _ _ A) as [(-> & ->)|(-> & ->)]; auto. destruct (H 1 4%R eq_refl) as (H0 & _). rewrite L1, L4 in H0. rewrite Rabs_right, Rabs_left in H0; lra.
  - destruct (stairs_nearest O of_real log2_k exp2_k [1; 4]%R [y1; y4] (25/10)%R) as (k & (a & A & H) & ->); try easy.
    destruct (Idx _ _ A) as [(-> & ->)|(-> & ->)]; auto. destruct (H 1 4%R eq_refl) as (_ & H0). specialize (H0 ltac:(lia)). rewrite Rabs_right, Rabs_left in H0; lra.
Qed.
