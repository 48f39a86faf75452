(** Proofs about fades and windows. *)

From Coq Require Import String ZArith QArith List Bool Lia ZifyBool.
From Verif.Model Require Import Py Numpy Functions Signal Vector Generators.
From Verif.Spec Require Import TimeSpec GeneratorsSpec.
From Verif.Proofs Require Import PyFacts NumpyFacts SignalAlgebra VectorFacts.
Import ListNotations.
Open Scope list_scope.
Open Scope Z_scope.

Section Fade.
Context {A : Type}.
Variable O : ops A.
Hypothesis Laws : zero_one_laws O.
Variable w : Z -> list A.
Hypothesis W : forall n, 0 <= n -> zlen (w n) = n.

Lemma mul_one_r x : lift2 (o_mul O) x (Some (o_one O)) = x.
Proof. destruct x as [x|]; cbn; auto. f_equal. apply Laws. Qed.
Lemma mul_one_l x : lift2 (o_mul O) (Some (o_one O)) x = x.
Proof. destruct x as [x|]; cbn; auto. f_equal. apply Laws. Qed.
Lemma mul_zero_l x : x <> None -> lift2 (o_mul O) (Some (o_zero O)) x = Some (o_zero O).
Proof. destruct x as [x|]; cbn; [|now intros H; elim H]. intros _. f_equal. apply Laws. Qed.
Lemma mul_zero_r x : x <> None -> lift2 (o_mul O) x (Some (o_zero O)) = Some (o_zero O).
Proof. destruct x as [x|]; cbn; [|now intros H; elim H]. intros _. f_equal. apply Laws. Qed.
Lemma add_zero_l x : lift2 (o_add O) (Some (o_zero O)) x = x.
Proof. destruct x as [x|]; cbn; auto. f_equal. apply Laws. Qed.
Lemma add_zero_r x : lift2 (o_add O) x (Some (o_zero O)) = x.
Proof. destruct x as [x|]; cbn; auto. f_equal. apply Laws. Qed.

Lemma w_some n i : 0 <= i < n -> zth (w n) i <> None.
Proof. intros H. destruct (zth_in (w n) i) as [x ->]; [rewrite W; lia|discriminate]. Qed.

Lemma rising_some a b t : rising O w a b t <> None.
Proof. unfold rising. zcase; [discriminate|]. zcase; [apply w_some; lia|discriminate]. Qed.
Lemma falling_some a b t : falling O w a b t <> None.
Proof. unfold falling. zcase; [discriminate|]. zcase; [apply w_some; lia|discriminate]. Qed.

(** Moving a slope. *)
Lemma rising_shift a b t k : rising O w (a + k) (b + k) (t + k) = rising O w a b t.
Proof. unfold rising. replace (b + k - (a + k)) with (b - a) by lia. replace (t + k - (a + k)) with (t - a) by lia. zcases. Qed.
Lemma falling_shift a b t k : falling O w (a + k) (b + k) (t + k) = falling O w a b t.
Proof. unfold falling. replace (b + k - (a + k)) with (b - a) by lia. replace (t + k - (a + k)) with (t - a) by lia. zcases. Qed.

Lemma zth_product f (v v' : list A) i : (zth (map2 f v v') i) = lift2 f (zth v i) (zth v' i).
Proof. rewrite zth_map2. reflexivity. Qed.

Ltac wlen := rewrite ?W by lia.
Ltac v_lia ::= rewrite ?W by lia; lia.
Ltac weq := solve [f_equal; try lia; f_equal; lia].
Ltac settle :=
  unfold rising, falling;
  zcases; rewrite ?mul_one_r, ?mul_one_l, ?add_zero_l, ?add_zero_r; try reflexivity; try weq; try lia.

Ltac v_map2 u L H :=
  match goal with
  | |- context [vmap2 ?f ?a ?b] =>
      let E := fresh in destruct (vmap2_ok f a b) as (u & E & L & H);
      [repeat first [rewrite zlen_between by v_lia | rewrite zlen_from by v_lia]; v_lia|rewrite E; clear E; cbn [bind]]
  end.

Lemma fade_in_out_ok out rs fs fl : 0 <= rs -> 0 <= fs -> 0 <= fl -> zlen out = Z.max rs (fs + fl) ->
  exists r, fade_in_out O w rs fs fl out = Ok r /\ zlen r = zlen out /\
    forall t, 0 <= t < zlen out -> zth r t = lift2 (o_mul O) (rising O w 0 rs t) (falling O w fs (fs + fl) t).
Proof.
  intros Rs Fs Fl L. unfold fade_in_out. destruct (rs =? fs) eqn:E1.
  - destruct (rs =? fl) eqn:E2.
    + rewrite vset_everything by (wlen; lia). eexists. split; [reflexivity|]. split; [wlen; lia|]. intros t T. settle.
    + v_step v1 L1 H1. v_step v2 L2 H2. exists v2. split; [reflexivity|]. split; [lia|]. intros t T.
      rewrite H2, H1, zth_between, zth_from by v_lia. rewrite ?W by lia. settle.
  - assert (P : exists fi fo, (if rs =? fl then (subseq (between 0 rs) (w (rs + fl)), subseq (from rs) (w (rs + fl)))
      else (subseq (between 0 rs) (w (2 * rs)), subseq (from fl) (w (2 * fl)))) = (fi, fo) /\ zlen fi = rs /\ zlen fo = fl /\
      (forall i, 0 <= i < rs -> zth fi i = zth (w (2 * rs)) i) /\ (forall i, 0 <= i < fl -> zth fo i = zth (w (2 * fl)) (fl + i))).
    { destruct (rs =? fl) eqn:E2.
      - do 2 eexists. split; [reflexivity|]. rewrite zlen_between, zlen_from by v_lia. wlen. split; [lia|]. split; [lia|]. split; intros i I.
        + rewrite zth_between by v_lia. replace (_ && _) with true by lia. weq.
        + rewrite zth_from by v_lia. wlen. replace (_ && _) with true by lia. weq.
      - do 2 eexists. split; [reflexivity|]. rewrite zlen_between, zlen_from by v_lia. wlen. split; [lia|]. split; [lia|]. split; intros i I.
        + rewrite zth_between by v_lia. replace (_ && _) with true by lia. weq.
        + rewrite zth_from by v_lia. wlen. replace (_ && _) with true by lia. weq. }
    destruct P as (fi & fo & -> & Li & Lo & Hi & Ho). destruct (rs <=? fs) eqn:E3.
    + v_step v1 L1 H1. v_fill v2 L2 H2. v_step v3 L3 H3. exists v3. split; [reflexivity|]. split; [lia|]. intros t T.
      rewrite H3, H2, H1. zcases; rewrite ?Hi, ?Ho by lia; settle.
    + v_step v1 L1 H1. destruct (zlen out <=? fs + fl) eqn:E4.
      * v_map2 u Lu Hu. rewrite zlen_between in Lu by lia. v_step v2 L2 H2. v_step v3 L3 H3. exists v3. split; [reflexivity|]. split; [lia|].
        intros t T. rewrite H3, H2, H1, Hu, !zth_between, !zth_from by lia. 
        zcases; rewrite ?Hi, ?Ho by lia; unfold rising, falling; zcases; rewrite ?mul_one_r, ?mul_one_l; try weq.
        unfold lift2. replace (w (2 * (rs - 0))) with (w (2 * rs)) by (f_equal; lia). replace (w (2 * (fs + fl - fs))) with (w (2 * fl)) by (f_equal; lia).
        replace (t - fs + fs) with (t - 0) by lia. replace (fl + (t - fs + 0)) with (fs + fl - fs + (t - fs)) by lia. reflexivity.
      * v_map2 u Lu Hu. rewrite zlen_between in Lu by lia. v_step v2 L2 H2. v_fill v3 L3 H3. exists v3. split; [reflexivity|]. split; [lia|].
        intros t T. rewrite H3, H2, H1, Hu, !zth_between by lia. 
        zcases; rewrite ?Hi, ?Ho by lia; unfold rising, falling; zcases; rewrite ?mul_one_r, ?mul_one_l; try weq.
        -- symmetry. apply mul_zero_r. apply w_some. lia.
        -- unfold lift2. replace (w (2 * (rs - 0))) with (w (2 * rs)) by (f_equal; lia). replace (w (2 * (fs + fl - fs))) with (w (2 * fl)) by (f_equal; lia).
           replace (t - fs + fs) with (t - 0) by lia. replace (fl + (t - fs)) with (fs + fl - fs + (t - fs)) by lia. reflexivity.
Qed.

Lemma fade_out_in_ok out fs rs rl : 0 <= fs -> 0 <= rs -> 0 <= rl -> zlen out = Z.max fs (rs + rl) ->
  exists r, fade_out_in O w fs rs rl out = Ok r /\ zlen r = zlen out /\
    forall t, 0 <= t < zlen out -> zth r t = lift2 (o_add O) (falling O w 0 fs t) (rising O w rs (rs + rl) t).
Proof.
  intros Fs Rs Rl L. unfold fade_out_in.
  assert (P : exists fo fi, (if fs =? rl then (subseq (from fs) (w (fs + rl)), subseq (between 0 rl) (w (fs + rl)))
      else (subseq (from fs) (w (2 * fs)), subseq (between 0 rl) (w (2 * rl)))) = (fo, fi) /\ zlen fo = fs /\ zlen fi = rl /\
      (forall i, 0 <= i < rl -> zth fi i = zth (w (2 * rl)) i) /\ (forall i, 0 <= i < fs -> zth fo i = zth (w (2 * fs)) (fs + i))).
  { destruct (fs =? rl) eqn:E2.
    - do 2 eexists. split; [reflexivity|]. rewrite zlen_between, zlen_from by v_lia. wlen. split; [lia|]. split; [lia|]. split; intros i I.
      + rewrite zth_between by v_lia. replace (_ && _) with true by lia. weq.
      + rewrite zth_from by v_lia. wlen. replace (_ && _) with true by lia. weq.
    - do 2 eexists. split; [reflexivity|]. rewrite zlen_between, zlen_from by v_lia. wlen. split; [lia|]. split; [lia|]. split; intros i I.
      + rewrite zth_between by v_lia. replace (_ && _) with true by lia. weq.
      + rewrite zth_from by v_lia. wlen. replace (_ && _) with true by lia. weq. }
  destruct P as (fo & fi & -> & Lo & Li & Hi & Ho). destruct (fs <=? rs) eqn:E3.
  - v_step v1 L1 H1. v_fill v2 L2 H2. v_step v3 L3 H3. exists v3. split; [reflexivity|]. split; [lia|]. intros t T.
    rewrite H3, H2, H1. zcases; rewrite ?Hi, ?Ho by lia; settle.
  - v_step v1 L1 H1. destruct (zlen v1 <=? rs + rl) eqn:E4.
    + v_map2 u Lu Hu. rewrite zlen_between in Lu by lia. v_step v2 L2 H2. v_step v3 L3 H3. exists v3. split; [reflexivity|]. split; [lia|].
      intros t T. rewrite H3, H2, H1, Hu, !zth_between, !zth_from by lia. 
      zcases; rewrite ?Hi, ?Ho by lia; unfold rising, falling; zcases; rewrite ?add_zero_r, ?add_zero_l; try weq.
      unfold lift2. replace (w (2 * (fs - 0))) with (w (2 * fs)) by (f_equal; lia). replace (w (2 * (rs + rl - rs))) with (w (2 * rl)) by (f_equal; lia).
      replace (t - rs + 0) with (t - rs) by lia. replace (fs + (t - rs + rs)) with (fs - 0 + (t - 0)) by lia. reflexivity.
    + v_map2 u Lu Hu. rewrite zlen_between in Lu by lia. v_step v2 L2 H2. v_step v3 L3 H3. exists v3. split; [reflexivity|]. split; [lia|].
      intros t T. rewrite H3, zth_map, H2, H1, Hu, !zth_between, !zth_from by lia. 
      zcases; rewrite ?Hi, ?Ho by lia; unfold rising, falling; zcases; rewrite ?add_zero_r, ?add_zero_l; try weq.
      * replace (fs - 0 + (t - 0)) with (fs + (t - (rs + rl) + (rs + rl))) by lia. replace (2 * (fs - 0)) with (2 * fs) by lia.
        destruct (zth _ _); reflexivity.
      * unfold lift2. replace (w (2 * (fs - 0))) with (w (2 * fs)) by (f_equal; lia). replace (w (2 * (rs + rl - rs))) with (w (2 * rl)) by (f_equal; lia).
        replace (fs + (t - rs + rs)) with (fs - 0 + (t - 0)) by lia. reflexivity.
Qed.

Lemma write_view_ok (channel : list A) a b f r : 0 <= a <= b -> b <= zlen channel -> f (subseq (between a b) channel) = Ok r -> zlen r = b - a ->
  exists c, write_view channel (between a b) f = Ok c /\ zlen c = zlen channel /\
    forall i, zth c i = if (a <=? i) && (i <? b) then zth r (i - a) else zth channel i.
Proof. intros A1 A2 E L. unfold write_view. rewrite E. cbn [bind]. now apply vset_between. Qed.

Lemma fade_channel_ok rise fall channel : inside (zlen channel) rise -> inside (zlen channel) fall ->
  exists r label, fade_channel O w rise fall channel = Ok (r, label) /\ zlen r = zlen channel /\
    forall t, 0 <= t < zlen channel -> zth r t =
      if out_first rise fall then lift2 (o_add O) (falling_or_one O w fall t) (rising_or_one O w rise t)
      else lift2 (o_mul O) (rising_or_one O w rise t) (falling_or_one O w fall t).
Proof.
  intros R F. destruct rise as [[r0 r1]|], fall as [[f0 f1]|]; cbn [fade_channel out_first rising_or_one falling_or_one inside] in *.
  - set (cond := (r0 <? f0) || _). replace (negb ((r0 <? f0) || (_ && (f0 <? f1)))) with (negb cond).
    2: { subst cond. f_equal. f_equal. destruct (f0 =? f1) eqn:E; destruct (f0 <? f1) eqn:E'; auto; lia. }
    destruct cond eqn:C; subst cond; cbn [negb].
    + assert (M : Z.min r0 f0 = r0) by lia. rewrite M. v_fill v1 L1 H1.
      destruct (fade_in_out_ok (subseq (between r0 (Z.max r1 f1)) v1) (r1 - r0) (f0 - r0) (f1 - f0)) as (v & E & Lv & Hv); try lia.
      { rewrite zlen_between by lia. lia. }
      rewrite zlen_between in Lv, Hv by lia.
      destruct (write_view_ok v1 r0 (Z.max r1 f1) _ v ltac:(lia) ltac:(lia) E Lv) as (v2 & -> & L2 & H2). cbn [bind].
      v_fill v3 L3 H3. exists v3. eexists. split; [reflexivity|]. split; [lia|]. intros t T. rewrite H3, H2, H1.
      destruct (Z_lt_ge_dec t r0); [|destruct (Z_lt_ge_dec t (Z.max r1 f1))].
      * replace (_ && _) with false by lia. replace (_ && _) with false by lia. replace (_ && _) with true by lia.
        symmetry. replace (rising O w r0 r1 t) with (Some (o_zero O)) by (unfold rising; zcases). apply mul_zero_l, falling_some.
      * replace (_ && _) with false by lia. replace (_ && _) with true by lia. rewrite Hv by lia.
        rewrite <- (rising_shift 0 (r1 - r0) (t - r0) r0), <- (falling_shift (f0 - r0) _ (t - r0) r0). do 2 f_equal; lia.
      * replace (_ && _) with true by lia. symmetry. replace (falling O w f0 f1 t) with (Some (o_zero O)) by (unfold falling; zcases).
        apply mul_zero_r, rising_some.
    + assert (M : Z.min f0 r0 = f0) by lia. rewrite M. v_fill v1 L1 H1.
      destruct (fade_out_in_ok (subseq (between f0 (Z.max f1 r1)) v1) (f1 - f0) (r0 - f0) (r1 - r0)) as (v & E & Lv & Hv); try lia.
      { rewrite zlen_between by lia. lia. }
      rewrite zlen_between in Lv, Hv by lia.
      destruct (write_view_ok v1 f0 (Z.max f1 r1) _ v ltac:(lia) ltac:(lia) E Lv) as (v2 & -> & L2 & H2). cbn [bind].
      v_fill v3 L3 H3. exists v3. eexists. split; [reflexivity|]. split; [lia|]. intros t T. rewrite H3, H2, H1.
      destruct (Z_lt_ge_dec t f0); [|destruct (Z_lt_ge_dec t (Z.max f1 r1))].
      * replace (_ && _) with false by lia. replace (_ && _) with false by lia. replace (_ && _) with true by lia.
        symmetry. replace (rising O w r0 r1 t) with (Some (o_zero O)) by (unfold rising; zcases).
        replace (falling O w f0 f1 t) with (Some (o_one O)) by (unfold falling; zcases). apply add_zero_r.
      * replace (_ && _) with false by lia. replace (_ && _) with true by lia. rewrite Hv by lia.
        rewrite <- (falling_shift 0 (f1 - f0) (t - f0) f0), <- (rising_shift (r0 - f0) _ (t - f0) f0). do 2 f_equal; lia.
      * replace (_ && _) with true by lia. symmetry. replace (falling O w f0 f1 t) with (Some (o_zero O)) by (unfold falling; zcases).
        replace (rising O w r0 r1 t) with (Some (o_one O)) by (unfold rising; zcases). apply add_zero_l.
  - v_fill v1 L1 H1. v_step v2 L2 H2. v_fill v3 L3 H3. exists v3. eexists. split; [reflexivity|]. split; [lia|]. intros t T.
    rewrite H3, H2, H1, zth_between by v_lia. settle.
  - v_fill v1 L1 H1. v_step v2 L2 H2. v_fill v3 L3 H3. exists v3. eexists. split; [reflexivity|]. split; [lia|]. intros t T.
    rewrite H3, H2, H1, zth_from by v_lia. wlen. settle.
  - eexists. eexists. split; [reflexivity|]. rewrite vfill_everything, zlen_repeat. pose proof (zlen_nonneg channel). split; [lia|].
    intros t T. rewrite zth_repeat, mul_one_r. zcases.
Qed.

Lemma index_pair x y (length : Z) a b : index x length = Ok a -> index y length = Ok b ->
  (a' <- index x length ;; b' <- index y length ;; Ok (Some (a', b'))) = Ok (Some (a, b)).
Proof. intros -> ->. reflexivity. Qed.

Lemma fade_ok junk rate rise fall length r f : 0 <= length -> rise_interval rise length r -> fall_interval fall length f ->
  inside length r -> inside length f ->
  exists s, fade O junk rate w rise fall length = Ok s /\ wf_signal s /\ count s = 1 /\ begins s = 0 /\ ends s = length /\
    sampling_rate s = rate /\
    forall t, 0 <= t < length -> at_time s 0 t =
      if out_first r f then lift2 (o_add O) (falling_or_one O w f t) (rising_or_one O w r t)
      else lift2 (o_mul O) (rising_or_one O w r t) (falling_or_one O w f t).
Proof.
  intros N Hr Hf Ir If. unfold fade. destruct (vector_ok junk length N) as (v & -> & L). cbn [bind].
  assert (Er : rise_indices rise length = Ok r).
  { destruct rise as [|n0|x0 y0], r as [[a b]|]; cbn in Hr |- *; try contradiction; auto; destruct Hr as [X1 X2]; [rewrite ?X1, ?X2; reflexivity|]. now apply index_pair. }
  assert (Ef : fall_indices fall length = Ok f).
  { destruct fall as [|n0|x0 y0], f as [[a b]|]; cbn in Hf |- *; try contradiction; auto; destruct Hf as [X1 X2]; [rewrite ?X1, ?X2; reflexivity|]. now apply index_pair. }
  rewrite Er, Ef. cbn [bind]. destruct (fade_channel_ok r f v) as (c & label & -> & Lc & Hc); [now rewrite L|now rewrite L|].
  cbn [bind fst snd]. eexists. split; [reflexivity|]. rewrite L in Lc, Hc. repeat split; auto.
  - cbn. constructor; auto.
  - intros t T. rewrite <- Hc by auto. unfold at_time, el. cbn. unfold row. cbn. rewrite Z.sub_0_r. reflexivity.
Qed.

(** Whatever is true of 0, 1 and the window, and is preserved by products, is true of a fade in that is followed by a fade out. *)
Lemma fade_closed (P : A -> Prop) r f t x : P (o_zero O) -> P (o_one O) -> (forall n y, 0 <= n -> In y (w n) -> P y) ->
  (forall y z, P y -> P z -> P (o_mul O y z)) ->
  lift2 (o_mul O) (rising_or_one O w r t) (falling_or_one O w f t) = Some x -> P x.
Proof.
  intros P0 P1 Pw Pm.
  assert (Hr : forall y, rising_or_one O w r t = Some y -> P y).
  { intros y. destruct r as [[a b]|]; cbn; [unfold rising|congruence]. zcase; [congruence|]. zcase; [|congruence].
    intros Z. apply zth_In in Z. eapply Pw; [|exact Z]. lia. }
  assert (Hf : forall y, falling_or_one O w f t = Some y -> P y).
  { intros y. destruct f as [[a b]|]; cbn; [unfold falling|congruence]. zcase; [congruence|]. zcase; [|congruence].
    intros Z. apply zth_In in Z. eapply Pw; [|exact Z]. lia. }
  destruct (rising_or_one O w r t) as [y|]; [|discriminate]. destruct (falling_or_one O w f t) as [z|]; [|discriminate].
  cbn. intros E. injection E as <-. auto.
Qed.

Lemma fade_disjoint (P : A -> Prop) a b c d t x : P (o_zero O) -> P (o_one O) -> (forall n y, 0 <= n -> In y (w n) -> P y) ->
  c <= d -> d <= a -> lift2 (o_add O) (falling O w c d t) (rising O w a b t) = Some x -> P x.
Proof.
  intros P0 P1 Pw CD D. unfold falling, rising.
  assert (Pz : forall n i y, 0 <= n -> zth (w n) i = Some y -> P y) by (intros n i y N Z; apply zth_In in Z; eauto).
  destruct (t <? a) eqn:B1.
  - destruct (t <? c) eqn:B2; [|destruct (t <? d) eqn:B3].
    + cbn. intros E. injection E as <-. destruct (Laws (o_one O)) as (_ & _ & _ & _ & _ & ->). auto.
    + destruct (zth _ _) as [y|] eqn:Z; [|discriminate]. cbn. intros E. injection E as <-.
      destruct (Laws y) as (_ & _ & _ & _ & _ & ->). eapply Pz; [|exact Z]. lia.
    + cbn. intros E. injection E as <-. destruct (Laws (o_zero O)) as (_ & _ & _ & _ & _ & ->). auto.
  - replace (t <? c) with false by lia. replace (t <? d) with false by lia. destruct (t <? b) eqn:B3.
    + destruct (zth _ _) as [y|] eqn:Z; [|discriminate]. cbn. intros E. injection E as <-.
      destruct (Laws y) as (_ & _ & _ & _ & -> & _). eapply Pz; [|exact Z]. lia.
    + cbn. intros E. injection E as <-. destruct (Laws (o_one O)) as (_ & _ & _ & _ & -> & _). auto.
Qed.

(** ** Windows *)

Lemma window_ok junk rate label plateau length symmetric p : 0 <= length -> index plateau length = Ok p -> 0 <= p <= length ->
  exists s, window O junk rate w label plateau length symmetric = Ok s /\ wf_signal s /\ count s = 1 /\ begins s = 0 /\ ends s = length /\
    sampling_rate s = rate /\ labels s = [label] /\ (forall t, 0 <= t < length -> at_time s 0 t <> None) /\
    (p = 0 -> forall t, 0 <= t < length -> at_time s 0 t = zth (w (if symmetric then length else length + 1)) t) /\
    (0 < p -> exists f, length - 2 * f = p + (length - p) mod 2 /\ 0 <= f /\
      let n := if symmetric then 2 * f else 2 * f + 1 in
      (forall t, 0 <= t < f -> at_time s 0 t = zth (w n) t) /\
      (forall t, f <= t < length - f -> at_time s 0 t = Some (o_one O)) /\
      (forall t, length - f <= t < length -> at_time s 0 t = zth (w n) (t - length + 2 * f))).
Proof.
  intros N E P. unfold window. rewrite E. cbn [bind]. destruct (vector_ok junk length N) as (v & -> & L). cbn [bind].
  assert (Q : exists c, (if p =? 0 then if symmetric then vset v everything (w length) else vset v everything (subseq (between 0 (-1)) (w (length + 1)))
     else
       let fade_length := (length - p) / 2 in
       let fade := if symmetric then w (2 * fade_length) else w (2 * fade_length + 1) in
       channel <- vset v (between 0 fade_length) (subseq (between 0 fade_length) fade) ;;
       let channel := vfill channel (between fade_length (length - fade_length)) (o_one O) in
       vset channel (from (length - fade_length)) (subseq (between fade_length (2 * fade_length)) fade)) = Ok c /\ zlen c = length /\
    (p = 0 -> forall t, 0 <= t < length -> zth c t = zth (w (if symmetric then length else length + 1)) t) /\
    (0 < p -> exists f, length - 2 * f = p + (length - p) mod 2 /\ 0 <= f /\
      let n := if symmetric then 2 * f else 2 * f + 1 in
      (forall t, 0 <= t < f -> zth c t = zth (w n) t) /\
      (forall t, f <= t < length - f -> zth c t = Some (o_one O)) /\
      (forall t, length - f <= t < length -> zth c t = zth (w n) (t - length + 2 * f)))).
  { destruct (p =? 0) eqn:Z.
    - destruct symmetric.
      + rewrite vset_everything by (wlen; lia). eexists. split; [reflexivity|]. split; [wlen; lia|]. split; [auto|lia].
      + assert (Ll : lower (between 0 (-1)) (zlen (w (length + 1))) = 0) by (rewrite W by lia; apply lower_between; lia).
        assert (Lu : upper (between 0 (-1)) (zlen (w (length + 1))) = length) by (rewrite W by lia; unfold_bounds; zcases).
        assert (S : zlen (subseq (between 0 (-1)) (w (length + 1))) = length) by (rewrite zlen_subseq, Ll, Lu; lia).
        rewrite vset_everything by lia. eexists. split; [reflexivity|]. split; [exact S|]. split; [|lia].
        intros _ t T. rewrite zth_subseq, Ll, Lu. replace (_ && _) with true by lia. f_equal. lia.
    - cbn zeta. set (f := (length - p) / 2). pose proof (Z.div_mod (length - p) 2 ltac:(lia)) as D. fold f in D.
      pose proof (Z.mod_pos_bound (length - p) 2 ltac:(lia)) as M. assert (0 <= f) by (apply Z.div_pos; lia). clearbody f.
      assert (Fd : exists n fd, (if symmetric then w (2 * f) else w (2 * f + 1)) = fd /\ n = (if symmetric then 2 * f else 2 * f + 1) /\ fd = w n /\ 2 * f <= n).
      { destruct symmetric; do 2 eexists; (split; [reflexivity|]); repeat split; lia. }
      destruct Fd as (n & fd & -> & Hn & -> & Ln).
      v_step v1 L1 H1. v_fill v2 L2 H2. v_step v3 L3 H3. exists v3. split; [reflexivity|]. split; [lia|]. split; [lia|]. intros _.
      exists f. split; [lia|]. split; [auto|]. rewrite <- Hn. split; [|split]; intros t T; rewrite H3, H2, H1, ?zth_between by v_lia; zcases; f_equal; lia. }
  destruct Q as (c & Ec & Lc & Q1 & Q2).
  cbn zeta in Ec. rewrite Ec. cbn [bind]. eexists. split; [reflexivity|].
  assert (At : forall t, at_time (one_channel rate c length label) 0 t = zth c t).
  { intros t. unfold at_time, el. cbn. unfold row. cbn. rewrite Z.sub_0_r. reflexivity. }
  repeat split; auto.
  - cbn. constructor; auto.
  - intros t T. rewrite At. destruct (zth_in c t) as [x ->]; [lia|discriminate].
  - intros Z t T. rewrite At. auto.
  - intros Z. destruct (Q2 Z) as (f & F1 & F2 & F3). exists f. split; auto. split; auto. cbn zeta in *.
    destruct F3 as (G1 & G2 & G3). split; [|split]; intros t T; rewrite At; auto.
Qed.

Lemma window_symmetric junk rate label plateau length p s : 0 <= length -> index plateau length = Ok p -> 0 <= p <= length ->
  (forall n, 0 <= n -> mirrored (w n)) -> window O junk rate w label plateau length true = Ok s ->
  forall t, 0 <= t < length -> at_time s 0 t = at_time s 0 (length - 1 - t).
Proof.
  intros N E P M H t T. destruct (window_ok junk rate label plateau length true p N E P) as (s' & E' & _ & _ & _ & _ & _ & _ & _ & Q1 & Q2).
  rewrite H in E'. injection E' as <-. destruct (Z.eq_dec p 0) as [Z|Z].
  - rewrite !Q1 by lia. rewrite (M length N). f_equal. rewrite W by lia. lia.
  - destruct (Q2 ltac:(lia)) as (f & F1 & F2 & G1 & G2 & G3). cbn zeta in *.
    pose proof (Z.mod_pos_bound (length - p) 2 ltac:(lia)).
    destruct (Z_lt_ge_dec t f); [|destruct (Z_lt_ge_dec t (length - f))].
    + rewrite G1, G3 by lia. rewrite (M (2 * f)) by lia. f_equal. rewrite W by lia. lia.
    + rewrite !G2 by lia. reflexivity.
    + rewrite (G3 t), G1 by lia. rewrite (M (2 * f)) by lia. f_equal. rewrite W by lia. lia.
Qed.

(** The middle of a window with an odd length must be 1, unless there is no plateau. *)
Lemma window_periodic junk rate label plateau length p s : 0 <= length -> index plateau length = Ok p -> 0 <= p <= length ->
  (forall n, 0 <= n -> mirrored (w n)) -> (0 < p -> forall n, 0 <= n -> zth (w (2 * n + 1)) n = Some (o_one O)) ->
  window O junk rate w label plateau length false = Ok s ->
  forall t, 1 <= t < length -> at_time s 0 t = at_time s 0 (length - t).
Proof.
  intros N E P M C H t T. destruct (window_ok junk rate label plateau length false p N E P) as (s' & E' & _ & _ & _ & _ & _ & _ & _ & Q1 & Q2).
  rewrite H in E'. injection E' as <-. destruct (Z.eq_dec p 0) as [Z|Z].
  - rewrite !Q1 by lia. rewrite (M (length + 1)) by lia. f_equal. rewrite W by lia. lia.
  - destruct (Q2 ltac:(lia)) as (f & F1 & F2 & G1 & G2 & G3). cbn zeta in *.
    pose proof (Z.mod_pos_bound (length - p) 2 ltac:(lia)).
    assert (G3' : length - f < length -> at_time s 0 (length - f) = Some (o_one O)).
    { intros L. rewrite G3 by lia. replace (length - f - length + 2 * f) with f by lia. apply C; lia. }
    destruct (Z_lt_ge_dec t f); [|destruct (Z_lt_ge_dec t (length - f))].
    + rewrite G1, G3 by lia. rewrite (M (2 * f + 1)) by lia. f_equal. rewrite W by lia. lia.
    + rewrite (G2 t) by lia. destruct (Z.eq_dec t f) as [->|]; [rewrite G3' by lia; reflexivity|]. rewrite G2 by lia. reflexivity.
    + destruct (Z.eq_dec t (length - f)) as [->|].
      * rewrite G3' by lia. rewrite G2 by lia. reflexivity.
      * rewrite (G3 t), G1 by lia. rewrite (M (2 * f + 1)) by lia. f_equal. rewrite W by lia. lia.
Qed.

End Fade.
