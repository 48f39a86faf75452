(** The index computation of merging puts every channel at its place. *)

From Coq Require Import ZArith List Bool Lia ZifyBool Sorting.Sorted Sorting.Permutation.
From Verif.Model Require Import Py Merge.
From Verif.Spec Require Import MergeSpec.
From Verif.Proofs Require Import PyFacts SignalAlgebra.
Import ListNotations.
Open Scope Z_scope.

Lemma NoDup_zth {A} (l : list A) : (forall q q' a, zth l q = Some a -> zth l q' = Some a -> q = q') -> NoDup l.
Proof.
  intros H. induction l as [|a l IH]; constructor.
  - intros I. apply In_zth in I as [i E]. pose proof (zth_range _ _ _ E).
    assert (0 = i + 1); [|lia]. apply (H 0 (i + 1) a); rewrite zth_cons; zcases.
    replace (i + 1 - 1) with i by lia. auto.
  - apply IH. intros q q' b E E'. pose proof (zth_range _ _ _ E). pose proof (zth_range _ _ _ E').
    assert (q + 1 = q' + 1); [|lia]. apply (H (q + 1) (q' + 1) b); rewrite zth_cons; zcases.
    + replace (q + 1 - 1) with q by lia; auto.
    + replace (q' + 1 - 1) with q' by lia; auto.
Qed.

Lemma NoDup_zth_inj {A} (l : list A) q q' a : NoDup l -> zth l q = Some a -> zth l q' = Some a -> q = q'.
Proof.
  intros N. revert q q'. induction N as [|b l I N IH]; intros q q' E E'; [now rewrite zth_nil in E|].
  rewrite zth_cons in E, E'. destruct (Z.eqb_spec q 0), (Z.eqb_spec q' 0); subst; auto.
  - injection E as ->. apply zth_In in E'. contradiction.
  - injection E' as ->. apply zth_In in E. contradiction.
  - assert (q - 1 = q' - 1); [|lia]. eauto.
Qed.

Lemma SSorted_app {A} (R : A -> A -> Prop) l m : StronglySorted R l -> StronglySorted R m ->
  (forall x y, In x l -> In y m -> R x y) -> StronglySorted R (l ++ m).
Proof.
  intros L M H. induction L as [|a l L IH F]; cbn; auto. constructor.
  - apply IH. intros; apply H; cbn; auto.
  - apply Forall_app. split; auto. apply Forall_forall. intros y Y. apply H; cbn; auto.
Qed.

Lemma SSorted_NoDup {A} (R : A -> A -> Prop) l : (forall x, ~ R x x) -> StronglySorted R l -> NoDup l.
Proof.
  intros I S. induction S as [|a l S IH F]; constructor; auto.
  intros H. rewrite Forall_forall in F. apply (I a). auto.
Qed.

Lemma before_irrefl mode x : ~ before mode x x.
Proof. destruct mode; cbn; lia. Qed.

Lemma In_zseq x a n : In x (zseq a n) <-> a <= x < a + n.
Proof.
  split.
  - intros H. apply In_zth in H as [i E]. rewrite zth_seq in E. revert E. zcase; [|discriminate]. intros [= <-]. lia.
  - intros H. apply (zth_In _ (x - a)). rewrite zth_seq. zcases. f_equal. lia.
Qed.

Lemma zth_map_zseq {B} (f : Z -> B) a n i : zth (map f (zseq a n)) i = if (0 <=? i) && (i <? n) then Some (f (a + i)) else None.
Proof. rewrite zth_map, zth_seq. zcase; reflexivity. Qed.

(** All channels, data set by data set. *)
Fixpoint enum (o : Z) (counts : list Z) : list (Z * Z) :=
  match counts with
  | [] => []
  | n :: t => map (pair o) (zseq 0 n) ++ enum (o + 1) t
  end.

Lemma enum_In counts : forall o0 o i, In (o, i) (enum o0 counts) <-> exists n, zth counts (o - o0) = Some n /\ 0 <= i < n.
Proof.
  induction counts as [|n t IH]; intros o0 o i; cbn [enum].
  - split; [intros []|]. intros (m & E & _). now rewrite zth_nil in E.
  - rewrite in_app_iff, in_map_iff, IH. split.
    + intros [(j & [= -> ->] & J)|(m & E & I)].
      * apply In_zseq in J. exists n. rewrite Z.sub_diag. split; [reflexivity|lia].
      * exists m. split; auto. rewrite zth_cons. pose proof (zth_range _ _ _ E). zcases.
        rewrite <- E. f_equal. lia.
    + intros (m & E & I). rewrite zth_cons in E. destruct (Z.eqb_spec (o - o0) 0).
      * injection E as ->. left. exists i. split; [f_equal; lia|]. apply In_zseq. lia.
      * right. exists m. split; auto. rewrite <- E. f_equal. lia.
Qed.

Lemma enum_sorted counts : forall o0, StronglySorted (before FIRST_DATASET_FIRST) (enum o0 counts).
Proof.
  induction counts as [|n t IH]; intros o0; cbn [enum]; [constructor|].
  apply SSorted_app; auto.
  - clear. unfold zseq. rewrite map_map.
    enough (G : forall s k, StronglySorted (before FIRST_DATASET_FIRST) (map (fun x => (o0, 0 + Z.of_nat x)) (seq s k))) by apply G.
    intros s k. revert s. induction k; intros s; cbn [seq map]; constructor; auto.
    apply Forall_forall. intros [o i] I. apply in_map_iff in I as (j & [= <- <-] & J). apply in_seq in J. cbn. lia.
  - intros [o i] [o' i'] I I'. apply in_map_iff in I as (j & [= <- <-] & J). apply enum_In in I' as (m & E & _).
    apply zth_range in E. cbn. lia.
Qed.

Lemma zlen_enum counts : forall o0, Forall (fun n => 0 <= n) counts -> zlen (enum o0 counts) = zsum counts.
Proof.
  induction counts as [|n t IH]; intros o0 F; cbn [enum]; auto.
  inversion F; subst. rewrite zlen_app, zlen_map, zlen_seq, IH by auto. cbn [zsum fold_right]. fold (zsum t). lia.
Qed.

Lemma dataset_first_zth counts : forall i q, Forall (fun n => 0 <= n) counts ->
  zth (dataset_first i counts) q = if (0 <=? q) && (q <? zsum counts) then Some (i + q) else None.
Proof.
  induction counts as [|n t IH]; intros i q F; cbn [dataset_first].
  - rewrite zth_nil. cbn [zsum fold_right]. zcases.
  - inversion F; subst. rewrite zth_app, zlen_seq, zth_seq, IH by auto. cbn [zsum fold_right]. fold (zsum t).
    assert (0 <= zsum t). { rewrite <- (zlen_enum t 0) by auto. apply zlen_nonneg. }
    zcases; f_equal; lia.
Qed.

Lemma zlen_dataset_first counts : forall i, Forall (fun n => 0 <= n) counts -> zlen (dataset_first i counts) = zsum counts.
Proof.
  induction counts as [|n t IH]; intros i F; cbn [dataset_first]; auto.
  inversion F; subst. rewrite zlen_app, zlen_seq, IH by auto. cbn [zsum fold_right]. fold (zsum t). lia.
Qed.

(** ** The first channels first *)

Lemma above_app k l m : above k (l ++ m) = above k l + above k m.
Proof. unfold above. rewrite filter_app, zlen_app. reflexivity. Qed.

Lemma take_drop {A} n (l : list A) : ztake n l ++ zdrop n l = l.
Proof. apply firstn_skipn. Qed.

(** The channels number [i] of all data sets. *)
Fixpoint layer (i o : Z) (counts : list Z) : list (Z * Z) :=
  match counts with
  | [] => []
  | n :: t => (if i <? n then [(o, i)] else []) ++ layer i (o + 1) t
  end.

Lemma zlen_layer i counts : forall o, zlen (layer i o counts) = above i counts.
Proof.
  induction counts as [|n t IH]; intros o; cbn [layer]; auto.
  rewrite zlen_app, IH. unfold above. cbn [filter]. zcase; rewrite ?zlen_cons, ?zlen_nil; lia.
Qed.

Lemma layer_In i counts : forall o0 o j, In (o, j) (layer i o0 counts) <-> j = i /\ exists n, zth counts (o - o0) = Some n /\ i < n.
Proof.
  induction counts as [|n t IH]; intros o0 o j; cbn [layer].
  - split; [intros []|]. intros (_ & m & E & _). now rewrite zth_nil in E.
  - rewrite in_app_iff, IH. split.
    + intros [I|(-> & m & E & L)].
      * destruct (Z.ltb_spec i n); [|destruct I]. destruct I as [[= -> ->]|[]].
        split; auto. exists n. rewrite Z.sub_diag. split; [reflexivity|lia].
      * split; auto. exists m. split; auto. rewrite zth_cons. pose proof (zth_range _ _ _ E). zcases.
        rewrite <- E. f_equal. lia.
    + intros (-> & m & E & L). rewrite zth_cons in E. destruct (Z.eqb_spec (o - o0) 0).
      * injection E as ->. left. zcases. left. f_equal. lia.
      * right. split; auto. exists m. split; auto. rewrite <- E. f_equal. lia.
Qed.

Lemma layer_sorted i counts : forall o0, StronglySorted (before FIRST_CHANNELS_FIRST) (layer i o0 counts).
Proof.
  induction counts as [|n t IH]; intros o0; cbn [layer]; [constructor|].
  apply SSorted_app; auto.
  - zcase; repeat constructor.
  - intros [o j] [o' j'] I I'. destruct (Z.ltb_spec i n); [|destruct I]. destruct I as [[= <- <-]|[]].
    apply layer_In in I' as (-> & m & E & _). apply zth_range in E. cbn. lia.
Qed.

Lemma layer_zth i counts : forall o0 o n, zth counts o = Some n -> i < n ->
  zth (layer i o0 counts) (above i (ztake o counts)) = Some (o0 + o, i).
Proof.
  induction counts as [|m t IH]; intros o0 o n E L; [now rewrite zth_nil in E|].
  cbn [layer]. pose proof (zth_range _ _ _ E) as R. rewrite zth_cons in E.
  destruct (Z.eqb_spec o 0) as [->|N].
  - injection E as ->. replace (above i (ztake 0 (n :: t))) with 0 by reflexivity.
    replace (i <? n) with true by lia. cbn [app]. rewrite zth_cons. cbn. f_equal. f_equal. lia.
  - replace (ztake o (m :: t)) with (m :: ztake (o - 1) t).
    2: { unfold ztake. replace (Z.to_nat o) with (S (Z.to_nat (o - 1))) by lia. reflexivity. }
    specialize (IH (o0 + 1) (o - 1) n E L). replace (o0 + 1 + (o - 1)) with (o0 + o) in IH by lia.
    unfold above at 1. cbn [filter]. rewrite zth_app. pose proof (zlen_nonneg (filter (fun x => i <? x) (ztake (o - 1) t))).
    destruct (Z.ltb_spec i m); rewrite ?zlen_cons, ?zlen_nil; zcases.
    + fold (above i (ztake (o - 1) t)) in *. rewrite <- IH. f_equal. lia.
    + fold (above i (ztake (o - 1) t)) in *. rewrite <- IH. f_equal. lia.
Qed.

(** The number of channels before the channels number [i]. *)
Definition earlier (i : Z) (counts : list Z) : Z := zsum (map (fun j => above j counts) (zseq 0 i)).

Lemma earlier_succ i counts : 0 <= i -> earlier (i + 1) counts = earlier i counts + above i counts.
Proof.
  intros I. unfold earlier, zsum.
  replace (zseq 0 (i + 1)) with (zseq 0 i ++ [i]).
  - rewrite map_app, fold_right_app. cbn.
    enough (G : forall l a, fold_right Z.add a l = fold_right Z.add 0 l + a) by (rewrite G; lia).
    induction l; intros b; cbn; [lia|]. rewrite IHl. lia.
  - apply zth_ext. intros q. rewrite zth_app, zlen_seq, !zth_seq, zth_cons, zth_nil. zcases; f_equal; lia.
Qed.

Definition position (counts : list Z) (o i : Z) : Z := earlier i counts + above i (ztake o counts).

Definition layers (counts : list Z) (n : Z) : list (Z * Z) := flat_map (fun i => layer i 0 counts) (zseq 0 n).

Lemma zlen_layers counts n : zlen (layers counts n) = earlier n counts.
Proof.
  unfold layers, earlier. induction (zseq 0 n) as [|i l IH]; cbn [flat_map map]; auto.
  rewrite zlen_app, zlen_layer, IH. reflexivity.
Qed.

Lemma layers_succ counts n : 0 <= n -> layers counts (n + 1) = layers counts n ++ layer n 0 counts.
Proof.
  intros N. unfold layers. replace (zseq 0 (n + 1)) with (zseq 0 n ++ [n]).
  - rewrite flat_map_app. cbn. now rewrite app_nil_r.
  - apply zth_ext. intros q. rewrite zth_app, zlen_seq, !zth_seq, zth_cons, zth_nil. zcases; f_equal; lia.
Qed.

Lemma layers_zth counts o i n : zth counts o = Some n -> 0 <= i < n -> forall m, i < m ->
  zth (layers counts m) (position counts o i) = Some (o, i).
Proof.
  intros E I m M. pose proof (layer_zth i counts 0 o n E (proj2 I)) as Z.
  pose proof (zth_range _ _ _ Z) as R. rewrite zlen_layer in R. rewrite Z.add_0_l in Z.
  replace m with (Z.of_nat (Z.to_nat (m - i - 1)) + i + 1) by lia.
  induction (Z.to_nat (m - i - 1)) as [|k IH].
  - cbn [Z.of_nat]. rewrite layers_succ, zth_app, zlen_layers by lia. unfold position. rewrite !Z.add_0_l.
    zcases. rewrite <- Z. f_equal. lia.
  - replace (Z.of_nat (S k) + i + 1) with (Z.of_nat k + i + 1 + 1) by lia.
    rewrite layers_succ, zth_app by lia. rewrite IH. pose proof (zth_range _ _ _ IH). zcases.
Qed.

Lemma inner_ok counts o : 0 <= o -> forall k i p, 0 <= i -> p = position counts o i ->
  channels_first_inner counts o k i p = map (position counts o) (zseq i (Z.of_nat k)).
Proof.
  intros HO k. induction k as [|k IH]; intros i p I ->; cbn [channels_first_inner]; auto.
  rewrite zseq_cons by lia. cbn [map]. f_equal. rewrite IH.
  - f_equal. f_equal. lia.
  - lia.
  - unfold position. rewrite earlier_succ by lia.
    assert (above i counts = above i (ztake o counts) + above i (zdrop o counts))
      by (rewrite <- above_app, take_drop; reflexivity). lia.
Qed.

Lemma above_zero l : Forall (fun n => 1 <= n) l -> above 0 l = zlen l.
Proof.
  intros F. induction F as [|n l N F IH]; auto. unfold above. cbn [filter]. replace (0 <? n) with true by lia.
  rewrite !zlen_cons. fold (above 0 l). lia.
Qed.

Lemma Forall_ztake {A} (P : A -> Prop) n l : Forall P l -> Forall P (ztake n l).
Proof. intros F. unfold ztake. rewrite Forall_forall in *. intros x X. apply F. rewrite <- (firstn_skipn (Z.to_nat n) l). apply in_app_iff; auto. Qed.

Lemma channels_first_ok counts : Forall (fun n => 1 <= n) counts ->
  channels_first counts = map (fun x => position counts (fst x) (snd x)) (enum 0 counts).
Proof.
  intros F. unfold channels_first.
  enough (G : forall l o0, Forall (fun n => 1 <= n) l -> 0 <= o0 ->
            (forall o, o0 <= o < o0 + zlen l -> position counts o 0 = o) ->
            concat (map2 (fun o n => channels_first_inner counts o (Z.to_nat n) 0 o) (zseq o0 (zlen l)) l)
            = map (fun x => position counts (fst x) (snd x)) (enum o0 l)).
  { apply G; auto; [lia|]. intros o R. unfold position, earlier. cbn [zseq Z.to_nat seq map zsum fold_right].
    change (above 0 (ztake o counts) = o).
    rewrite above_zero by (apply Forall_ztake; auto). rewrite zlen_take. lia. }
  induction l as [|n l IH]; intros o0 Fl HO P; auto.
  inversion Fl; subst. pose proof (zlen_nonneg l). rewrite zlen_cons in *. rewrite zseq_cons by lia.
  cbn [map2 concat enum]. rewrite map_app. f_equal.
  - rewrite inner_ok; [|lia|lia|symmetry; apply P; lia].
    rewrite map_map. cbn [fst snd]. replace (Z.of_nat (Z.to_nat n)) with n by lia. reflexivity.
  - replace (1 + zlen l - 1) with (zlen l) by lia. apply IH; auto; [lia|]. intros; apply P; lia.
Qed.

Lemma zmaximum_ge l : forall d, d <= zmaximum d l /\ forall x, In x l -> x <= zmaximum d l.
Proof.
  unfold zmaximum. induction l as [|a l IH]; intros d; cbn [fold_left]; [split; [lia|intros _ []]|].
  destruct (IH (Z.max d a)) as [H1 H2]. split; [lia|]. intros x [->|I]; [lia|auto].
Qed.
Lemma zmaximum_in l : forall d, zmaximum d l = d \/ In (zmaximum d l) l.
Proof.
  unfold zmaximum. induction l as [|a l IH]; intros d; cbn [fold_left]; auto.
  destruct (IH (Z.max d a)) as [H|H]; [|right; right; auto].
  destruct (Z.max_spec d a) as [[_ E]|[_ E]]; rewrite E in *; [right; left; auto|left; auto].
Qed.
Lemma zminimum_le l : forall d, zminimum d l <= d /\ forall x, In x l -> zminimum d l <= x.
Proof.
  unfold zminimum. induction l as [|a l IH]; intros d; cbn [fold_left]; [split; [lia|intros _ []]|].
  destruct (IH (Z.min d a)) as [H1 H2]. split; [lia|]. intros x [->|I]; [lia|auto].
Qed.
Lemma zminimum_in l : forall d, zminimum d l = d \/ In (zminimum d l) l.
Proof.
  unfold zminimum. induction l as [|a l IH]; intros d; cbn [fold_left]; auto.
  destruct (IH (Z.min d a)) as [H|H]; [|right; right; auto].
  destruct (Z.min_spec d a) as [[_ E]|[_ E]]; rewrite E in *; [left; auto|right; left; auto].
Qed.

Lemma layers_In counts m o i : Forall (fun n => n <= m) counts ->
  (In (o, i) (layers counts m) <-> exists n, zth counts o = Some n /\ 0 <= i < n).
Proof.
  intros F. unfold layers. rewrite in_flat_map. split.
  - intros (j & J & L). apply layer_In in L as (-> & n & E & L). rewrite Z.sub_0_r in E. apply In_zseq in J.
    exists n. split; auto. lia.
  - intros (n & E & I). rewrite Forall_zth in F. pose proof (F _ _ E). exists i. split; [apply In_zseq; lia|].
    apply layer_In. split; auto. exists n. rewrite Z.sub_0_r. split; [auto|lia].
Qed.

Lemma layers_sorted counts n : 0 <= n -> StronglySorted (before FIRST_CHANNELS_FIRST) (layers counts n).
Proof.
  intros N. replace n with (Z.of_nat (Z.to_nat n)) by lia. induction (Z.to_nat n) as [|k IH]; [constructor|].
  replace (Z.of_nat (S k)) with (Z.of_nat k + 1) by lia. rewrite layers_succ by lia.
  apply SSorted_app; auto using layer_sorted.
  intros [o i] [o' i'] I I'. unfold layers in I. apply in_flat_map in I as (j & J & L). apply In_zseq in J.
  apply layer_In in L as (-> & _). apply layer_In in I' as (-> & _). cbn. lia.
Qed.

Lemma same_members_zlen {A} (l m : list A) : NoDup l -> NoDup m -> (forall x, In x l <-> In x m) -> zlen l = zlen m.
Proof. intros L M H. unfold zlen. f_equal. apply Permutation_length. apply NoDup_Permutation; auto. Qed.

Theorem merge_indices_ok mode counts :
  Forall (fun n => 0 <= n) counts ->
  (mode = FIRST_CHANNELS_FIRST -> Forall (fun n => 1 <= n) counts) ->
  exists order, arrangement mode counts order /\ zlen order = zsum counts /\
    zlen (merge_indices mode counts) = zsum counts /\ NoDup (merge_indices mode counts) /\
    forall q x, zth (enum 0 counts) q = Some x ->
      exists k, zth (merge_indices mode counts) q = Some k /\ zth order k = Some x.
Proof.
  intros F0 F1. destruct mode; cbn [merge_indices].
  - exists (enum 0 counts). rewrite zlen_enum, zlen_dataset_first by auto. split; [|repeat split; auto].
    + split; [apply enum_sorted|]. intros. rewrite enum_In, Z.sub_0_r. reflexivity.
    + apply NoDup_zth. intros q q' a. rewrite !dataset_first_zth by auto. zcase; [|discriminate]; zcase; [|discriminate]; intros [= <-] [= Q]; lia.
    + intros q x E. exists q. split; auto. pose proof (zth_range _ _ _ E) as R. rewrite zlen_enum in R by auto.
      rewrite dataset_first_zth by auto. replace ((0 <=? q) && (q <? zsum counts)) with true by lia. f_equal.
  - specialize (F1 eq_refl). rewrite channels_first_ok by auto.
    set (m := zmaximum 0 counts). destruct (zmaximum_ge counts 0) as [M0 M1]. fold m in M0, M1.
    assert (Fm : Forall (fun n => n <= m) counts) by (apply Forall_forall; auto).
    assert (S : StronglySorted (before FIRST_CHANNELS_FIRST) (layers counts m)) by (apply layers_sorted; lia).
    assert (Z : zlen (layers counts m) = zsum counts).
    { rewrite <- (zlen_enum counts 0) by auto. apply same_members_zlen.
      - eapply SSorted_NoDup; [|exact S]. apply before_irrefl.
      - eapply SSorted_NoDup; [|apply enum_sorted]. apply before_irrefl.
      - intros [o i]. rewrite layers_In, enum_In, Z.sub_0_r by auto. reflexivity. }
    assert (P : forall q x, zth (enum 0 counts) q = Some x ->
      zth (layers counts m) (position counts (fst x) (snd x)) = Some x).
    { intros q [o i] E. apply zth_In, enum_In in E as (n & E & I). rewrite Z.sub_0_r in E. cbn.
      eapply layers_zth; eauto. pose proof (M1 n (zth_In _ _ _ E)). lia. }
    exists (layers counts m). rewrite zlen_map, zlen_enum by auto.
    split; [split; auto; intros; apply layers_In; auto|]. split; [auto|]. split; [auto|]. split.
    + apply NoDup_zth. intros q q' a E E'. rewrite zth_map in E, E'.
      destruct (zth (enum 0 counts) q) as [x|] eqn:X; [|discriminate].
      destruct (zth (enum 0 counts) q') as [x'|] eqn:X'; [|discriminate].
      cbn in E, E'. injection E as E. injection E' as E'. pose proof (P _ _ X) as Y. pose proof (P _ _ X') as Y'.
      rewrite E in Y. rewrite E' in Y'. assert (x = x') by congruence. subst x'.
      eapply NoDup_zth_inj; [|exact X|exact X']. eapply SSorted_NoDup; [|apply enum_sorted]. apply before_irrefl.
    + intros q x E. exists (position counts (fst x) (snd x)). rewrite zth_map, E. split; auto. eapply P; eauto.
Qed.

(** ** Lists that are flattened data set by data set *)

Lemma flat_zth {D B} (g : D -> list B) (cnt : D -> Z) data : (forall d, In d data -> zlen (g d) = cnt d) ->
  forall o0 q o i, zth (enum o0 (map cnt data)) q = Some (o, i) ->
  exists d, zth data (o - o0) = Some d /\ 0 <= i < cnt d /\ zth (flat_map g data) q = zth (g d) i.
Proof.
  induction data as [|d t IH]; intros G o0 q o i E; cbn [map enum] in E; [now rewrite zth_nil in E|].
  rewrite zth_app, zlen_map, zlen_seq in E. pose proof (G d (or_introl eq_refl)) as Gd. pose proof (zlen_nonneg (g d)).
  cbn [flat_map]. rewrite zth_app. rewrite Gd. replace (Z.max 0 (cnt d)) with (cnt d) in E by lia.
  destruct (Z.ltb_spec q (cnt d)).
  - rewrite zth_map_zseq in E. revert E. zcase; [|discriminate]. intros [= <- <-].
    exists d. rewrite Z.sub_diag. cbn. split; auto. split; [lia|reflexivity].
  - apply IH in E as (d' & E & I & Z); [|intros; apply G; cbn; auto].
    exists d'. split; [|auto]. rewrite zth_cons. pose proof (zth_range _ _ _ E). zcases. rewrite <- E. f_equal. lia.
Qed.

Lemma zlen_flat {D B} (g : D -> list B) (cnt : D -> Z) data : (forall d, In d data -> zlen (g d) = cnt d) ->
  zlen (flat_map g data) = zsum (map cnt data).
Proof.
  induction data as [|d t IH]; intros G; auto. cbn [flat_map map zsum fold_right]. fold (zsum (map cnt t)).
  rewrite zlen_app, IH, G; cbn; auto. intros; apply G; cbn; auto.
Qed.

(** ** A loop that fills the places of a table, each once *)

Lemma scatter {S X} (Inv : S -> Prop) (P : Z -> X -> S -> Prop) (valid : Z -> X -> Prop) (f : S -> Z * X -> result S) :
  (forall s k x, Inv s -> valid k x -> exists s', f s (k, x) = Ok s' /\ Inv s' /\ P k x s' /\
     forall k' y, k' <> k -> P k' y s -> P k' y s') ->
  forall items s, Inv s -> NoDup (map fst items) -> (forall k x, In (k, x) items -> valid k x) ->
  exists s', for_each items f s = Ok s' /\ Inv s' /\ (forall k x, In (k, x) items -> P k x s') /\
    (forall k y, ~ In k (map fst items) -> P k y s -> P k y s').
Proof.
  intros Step items. induction items as [|[k x] t IH]; intros s I N V.
  - exists s. split; auto. split; auto. split; [intros ? ? []|auto].
  - cbn [map fst] in N. inversion N as [|? ? N1 N2]; subst.
    destruct (Step s k x I (V _ _ (or_introl eq_refl))) as (s1 & E1 & I1 & P1 & K1).
    destruct (IH s1 I1 N2 (fun k x H => V k x (or_intror H))) as (s2 & E2 & I2 & P2 & K2).
    exists s2. cbn [for_each]. rewrite E1. cbn [bind]. split; auto. split; auto. split.
    + intros k' y [[= <- <-]|H]; auto.
    + intros k' y H Q. apply K2; [intros Q'; apply H; cbn; auto|]. apply K1; auto. intros ->. apply H. cbn; auto.
Qed.

Lemma fst_combine {X Y} (l : list X) (m : list Y) : zlen l = zlen m -> map fst (combine l m) = l.
Proof.
  revert m. induction l as [|a l IH]; intros [|b m] L; rewrite ?zlen_cons, ?zlen_nil in L; cbn; auto.
  - pose proof (zlen_nonneg l). lia.
  - f_equal. apply IH. lia.
Qed.

Lemma zlen_combine {X Y} (l : list X) (m : list Y) : zlen (combine l m) = Z.min (zlen l) (zlen m).
Proof. unfold zlen. rewrite combine_length. lia. Qed.

(** Two sorted lists with the same elements are equal. *)
Lemma before_asym mode a b : before mode a b -> before mode b a -> False.
Proof. destruct mode; unfold before; lia. Qed.
Lemma sorted_unique mode : forall l l', StronglySorted (before mode) l -> StronglySorted (before mode) l' ->
  (forall x, In x l <-> In x l') -> l = l'.
Proof.
  induction l as [|a l IH]; intros l' S S' E.
  - destruct l' as [|b l']; auto. exfalso. apply (E b). cbn; auto.
  - destruct l' as [|b l']; [exfalso; apply (E a); cbn; auto|].
    apply StronglySorted_inv in S as [S F]. apply StronglySorted_inv in S' as [S' F'].
    rewrite Forall_forall in F, F'.
    assert (a = b).
    { assert (Ia : In a (b :: l')) by (apply E; cbn; auto). assert (Ib : In b (a :: l)) by (apply E; cbn; auto).
      destruct Ia as [|Ia]; [auto|]. destruct Ib as [|Ib]; [auto|]. exfalso. eapply before_asym; eauto. }
    subst b. f_equal. apply IH; auto. intros x. specialize (E x). cbn in E. split; intros I.
    + assert (x <> a) by (intros ->; eapply before_asym; apply F; exact I || exact I). destruct E as [E _]. destruct E; auto. congruence.
    + assert (x <> a) by (intros ->; eapply before_asym; apply F'; exact I || exact I). destruct E as [_ E]. destruct E; auto. congruence.
Qed.
Lemma arrangement_unique mode counts order order' :
  arrangement mode counts order -> arrangement mode counts order' -> order = order'.
Proof.
  intros [S H] [S' H']. apply (sorted_unique mode); auto. intros [o i]. rewrite H, H'. reflexivity.
Qed.
