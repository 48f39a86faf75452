(** The tables, in which bands filters are stored. *)

From Coq Require Import String ZArith List Bool Lia Permutation Sorted ZifyBool.
From Verif.Model Require Import Py Functions Signal Terms Filter Bands.
From Verif.Model Require Pcm.
From Verif.Spec Require Import BandsSpec.
From Verif.Proofs Require Import PyFacts SignalHelpers SignalAlgebra TableFacts LevelFacts BandsClass.
Import ListNotations.
Open Scope Z_scope.

Section BandsTables.
Context {K X : Type}.
Variable A : arithmetic K X.
Hypothesis OA : ordered A.

(** The value of a channel at a supporting point *)
Definition value (t : term K X) (f : X) : option K := match t with Bands xs ys _ _ => dict_get A (combine xs ys) f | _ => None end.
Definition is_some {T} (o : option T) : bool := match o with Some _ => true | None => false end.
Definition row_of (tfs : list (term K X)) (f : X) : list (option K) := map (fun t => value t f) tfs.
Definition present (tfs : list (term K X)) (f : X) : bool := existsb (fun t => is_some (value t f)) tfs.

Definition good_term (t : term K X) : Prop := exists xs ys i e, t = Bands xs ys i e /\ ascending A xs /\ zlen ys = zlen xs.

Lemma dict_get_map {V} (g : X -> V -> V) (d : list (X * V)) f :
  dict_get A (map (fun p => (fst p, g (fst p) (snd p))) d) f = option_map (g f) (dict_get A d f).
Proof.
  induction d as [|[x v] d IH]; cbn; auto. destruct (x_eqb A x f) eqn:E; auto. apply (same_frequency A OA) in E. now subst.
Qed.

Lemma add_points i ps : forall d : dict (list (option K)), NoDup (map fst ps) -> dictionary d ->
  let r := fold_left (fun d p => match dict_get A d (fst p) with
      | None => dict_set A d (fst p) (zrepeat None i ++ [Some (snd p)])
      | Some band => dict_set A d (fst p) (band ++ [Some (snd p)]) end) ps d in
  dictionary r /\ forall f, dict_get A r f =
    match dict_get A ps f with
    | Some y => Some (match dict_get A d f with Some b => b | None => zrepeat None i end ++ [Some y])
    | None => dict_get A d f
    end.
Proof.
  induction ps as [|[x y] ps IH]; intros d N D; cbn [fold_left]; [now split|]. inversion N as [|? ? N1 N2]; subst. cbn [fst snd].
  set (d' := match dict_get A d x with None => dict_set A d x (zrepeat None i ++ [Some y]) | Some b => dict_set A d x (b ++ [Some y]) end).
  assert (Hd : d' = dict_set A d x (match dict_get A d x with Some b => b | None => zrepeat None i end ++ [Some y])) by (unfold d'; now destruct (dict_get A d x)).
  clearbody d'. subst d'. edestruct IH as (Dr & Hr); [exact N2|apply (dict_set_dictionary A OA d x); exact D|]. split; [exact Dr|].
  intros f. rewrite Hr. cbn [dict_get]. rewrite dict_get_set by auto. destruct (x_eqb A x f) eqn:E; auto.
  apply (same_frequency A OA) in E. subst f. destruct (dict_get A ps x) eqn:G; auto.
  elim N1. apply dict_get_keys with (A := A); auto. eauto.
Qed.

Lemma existsb_get (xs : list X) (ys : list K) f : zlen ys = zlen xs -> existsb (x_eqb A f) xs = is_some (dict_get A (combine xs ys) f).
Proof.
  revert ys. induction xs as [|x xs IH]; intros [|y ys] L; auto; rewrite ?zlen_cons, ?zlen_nil in L; pose proof (zlen_nonneg xs); try (pose proof (zlen_nonneg ys)); try lia.
  cbn. rewrite (IH ys) by lia. destruct (x_eqb_dec A OA f x) as [->|E]; [now rewrite x_eqb_refl|].
  now rewrite !x_eqb_neq by auto.
Qed.

Lemma add_channel_ok i xs ys d : ascending A xs -> zlen ys = zlen xs -> dictionary d ->
  dictionary (add_channel A i xs ys d) /\ forall f, dict_get A (add_channel A i xs ys d) f =
    match dict_get A (combine xs ys) f, dict_get A d f with
    | Some y, Some b => Some (b ++ [Some y])
    | Some y, None => Some (zrepeat None i ++ [Some y])
    | None, Some b => Some (b ++ [None])
    | None, None => None
    end.
Proof.
  intros S L D. unfold add_channel. destruct (add_points i (combine xs ys) d) as (Dr & Hr); auto.
  { rewrite combine_fst by auto. now apply ascending_nodup with (A := A). }
  set (r := fold_left _ _ _) in *. clearbody r.
  assert (E : map (fun p => if existsb (x_eqb A (fst p)) xs then p else (fst p, snd p ++ [None])) r =
              map (fun p => (fst p, (fun f b => if existsb (x_eqb A f) xs then b else b ++ [None]) (fst p) (snd p))) r).
  { apply map_ext. intros [x b]. cbn. now destruct (existsb _ _). }
  rewrite E. split.
  - unfold dictionary in *. now rewrite map_map.
  - intros f. rewrite (dict_get_map (fun f b => if existsb (x_eqb A f) xs then b else b ++ [None])), Hr, (existsb_get xs ys) by auto. destruct (dict_get A (combine xs ys) f); cbn.
    + now destruct (dict_get A d f).
    + now destruct (dict_get A d f).
Qed.

Lemma row_absent tfs f : present tfs f = false -> row_of tfs f = zrepeat None (zlen tfs).
Proof.
  unfold present, row_of. induction tfs as [|t tfs IH]; [reflexivity|]. cbn [existsb map]. intros H. apply orb_false_iff in H. destruct H as (H1 & H2).
  rewrite IH by auto. destruct (value t f); [discriminate|]. unfold zrepeat. rewrite zlen_cons. pose proof (zlen_nonneg tfs).
  now replace (Z.to_nat (1 + zlen tfs)) with (S (Z.to_nat (zlen tfs))) by lia.
Qed.

(** The entries for the channels [tfs] *)
Definition tabulated (tfs : list (term K X)) (d : dict (list (option K))) : Prop :=
  dictionary d /\ forall f, dict_get A d f = if present tfs f then Some (row_of tfs f) else None.

Lemma add_channels_ok rest : forall tfs d, tabulated tfs d -> (forall t, In t rest -> good_term t) ->
  exists r, add_channels A (zlen tfs) rest d = Ok r /\ tabulated (tfs ++ rest) r.
Proof.
  induction rest as [|t rest IH]; intros tfs d T G.
  - exists d. rewrite app_nil_r. now split.
  - destruct (G t (or_introl eq_refl)) as (xs & ys & i & e & -> & S & L). destruct T as (D & T). cbn [add_channels].
    destruct (add_channel_ok (zlen tfs) xs ys d S L D) as (Dr & Hr).
    destruct (IH (tfs ++ [Bands xs ys i e]) (add_channel A (zlen tfs) xs ys d)) as (r & Er & Tr).
    + split; auto. intros f. rewrite Hr, T. unfold present, row_of. rewrite existsb_app, map_app. cbn [existsb map value].
      fold (present tfs f). fold (row_of tfs f). rewrite orb_false_r. pose proof (row_absent tfs f) as Ra.
      destruct (dict_get A (combine xs ys) f); cbn [is_some]; destruct (present tfs f); cbn [orb]; auto. now rewrite Ra.
    + intros t' Ht'. apply G. now right.
    + exists r. rewrite zlen_app in Er. change (zlen [Bands xs ys i e]) with 1 in Er. rewrite Er. split; auto. now rewrite <- app_assoc in Tr.
Qed.

(** The rows of a table, whose channels have supporting points *)
Definition rows_of (tfs : list (term K X)) (fs : list X) : table := map (fun f => (Some f, row_of tfs f)) fs.

Lemma dictionary_rows tfs (d : dict (list (option K))) : tabulated tfs d ->
  map (fun p => (Some (fst p), snd p)) (sorted A d) = rows_of tfs (map fst (sorted A d)).
Proof.
  intros (D & T). unfold rows_of. rewrite map_map. apply map_ext_in. intros [f b] H. cbn.
  apply (Permutation_in _ (sorted_perm A d)) in H. apply (dict_get_in A OA) in H; auto. rewrite T in H. destruct (present tfs f); [|discriminate].
  injection H as <-. reflexivity.
Qed.

(** The table has a row for each of the different frequencies. *)
Lemma as_table_ok F : bands_filter A F ->
  exists fs, NoDup fs /\ (forall f, In f fs <-> present (transfer_functions F) f = true) /\
    (forall f, In f fs -> exists t xs ys i e, In t (transfer_functions F) /\ t = Bands xs ys i e /\ In f xs) /\
    as_table A F = Ok (match fs with
                       | [] => if f_count F =? 0 then [] else [(None, zrepeat None (f_count F))]
                       | _ => rows_of (transfer_functions F) fs
                       end).
Proof.
  intros G. unfold as_table. destruct (add_channels_ok (transfer_functions F) [] []) as (d & E & T).
  { split; [constructor|]. reflexivity. }
  { intros t Ht. apply G in Ht. exact Ht. }
  change (zlen []) with 0 in E. rewrite E. cbn [bind app] in *. exists (map fst (sorted A d)).
  pose proof (dictionary_rows _ _ T) as R. destruct T as (D & T).
  assert (P : forall f, In f (map fst (sorted A d)) <-> present (transfer_functions F) f = true).
  { intros f. rewrite (Permutation_map fst (sorted_perm A d)), (dict_get_keys A OA). rewrite T.
    destruct (present _ f); split; try discriminate; eauto. intros (v & H). discriminate. }
  split; [|split; [exact P|split]].
  - eapply Permutation_NoDup; [|exact D]. apply Permutation_map, Permutation_sym, sorted_perm.
  - intros f H. apply P in H. unfold present in H. apply existsb_exists in H. destruct H as (t & Ht & H).
    destruct (G t Ht) as (xs & ys & i & e & -> & S & L). exists (Bands xs ys i e), xs, ys, i, e. repeat (split; auto).
    cbn [value] in H. rewrite <- existsb_get in H by auto. apply existsb_exists in H. destruct H as (x & Hx & H).
    apply (same_frequency A OA) in H. now subst.
  - destruct d as [|p d'] eqn:Q; [reflexivity|]. rewrite <- Q in *. f_equal.
    destruct (sorted A d) as [|q s] eqn:Qs.
    + pose proof (Permutation_length (sorted_perm A d)) as Pl. rewrite Qs, Q in Pl. discriminate.
    + exact R.
Qed.

(** ** Reading the columns *)

Definition column (c : Z) (d : dict K) (r : option X * list (option K)) : dict K :=
  match fst r, zth (snd r) c with Some f, Some (Some y) => dict_set A d f y | _, _ => d end.

Lemma column_dictionary c rows : forall d, dictionary d -> dictionary (fold_left (column c) rows d).
Proof.
  induction rows as [|r rows IH]; intros d D; cbn; auto. apply IH. unfold column. destruct (fst r), (zth (snd r) c) as [[y|]|]; auto.
  now apply dict_set_dictionary.
Qed.

Lemma column_get c tfs t fs : zth tfs c = Some t -> NoDup fs -> forall d f, (forall g, In g fs -> dict_get A d g = None) ->
  dict_get A (fold_left (column c) (rows_of tfs fs) d) f = match dict_get A d f with
    | Some y => Some y
    | None => if existsb (x_eqb A f) fs then value t f else None
    end.
Proof.
  intros Ht. induction fs as [|g fs IH]; intros N d f Hd; unfold rows_of; cbn [map fold_left existsb]; [now destruct (dict_get A d f)|].
  inversion N as [|? ? N1 N2]; subst. fold (rows_of tfs fs).
  assert (C : column c d (Some g, row_of tfs g) = match value t g with Some y => dict_set A d g y | None => d end).
  { unfold column, row_of. cbn [fst snd]. rewrite zth_map, Ht. reflexivity. }
  rewrite C. assert (Hn : dict_get A d g = None) by (apply Hd; now left). destruct (value t g) eqn:V.
  - rewrite IH; auto.
    + rewrite dict_get_set by auto. destruct (x_eqb_dec A OA g f) as [->|E].
      * now rewrite x_eqb_refl, Hn, V.
      * rewrite !x_eqb_neq by auto. reflexivity.
    + intros h Hh. rewrite dict_get_set by auto. rewrite x_eqb_neq by congruence. apply Hd. now right.
  - rewrite IH; auto.
    + destruct (dict_get A d f) eqn:Df; auto. destruct (x_eqb_dec A OA f g) as [->|E].
      * rewrite x_eqb_refl by auto; cbn. rewrite V. now destruct (existsb _ _).
      * now rewrite x_eqb_neq by auto.
    + intros h Hh. apply Hd. now right.
Qed.

(** The columns of the table are the channels. *)
Definition columns (n : Z) (rows : table) : list (dict K) := map (fun c => fold_left (column c) rows []) (zseq 0 n).

Definition table_of (F : filter K X) (fs : list X) : table :=
  match fs with [] => if f_count F =? 0 then [] else [(None, zrepeat None (f_count F))] | _ => rows_of (transfer_functions F) fs end.

Lemma columns_ok F fs : bands_filter A F -> NoDup fs -> (forall f, In f fs <-> present (transfer_functions F) f = true) ->
  zlen (columns (f_count F) (table_of F fs)) = f_count F /\ Forall dictionary (columns (f_count F) (table_of F fs)) /\
  forall c d t, zth (columns (f_count F) (table_of F fs)) c = Some d -> zth (transfer_functions F) c = Some t -> forall f, dict_get A d f = value t f.
Proof.
  intros G N P. unfold columns. rewrite zlen_map, zlen_seq. pose proof (zlen_nonneg (transfer_functions F)). unfold f_count in *. split; [lia|]. split.
  { rewrite Forall_forall. intros d Hd. apply in_map_iff in Hd. destruct Hd as (c & <- & _). apply column_dictionary. constructor. }
  intros c d t Hd Ht f. rewrite zth_map, zth_seq in Hd. pose proof (zth_range _ _ _ Ht) as R.
  rewrite (proj2 (Z.leb_le 0 c)), (proj2 (Z.ltb_lt c _)) in Hd by lia. cbn [andb option_map] in Hd. injection Hd as <-.
  assert (E : fold_left (column c) (table_of F fs) [] = fold_left (column c) (rows_of (transfer_functions F) fs) []).
  { destruct fs; auto. unfold table_of, f_count. destruct (_ =? 0); auto. }
  rewrite E, (column_get c (transfer_functions F) t fs) by auto. cbn [dict_get].
  destruct (existsb (x_eqb A f) fs) eqn:Ex; auto. destruct (value t f) eqn:V; auto.
  assert (In f fs) as Hf. { apply P. unfold present. apply existsb_exists. exists t. split; [now apply zth_In in Ht|]. now rewrite V. }
  assert (existsb (x_eqb A f) fs = true); [|congruence]. apply existsb_exists. exists f. split; auto. now apply x_eqb_refl.
Qed.

(** A filter, that is made of the columns *)
Lemma columns_restored F fs i e labels : bands_filter A F -> NoDup fs -> (forall f, In f fs <-> present (transfer_functions F) f = true) ->
  f_count F = 0 \/ some_flag i /\ some_flag e ->
  exists B, mk_bands A (columns (f_count F) (table_of F fs)) i e labels = Ok B /\ f_count (b_filter B) = f_count F /\
    zlen (f_labels (b_filter B)) = f_count F /\
    forall c xs ys ic ec, zth (transfer_functions F) c = Some (Bands xs ys ic ec) -> exists i' e' l,
      flag_of i c i' /\ flag_of e c e' /\ label_of labels c l /\
      zth (transfer_functions (b_filter B)) c = Some (Bands xs ys i' (extrapolated e')) /\ zth (f_labels (b_filter B)) c = Some l.
Proof.
  intros G N P Fl. destruct (columns_ok F fs) as (L & D & V); auto.
  destruct (mk_bands_ok A OA (columns (f_count F) (table_of F fs)) i e labels) as (B & E & (M1 & M2 & M3 & _ & _ & M4)); auto.
  { destruct Fl as [Fl|Fl]; [left; rewrite <- Fl; exact L|now right]. }
  exists B. split; auto. split; [etransitivity; [exact M1|exact L]|]. split; [etransitivity; [exact M3|exact L]|]. intros c xs ys ic ec Ht. pose proof (zth_range _ _ _ Ht) as R.
  destruct (zth_in (columns (f_count F) (table_of F fs)) c) as (d & Hd); [unfold f_count in L; unfold f_count; rewrite L; auto|].
  destruct (M4 c d Hd) as (i' & e' & t & l & Hi & He & Hl & Zt & St & Zl & _). exists i', e', l. repeat (split; auto). rewrite Zt. f_equal.
  destruct (G (Bands xs ys ic ec)) as (xs' & ys' & i2 & e2 & Q & S & Lx); [now apply zth_In in Ht|]. injection Q as <- <- <- <-.
  apply (supported_unique A OA d i' (extrapolated e')); auto. exists xs, ys. split; auto. split; auto. split; auto. intros x y.
  rewrite Forall_forall in D. rewrite <- (dict_get_in A OA d) by (apply D; now apply zth_In in Hd).
  rewrite (V c d (Bands xs ys ic ec)) by auto. cbn [value]. symmetry. apply dict_get_in; auto.
  unfold dictionary. rewrite combine_fst by auto. now apply ascending_nodup with (A := A).
Qed.

End BandsTables.
