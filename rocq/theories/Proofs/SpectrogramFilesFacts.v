(** Spectrograms in files: Model/SpectrogramFiles.v. *)

From Coq Require Import String Ascii ZArith QArith Reals List Bool Lia ZifyBool.
From Verif.Model Require Import Py Numpy Functions Cube Spectrogram Tables SpectrogramFiles.
From Verif.Spec Require Import SpectrogramFilesSpec ComplexSpec.
From Verif.Proofs Require Import PyFacts NumpyFacts SignalAlgebra SignalHelpers CubeFacts SpectrogramAlgebra.
Import ListNotations.
Open Scope list_scope.
Open Scope Z_scope.

Lemma for_each_map {X Y S} (g : X -> Y) (f : S -> Y -> result S) l s : for_each (map g l) f s = for_each l (fun s x => f s (g x)) s.
Proof. revert s. induction l as [|x l IH]; intros s; cbn; auto. destruct (f s (g x)); cbn; auto. Qed.

Lemma combine_zseq {X} (d : X) (l : list X) : combine (zseq 0 (zlen l)) l =
  map (fun i => (i, match zth l i with Some x => x | None => d end)) (zseq 0 (zlen l)).
Proof.
  apply zth_ext. intros i. rewrite zth_map, zth_seq. replace (0 + i) with i by lia.
  destruct (zth l i) as [x|] eqn:E.
  - pose proof (zth_range _ _ _ E). replace ((0 <=? i) && (i <? zlen l)) with true by lia. cbn. rewrite E.
    assert (G : forall (m : list X) a, 0 <= i < zlen m -> zth m i = Some x -> zth (combine (zseq a (zlen m)) m) i = Some (a + i, x)).
    { clear. revert i. intros i m. revert i. induction m as [|y m IH]; intros i a I E; [rewrite zth_nil in E; discriminate|].
      rewrite zlen_cons in *. pose proof (zlen_nonneg m). rewrite zseq_cons by lia. cbn [combine]. rewrite zth_cons. rewrite zth_cons in E.
      destruct (Z.eqb_spec i 0) as [->|N]; [injection E as ->; f_equal; f_equal; lia|].
      replace (zlen m + 1 - 1) with (zlen m) in * by lia. replace (1 + zlen m - 1) with (zlen m) in * by lia.
      rewrite IH by (auto; lia). f_equal. f_equal; lia. }
    rewrite G by auto. f_equal.
  - apply zth_none in E. replace ((0 <=? i) && (i <? zlen l)) with false by lia. apply zth_out.
    unfold zlen. rewrite combine_length. unfold zlen in E. lia.
Qed.

Section Files.
Context {K T : Type}.
Variable of_real : T -> K.
Variable unit_j : K.
Variables mul add : K -> K -> K.
Variable junk : Z -> Z -> Z -> K.

Lemma array_of_lists_ok n1 n2 (l : list (list T)) : 0 < n1 -> 0 <= n2 -> rectangle n1 n2 l ->
  exists m, array_of_lists of_real l = Ok m /\ wf m /\ nrows m = n1 /\ cols m = n2 /\ forall f n, el m f n = option_map of_real (entry l f n).
Proof.
  intros N1 N2 [L U]. destruct l as [|r l]; [change (zlen (@nil (list T))) with 0 in L; lia|]. cbn [array_of_lists].
  assert (R : zlen r = n2) by (apply (U 0); auto).
  assert (A : forall r', In r' (r :: l) -> zlen r' = n2).
  { intros r' I. destruct (In_nth_error _ _ I) as [k E]. apply (U (Z.of_nat k)). unfold zth. replace (Z.of_nat k <? 0) with false by lia.
    rewrite Nat2Z.id. auto. }
  replace (forallb _ _) with true by (symmetry; apply forallb_forall; intros r' I; rewrite (A r' I); lia).
  eexists. split; [reflexivity|]. split; [|split; [|split]]; auto.
  - split; cbn; [lia|]. rewrite R. change (Forall (fun r0 : list K => zlen r0 = n2) (map (map of_real) (r :: l))).
    apply Forall_map, Forall_forall. intros r' I. rewrite zlen_map. auto.
  - unfold nrows. cbn [rows]. rewrite zlen_map. exact L.
  - intros f n. unfold el, entry. cbn [rows]. rewrite zth_map. destruct (zth (r :: l) f); cbn; auto. apply zth_map.
Qed.

Lemma read_json_ok (d : spectrogram_dictionary) data n0 n1 n2 : sj_channels d = Some data -> zlen data = n0 -> 0 < n0 -> 0 < n1 -> 0 < n2 ->
  (forall c l l', zth data c = Some (l, l') -> rectangle n1 n2 l /\ rectangle n1 n2 l') ->
  exists s, read_spectrogram_json of_real unit_j mul add junk d = Ok (Loaded s) /\ wf_spectrogram s /\
    sg_count s = n0 /\ sg_frequencies s = n1 /\ sg_length s = n2 /\
    describes_dictionary d (fun x y => add (mul unit_j (of_real y)) (of_real x)) s.
Proof.
  intros D L N0 N1 N2 U. unfold read_spectrogram_json. rewrite D.
  destruct data as [|[c0 c0'] data']; [change (zlen (@nil (list (list T) * list (list T)))) with 0 in L; lia|].
  destruct (U 0 c0 c0' eq_refl) as [[L1 U1] _].
  destruct c0 as [|r0 c0]; [change (zlen (@nil (list T))) with 0 in L1; lia|].
  assert (R : zlen r0 = n2) by (apply (U1 0); auto). rewrite R. replace (n2 =? 0) with false by lia. rewrite L1.
  remember ((r0 :: c0, c0') :: data') as data eqn:Ed.
  destruct (allocate3_ok junk (zlen data) n1 n2) as (m0 & E0 & W0 & D0 & D1 & D2); try lia. rewrite E0. cbn [bind].
  rewrite (combine_zseq ([], [])), for_each_map.
  set (value := fun c f n => match zth data c with Some (l, l') =>
     match entry l f n, entry l' f n with Some x, Some y => Some (add (mul unit_j (of_real y)) (of_real x)) | _, _ => None end | None => None end).
  edestruct (layers_loop (A := K) (fun channels i => let '(i, c) := (i, match zth data i with Some x => x | None => ([], []) end) in
              imaginary <- array_of_lists of_real (snd c) ;;
              channels <- ufunc3_into mul (scalar3 unit_j) (cube_of imaginary) channels (between i (i + 1)) everything everything ;;
              view <- layer channels i ;;
              real_part <- array_of_lists of_real (fst c) ;;
              ufunc3_into add view (cube_of real_part) channels (between i (i + 1)) everything everything)
    (fun f n => inr 0 n1 f && inr 0 n2 n) value 0 (zlen data) m0) as (m & E & W & Lk & Cl); auto; try lia.
  { intros m c I Wm (K0 & K1 & K2) _. destruct (zth_in data c) as [[l l'] Ec]; [lia|]. rewrite Ec. cbn [fst snd].
    destruct (U c l l' Ec) as [Rl Rl'].
    destruct (array_of_lists_ok n1 n2 l') as (a & Ea & Wa & Na & Ca & Ha); auto; try lia. rewrite Ea. cbn [bind].
    destruct (array_of_lists_ok n1 n2 l) as (b & Eb & Wb & Nb & Cb & Hb); auto; try lia. rewrite Eb.
    destruct (cube_of_ok a Wa) as (Wa3 & A0 & A1 & A2 & Ha3). destruct (cube_of_ok b Wb) as (Wb3 & B0 & B1 & B2 & Hb3).
    destruct (scalar3_ok unit_j) as (Wj & J0 & J1 & J2 & Hj).
    edestruct (ufunc3_into_ok mul (scalar3 unit_j) (cube_of a) m (between c (c + 1)) everything everything c (c + 1) 0 n1 0 n2)
      as (m1 & E1 & W1 & X0 & X1 & X2 & H1); auto; rewrite ?lower_between, ?upper_between, ?lower_everything, ?upper_everything by lia; try lia.
    rewrite E1. cbn [bind].
    destruct (layer_ok m1 c) as (v & Ev & Wv & V0 & V1 & V2 & Hv); auto; [lia|]. rewrite Ev. cbn [bind].
    edestruct (ufunc3_into_ok add v (cube_of b) m1 (between c (c + 1)) everything everything c (c + 1) 0 n1 0 n2)
      as (m2 & E2 & W2 & Y0 & Y1 & Y2 & H2); auto; rewrite ?lower_between, ?upper_between, ?lower_everything, ?upper_everything by lia; try lia.
    exists m2. split; auto. split; auto. split; [unfold like; lia|]. intros i f n. rewrite H2.
    destruct (Z.eqb_spec i c) as [->|Ni].
    - replace (inr c (c + 1) c) with true by (ranges; lia). cbn [andb]. destruct (inr 0 n1 f && inr 0 n2 n) eqn:I2.
      + rewrite V0, V1, V2, B0, B1, B2, X1, X2, K1, K2, D1, D2, Nb, Cb.
        replace (stretch 1 (c - c)) with 0 by (ranges; zcases).
        replace (stretch n1 (f - 0)) with f by (ranges; zcases). replace (stretch n2 (n - 0)) with n by (ranges; zcases).
        rewrite Hv, Hb3. cbn [Z.eqb]. rewrite H1.
        replace (inr c (c + 1) c && inr 0 n1 f && inr 0 n2 n) with true by (ranges; lia).
        rewrite J0, J1, J2, A0, A1, A2, Na, Ca.
        replace (stretch 1 (c - c)) with 0 by (ranges; zcases). replace (stretch 1 (f - 0)) with 0 by (ranges; zcases).
        replace (stretch 1 (n - 0)) with 0 by (ranges; zcases).
        replace (stretch n1 (f - 0)) with f by (ranges; zcases). replace (stretch n2 (n - 0)) with n by (ranges; zcases).
        rewrite Hj, Ha3. cbn [Z.eqb]. rewrite Ha, Hb. unfold value. rewrite Ec.
        destruct (entry l f n), (entry l' f n); reflexivity.
      + rewrite H1. replace (inr c (c + 1) c && inr 0 n1 f && inr 0 n2 n) with false by (ranges; lia). reflexivity.
    - replace (inr c (c + 1) i) with false by (ranges; lia). cbn [andb]. rewrite H1.
      replace (inr c (c + 1) i) with false by (ranges; lia). reflexivity. }
  cbv beta iota in E |- *. rewrite E. cbn [bind].
  destruct Lk as (L0' & L1' & L2'). eexists. split; [reflexivity|]. split; [now apply mk_spectrogram_wf|].
  unfold sg_count, sg_frequencies, sg_length, spectrogram_from_dict, mk_spectrogram.
  cbn [sg_channels sg_resolution sg_rate sg_offset sg_labels]. split; [lia|]. split; [lia|]. split; [lia|].
  destruct (sanitize_labels_ok (Some (get (sj_labels d) [])) (dim0 m)) as [Sl Sz]; [lia|].
  split; [|repeat split; try (destruct (sj_resolution d), (sj_rate d), (sj_offset d); reflexivity)]; cbn [sg_channels sg_resolution sg_rate sg_offset sg_labels].
  - intros c l l' f n x y Hc Hx Hy. rewrite D in Hc. cbn [or_default] in Hc. pose proof (zth_range _ _ _ Hc).
    destruct (U _ _ _ Hc) as [[R1 R2] _]. rewrite Cl.
    assert (I : 0 <= f < n1 /\ 0 <= n < n2).
    { unfold entry in Hx. destruct (zth l f) as [r|] eqn:Er; [|discriminate]. apply R2 in Er as Rr. apply zth_range in Er. apply zth_range in Hx. lia. }
    replace (inr 0 (0 + zlen data) c && (inr 0 n1 f && inr 0 n2 n)) with true by (ranges; lia). unfold value. rewrite Hc, Hx, Hy. reflexivity.
  - exact Sl.
  - intros c I. unfold sg_count in I. cbn [sg_channels] in I. rewrite Sz by auto. reflexivity.
Qed.

Variables real imag : K -> T.

Lemma zth_flat_some {X Y} (g : X -> Y) (h : Z -> option X) n i : 0 <= n -> (forall k, 0 <= k < n -> exists x, h k = Some x) -> 0 <= i < n ->
  zth (flat_map (fun k => match h k with Some x => [g x] | None => [] end) (zseq 0 n)) i = option_map g (h i) /\
  zlen (flat_map (fun k => match h k with Some x => [g x] | None => [] end) (zseq 0 n)) = n.
Proof.
  intros N H I.
  assert (E : flat_map (fun k => match h k with Some x => [Some (g x)] | None => [] end) (zseq 0 n) = map (fun k => option_map g (h k)) (zseq 0 n)).
  { rewrite flat_map_concat_map. assert (G : forall k, In k (zseq 0 n) -> exists x, h k = Some x).
    { intros k Ik. apply H. unfold zseq in Ik. apply in_map_iff in Ik as (j & <- & Ij). apply in_seq in Ij. lia. }
    revert G. generalize (zseq 0 n). induction l as [|k l IH]; intros G; cbn; auto. destruct (G k) as [x Ex]; [now left|]. rewrite Ex. cbn. f_equal.
    apply IH. intros; apply G; now right. }
  assert (F : map Some (flat_map (fun k => match h k with Some x => [g x] | None => [] end) (zseq 0 n)) =
              flat_map (fun k => match h k with Some x => [Some (g x)] | None => [] end) (zseq 0 n)).
  { generalize (zseq 0 n). induction l as [|k l IH]; cbn; auto. rewrite map_app, IH. f_equal. destruct (h k); reflexivity. }
  rewrite E in F.
  split.
  - apply (f_equal (fun l => zth l i)) in F. rewrite !zth_map, zth_seq in F. replace ((0 <=? i) && (i <? n)) with true in F by lia.
    replace (0 + i) with i in F by lia. cbn in F. destruct (H i I) as [x Ex]. rewrite Ex in *. cbn in *.
    destruct (zth _ i); cbn in F; [injection F as <-; reflexivity|discriminate].
  - apply (f_equal zlen) in F. rewrite !zlen_map, zlen_seq in F. lia.
Qed.

Lemma flat_len {X Y} (g : X -> Y) (h : Z -> option X) n : 0 < n -> (forall k, 0 <= k < n -> exists x, h k = Some x) ->
  zlen (flat_map (fun k => match h k with Some x => [g x] | None => [] end) (zseq 0 n)) = n.
Proof. intros N H. apply (zth_flat_some g h n 0); auto; lia. Qed.

Lemma tuples_ok (f : K -> T) (m : cube K) i : wf_cube m -> 0 < dim1 m -> 0 < dim2 m -> 0 <= i < dim0 m ->
  rectangle (dim1 m) (dim2 m) (tuples f m i) /\ forall j k, 0 <= j < dim1 m -> 0 <= k < dim2 m -> entry (tuples f m i) j k = option_map f (cell m i j k).
Proof.
  intros W N1 N2 I. split.
  - split; [unfold tuples; rewrite zlen_map, zlen_seq; lia|]. intros j r E. unfold tuples in E. rewrite zth_map, zth_seq in E.
    destruct ((0 <=? j) && (j <? dim1 m)) eqn:J; [|discriminate]. cbn in E. injection E as <-.
    apply (flat_len f (cell m i j)); auto. intros k Hk. apply cell_in; auto; lia.
  - intros j k J Kk. unfold entry, tuples. rewrite zth_map, zth_seq. replace ((0 <=? j) && (j <? dim1 m)) with true by lia.
    cbn [option_map]. replace (0 + j) with j by lia. apply (zth_flat_some f (cell m i j)); auto; try lia. intros; apply cell_in; auto; lia.
Qed.

Lemma labels_same (labels : list string) (s : list string) n : zlen labels = n -> zlen s = n ->
  (forall c, 0 <= c < n -> zth s c = Some (label_from (Some labels) c)) -> s = labels.
Proof.
  intros L1 L2 H. apply zth_ext_in; [lia|]. intros i I. rewrite H by lia. unfold label_from. cbn [or_default].
  destruct (zth_in labels i) as [x E]; [lia|]. rewrite E. reflexivity.
Qed.

Lemma json_round_trip (s : spectrogram K Q) : (forall z, add (mul unit_j (of_real (imag z))) (of_real (real z)) = z) ->
  wf_spectrogram s -> 0 < sg_count s -> 0 < sg_frequencies s -> 0 < sg_length s ->
  exists t, read_spectrogram_json of_real unit_j mul add junk (spectrogram_as_dict real imag s) = Ok (Loaded t) /\ same_spectrogram s t.
Proof.
  intros X [W Ls] N0 N1 N2. set (d := spectrogram_as_dict real imag s).
  set (data := map (fun i => (tuples real (sg_channels s) i, tuples imag (sg_channels s) i)) (zseq 0 (sg_count s))).
  destruct (read_json_ok d data (sg_count s) (sg_frequencies s) (sg_length s)) as (t & E & [Wt _] & C0 & C1 & C2 & H & R1 & R2 & R3 & R4 & R5); auto.
  - unfold data. rewrite zlen_map, zlen_seq. lia.
  - intros c l l' Z. unfold data in Z. rewrite zth_map, zth_seq in Z. destruct ((0 <=? c) && (c <? sg_count s)) eqn:I; [|discriminate]. cbn in Z.
    injection Z as <- <-. split; apply tuples_ok; auto; unfold sg_count in *; lia.
  - exists t. split; auto. split; [auto|]. split; [|split; [exact R1|split; [exact R2|split; [exact R3|]]]].
    + intros c f n. destruct (cell (sg_channels s) c f n) as [z|] eqn:Z.
      * destruct (cell_range _ _ _ _ _ W Z) as (I0 & I1 & I2).
        destruct (tuples_ok real (sg_channels s) c) as [_ Hr]; auto. destruct (tuples_ok imag (sg_channels s) c) as [_ Hi]; auto.
        specialize (Hr f n I1 I2). specialize (Hi f n I1 I2). rewrite Z in Hr, Hi. cbn in Hr, Hi.
        rewrite (H c (tuples real (sg_channels s) c) (tuples imag (sg_channels s) c) f n (real z) (imag z)); auto; [now rewrite X|].
        cbn [or_default d sj_channels spectrogram_as_dict]. rewrite zth_map, zth_seq. unfold sg_count.
        replace ((0 <=? c) && (c <? dim0 (sg_channels s))) with true by lia. reflexivity.
      * apply cell_out; auto. unfold sg_count, sg_frequencies, sg_length in *. rewrite C0, C1, C2. intros (I0 & I1 & I2).
        destruct (cell_in (sg_channels s) c f n) as [z Ez]; auto. congruence.
    + apply (labels_same _ _ (sg_count s)); auto; [lia|]. intros c I. apply R5. lia.
Qed.

(** No samples *)
Lemma json_empty (s : spectrogram K Q) : wf_spectrogram s -> sg_count s = 0 \/ sg_frequencies s = 0 \/ sg_length s = 0 ->
  exists m res rate o l, read_spectrogram_json of_real unit_j mul add junk (spectrogram_as_dict real imag s) = Ok (Flat m res rate o l) /\ nrows m = 1 /\ cols m = 0.
Proof.
  intros [W L] N. pose proof W as (H0 & H1 & H2 & _). unfold sg_count, sg_frequencies, sg_length in *.
  unfold read_spectrogram_json, spectrogram_as_dict. cbn [sj_channels]. unfold sg_count.
  destruct (Z.eq_dec (dim0 (sg_channels s)) 0) as [E0|N0]; [rewrite E0; cbn [zseq]; repeat eexists|].
  rewrite (zseq_cons _ (dim0 (sg_channels s))) by lia. cbn [map]. unfold tuples at 1.
  destruct (Z.eq_dec (dim1 (sg_channels s)) 0) as [E1|N1]; [rewrite E1; cbn [zseq map]; repeat eexists|].
  rewrite (zseq_cons _ (dim1 (sg_channels s))) by lia. cbn [map].
  assert (dim2 (sg_channels s) = 0) as -> by lia. repeat eexists.
Qed.

Lemma npz_round_trip (s : spectrogram K Q) : wf_spectrogram s ->
  exists t, read_spectrogram_npz junk (write_spectrogram_npz s) = Ok t /\ (Forall (fun l => without_nul l = l) (sg_labels s) -> same_spectrogram s t) /\
    sg_labels t = map without_nul (sg_labels s).
Proof.
  intros [W L]. pose proof W as (H0 & H1 & H2 & _). unfold read_spectrogram_npz, write_spectrogram_npz.
  cbn [sz_channels sz_resolution sz_rate sz_offset sz_labels].
  destruct (allocate3_ok junk (dim0 (sg_channels s)) (dim1 (sg_channels s)) (dim2 (sg_channels s))) as (m0 & E0 & W0 & D0 & D1 & D2); auto. rewrite E0. cbn [bind].
  edestruct (set3_ok m0 everything everything everything (sg_channels s) 0 (dim0 m0) 0 (dim1 m0) 0 (dim2 m0)) as (m & E & Wm & F0 & F1 & F2 & Cl); auto;
    rewrite ?lower_everything, ?upper_everything by lia; try lia.
  rewrite E. cbn [bind]. eexists. split; [reflexivity|].
  assert (Lb : sanitize_labels (Some (map without_nul (sg_labels s))) (dim0 m) = map without_nul (sg_labels s)).
  { apply sanitize_same. rewrite zlen_map. unfold sg_count in L. lia. }
  split; [|exact Lb].
  intros F. unfold same_spectrogram, sg_count, sg_frequencies, sg_length, spectrogram_from_dict, mk_spectrogram.
  cbn [sg_channels sg_resolution sg_rate sg_offset sg_labels get]. rewrite Lb. repeat split; try lia.
  - intros c f n. rewrite Cl. destruct (inr 0 (dim0 m0) c && inr 0 (dim1 m0) f && inr 0 (dim2 m0) n) eqn:I.
    + f_equal; ranges; zcases.
    + rewrite !cell_out; auto; ranges; lia.
  - clear - F. induction F; cbn; congruence.
Qed.
End Files.

Lemma without_nul_spec s : no_nul_at_the_end s -> without_nul s = s.
Proof.
  assert (G : forall s, without_nul s = s \/ exists t, s = (t ++ String "000" EmptyString)%string).
  { induction s0 as [|c s0 IH]; [now left|]. cbn [without_nul]. destruct IH as [E | (t & ->)].
    - rewrite E. destruct s0 as [|c' s0]; [|now left]. destruct (Ascii.eqb_spec c "000"); [subst; right; now exists EmptyString|now left].
    - right. now exists (String c t). }
  intros N. destruct (G s) as [E | (t & E)]; auto. now apply N in E.
Qed.

Lemma nul_dropped s : without_nul (s ++ String "000" EmptyString) = without_nul s.
Proof. induction s as [|c s IH]; [reflexivity|]. cbn [append without_nul]. rewrite IH. reflexivity. Qed.

Lemma cartesian (z : C) : Cadd (Cmul j (C_of_R (im z))) (C_of_R (re z)) = z.
Proof. destruct z as [x y]. unfold Cadd, Cmul, C_of_R, j, re, im. cbn. f_equal; ring. Qed.
