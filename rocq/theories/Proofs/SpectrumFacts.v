(** Proofs about spectrums (C01, C11, C21). *)

From Coq Require Import String ZArith QArith List Bool Lia ZifyBool.
From Verif.Model Require Import Py Numpy Functions Signal Spectrum.
From Verif.Spec Require Import TimeSpec SliceSpec FrequencySpec.
From Verif.Proofs Require Import PyFacts NumpyFacts SliceFacts SignalAlgebra SignalShape SignalExtra SignalHelpers.
Import ListNotations.
Open Scope Z_scope.

Section SpectrumFacts.
Context {A R : Type}.
Variable O : ops A.
Variable junk : Z -> Z -> A.
Implicit Types s o r : spectrum A R.

Lemma mk_spectrum_wf (m : arr A) (q : R) l : wf m -> wf_spectrum (mk_spectrum m q l).
Proof.
  intros W. split; auto. cbn. apply sanitize_labels_ok. apply nrows_nonneg.
Qed.

Lemma wf_sp_length s : wf_spectrum s -> 0 <= sp_length s.
Proof. intros [[H _] _]. exact H. Qed.
Lemma wf_sp_count s : 0 <= sp_count s.
Proof. apply nrows_nonneg. Qed.

Lemma spectrum_algebra_ok f pivot label s o :
  wf_spectrum s -> wf_spectrum o -> 1 <= sp_count s -> 1 <= sp_count o ->
  sp_length o = sp_length s \/ sp_length o = 1 ->
  exists r, spectrum_algebra junk f pivot label s o = Ok r /\ wf_spectrum r /\
    resolution r = resolution s /\ sp_count r = Z.max (sp_count s) (sp_count o) /\ sp_length r = sp_length s /\
    sp_labels r = zrepeat label (sp_count r) /\
    forall c k, 0 <= c < sp_count r -> 0 <= k < sp_length r ->
      bin r c k = either f (right_only f pivot) (operand_bin s c k) (operand_bin o c (if sp_length o =? 1 then 0 else k)).
Proof.
  intros [Ws WLs] [Wo WLo] Cs Co HL.
  assert (Ls : 0 <= sp_length s) by apply Ws.
  unfold spectrum_algebra, operand_bin, bin in *.
  match goal with |- exists r, bind ?e _ = _ /\ _ => set (body := e) end.
  assert (B : exists m, body = Ok m /\ wf m /\ nrows m = Z.max (sp_count s) (sp_count o) /\ cols m = sp_length s /\
    forall c k, 0 <= c < nrows m -> 0 <= k < cols m ->
      el m c k = either f (right_only f pivot)
         (el (sp_channels s) (if sp_count s =? 1 then 0 else c) k)
         (el (sp_channels o) (if sp_count o =? 1 then 0 else c) (if sp_length o =? 1 then 0 else k))).
  2:{ destruct B as (m & -> & W & N & C & H). cbn [bind]. eexists. split; [reflexivity|].
      split; [now apply mk_spectrum_wf|]. unfold sp_count, sp_length; cbn.
      repeat split; auto. apply sanitize_same. rewrite zlen_repeat. pose proof (nrows_nonneg m). lia. }
  assert (IS : forall c k, 0 <= c < sp_count s -> 0 <= k < sp_length s -> exists x, el (sp_channels s) c k = Some x)
    by (intros; apply el_in; auto).
  assert (IO : forall c k, 0 <= c < sp_count o -> 0 <= k < sp_length o -> exists x, el (sp_channels o) c k = Some x)
    by (intros; apply el_in; auto).
  assert (OS : forall c k, sp_count s <= c -> el (sp_channels s) c k = None)
    by (intros; apply el_out; auto; unfold sp_count in *; lia).
  assert (OO : forall c k, sp_count o <= c -> el (sp_channels o) c k = None)
    by (intros; apply el_out; auto; unfold sp_count in *; lia).
  subst body.
  destruct (Z.eqb_spec (sp_count s) 1) as [E1|E1]; [|destruct (Z.eqb_spec (sp_count o) 1) as [E2|E2];
    [|destruct (Z.ltb_spec (sp_count s) (sp_count o)) as [E3|E3]]].
  - destruct (allocate_ok junk (sp_count o) (sp_length s)) as (m0 & -> & W0 & N0 & C0); try lia. cbn [bind].
    destruct (row_ok (sp_channels s) 0) as (v & -> & Wv & Nv & Cv & Hv); auto; [fold (sp_count s); lia|]. cbn [bind].
    destruct (ufunc2_into_ok f v (sp_channels o) m0 everything everything) as (m & -> & W & N & C & H); auto;
      bnd; fold (sp_count o) (sp_length o) (sp_length s); rewrite ?Cv; fold (sp_length s); try lia.
    exists m. repeat split; auto; try apply W; try lia. intros c k Hc Hk. rewrite H. bnd. rewrite N, C in *. rewrite N0, C0 in *.
    replace (_ && _) with true by lia. rewrite Nv, Cv. fold (sp_count o) (sp_length o) (sp_length s). cbn [Z.eqb Pos.eqb].
    rewrite !Z.sub_0_r. rewrite Hv.
    replace (if sp_length s =? 1 then 0 else k) with k by zcases.
    destruct (IS 0 k) as [x ->]; try lia.
    destruct (IO (if sp_count o =? 1 then 0 else c) (if sp_length o =? 1 then 0 else k)) as [y ->]; [zcases|zcases|]. reflexivity.
  - destruct (allocate_ok junk (sp_count s) (sp_length s)) as (m0 & -> & W0 & N0 & C0); try lia. cbn [bind].
    destruct (row_ok (sp_channels o) 0) as (v & -> & Wv & Nv & Cv & Hv); auto; [fold (sp_count o); lia|]. cbn [bind].
    destruct (ufunc2_into_ok f (sp_channels s) v m0 everything everything) as (m & -> & W & N & C & H); auto;
      bnd; fold (sp_count s) (sp_length s); rewrite ?Cv; fold (sp_length o); try lia.
    exists m. repeat split; auto; try apply W; try lia. intros c k Hc Hk. rewrite H. bnd. rewrite N, C in *. rewrite N0, C0 in *.
    replace (_ && _) with true by lia. rewrite Nv, Cv. fold (sp_count s) (sp_length o) (sp_length s). cbn [Z.eqb Pos.eqb].
    rewrite !Z.sub_0_r. rewrite Hv.
    replace (if sp_length s =? 1 then 0 else k) with k by zcases.
    replace (if sp_count s =? 1 then 0 else c) with c by zcases.
    destruct (IS c k) as [x ->]; try lia.
    destruct (IO 0 (if sp_length o =? 1 then 0 else k)) as [y ->]; [zcases|zcases|]. reflexivity.
  - destruct (allocate_ok junk (sp_count o) (sp_length s)) as (m0 & -> & W0 & N0 & C0); try lia. cbn [bind].
    destruct (ufunc2_into_ok f (sp_channels s) (block (sp_channels o) (between 0 (sp_count s)) everything) m0
                (between 0 (sp_count s)) everything) as (m1 & -> & W1 & N1 & C1 & H1); auto using wf_block;
      rewrite ?nrows_block, ?cols_block; fold (sp_count o) (sp_length o) (sp_count s) (sp_length s); bnd; try lia. cbn [bind].
    assert (K : exists m, match pivot with
       | None => set_block m1 (from (sp_count s)) everything (block (sp_channels o) (from (sp_count s)) everything)
       | Some p => ufunc2_into f (scalar p) (block (sp_channels o) (from (sp_count s)) everything) m1 (from (sp_count s)) everything
       end = Ok m /\ wf m /\ nrows m = nrows m1 /\ cols m = cols m1 /\
       forall c k, 0 <= c < nrows m1 -> 0 <= k < cols m1 -> el m c k =
          if sp_count s <=? c then option_map (right_only f pivot) (el (sp_channels o) c (if sp_length o =? 1 then 0 else k))
          else el m1 c k).
    { destruct pivot as [p|].
      - destruct (ufunc2_into_ok f (scalar p) (block (sp_channels o) (from (sp_count s)) everything) m1 (from (sp_count s)) everything)
          as (m & -> & W & N & C & H); auto using wf_block, wf_scalar; rewrite ?nrows_block, ?cols_block;
          fold (sp_count o) (sp_length o); bnd; try lia.
        exists m. repeat split; auto; try apply W. intros c k Hc Hk. rewrite H.
        rewrite el_block by auto. rewrite ?nrows_block, ?cols_block. fold (sp_count o) (sp_length o). bnd.
        change (el (scalar p) _ _) with (Some p). rewrite N1, C1 in *. rewrite N0, C0 in *.
        destruct (Z.leb_spec (sp_count s) c).
        + replace (_ && _) with true by lia.
          replace (_ && _) with true by (zcases).
          cbn [right_only]. 
          replace ((if sp_length o - 0 =? 1 then 0 else k - 0) + 0) with (if sp_length o =? 1 then 0 else k) by zcases.
          replace ((if sp_count o - sp_count s =? 1 then 0 else c - sp_count s) + sp_count s) with c by zcases.
          destruct (el (sp_channels o) c _); reflexivity.
        + replace (_ && _) with false by lia. reflexivity.
      - destruct (set_block_ok m1 (from (sp_count s)) everything (block (sp_channels o) (from (sp_count s)) everything))
          as (m & -> & W & N & C & H); auto using wf_block; rewrite ?nrows_block, ?cols_block;
          fold (sp_count o) (sp_length o); bnd; try lia.
        exists m. repeat split; auto; try apply W. intros c k Hc Hk. rewrite H.
        rewrite el_block by auto. rewrite ?nrows_block, ?cols_block. fold (sp_count o) (sp_length o). bnd.
        rewrite N1, C1 in *. rewrite N0, C0 in *.
        destruct (Z.leb_spec (sp_count s) c).
        + replace (_ && _) with true by lia.
          replace (_ && _) with true by (zcases).
          replace ((if sp_length o - 0 =? 1 then 0 else k - 0) + 0) with (if sp_length o =? 1 then 0 else k) by zcases.
          replace ((if sp_count o - sp_count s =? 1 then 0 else c - sp_count s) + sp_count s) with c by zcases.
          destruct (el (sp_channels o) c _); reflexivity.
        + replace (_ && _) with false by lia. reflexivity. }
    destruct K as (m & -> & W & N & C & H). exists m. repeat split; auto; try apply W; try lia.
    intros c k Hc Hk. rewrite H by lia. destruct (Z.leb_spec (sp_count s) c).
    + rewrite OS by lia. destruct (IO c (if sp_length o =? 1 then 0 else k)) as [y ->]; [lia|zcases|]. reflexivity.
    + rewrite H1, el_block by auto. rewrite ?nrows_block, ?cols_block. fold (sp_count s) (sp_length s) (sp_count o) (sp_length o). bnd.
      replace (_ && _) with true by lia. replace (_ && _) with true by zcases.
      replace ((if sp_length o - 0 =? 1 then 0 else k - 0) + 0) with (if sp_length o =? 1 then 0 else k) by zcases.
      replace ((if sp_count s - 0 =? 1 then 0 else c - 0) + 0) with c by zcases.
      replace (if sp_count s =? 1 then 0 else c - 0) with c by zcases.
      replace (if sp_length s =? 1 then 0 else k - 0) with k by zcases.
      destruct (IS c k) as [x ->]; try lia.
      destruct (IO c (if sp_length o =? 1 then 0 else k)) as [y ->]; [lia|zcases|]. reflexivity.
  - destruct (allocate_ok junk (sp_count s) (sp_length s)) as (m0 & -> & W0 & N0 & C0); try lia. cbn [bind].
    destruct (ufunc2_into_ok f (block (sp_channels s) (between 0 (sp_count o)) everything) (sp_channels o) m0
                (between 0 (sp_count o)) everything) as (m1 & -> & W1 & N1 & C1 & H1); auto using wf_block;
      rewrite ?nrows_block, ?cols_block; fold (sp_count o) (sp_length o) (sp_count s) (sp_length s); bnd; try lia. cbn [bind].
    destruct (set_block_ok m1 (from (sp_count o)) everything (block (sp_channels s) (from (sp_count o)) everything))
      as (m & -> & W & N & C & H); auto using wf_block; rewrite ?nrows_block, ?cols_block;
      fold (sp_count s) (sp_length s); bnd; try lia.
    exists m. repeat split; auto; try apply W; try lia. intros c k Hc Hk. rewrite H.
    rewrite el_block by auto. rewrite ?nrows_block, ?cols_block. fold (sp_count s) (sp_length s). bnd.
    destruct (Z.lt_ge_cases c (sp_count o)).
    + replace (_ && _) with false by lia. rewrite H1, el_block by auto. rewrite ?nrows_block, ?cols_block.
      fold (sp_count s) (sp_length s) (sp_count o) (sp_length o). bnd.
      replace (_ && _) with true by lia. replace (_ && _) with true by zcases.
      replace ((if sp_length s - 0 =? 1 then 0 else k - 0) + 0) with k by zcases.
      replace ((if sp_count o - 0 =? 1 then 0 else c - 0) + 0) with c by zcases.
      replace (if sp_count o =? 1 then 0 else c - 0) with c by zcases.
      replace (if sp_length o =? 1 then 0 else k - 0) with (if sp_length o =? 1 then 0 else k) by zcases.
      destruct (IS c k) as [x ->]; try lia.
      destruct (IO c (if sp_length o =? 1 then 0 else k)) as [y ->]; [lia|zcases|]. reflexivity.
    + rewrite OO by lia. replace (_ && _) with true by lia. replace (_ && _) with true by zcases.
      replace ((if sp_length s - 0 =? 1 then 0 else k - 0) + 0) with k by zcases.
      replace ((if sp_count s - sp_count o =? 1 then 0 else c - sp_count o) + sp_count o) with c by zcases.
      destruct (IS c k) as [x ->]; try lia. reflexivity.
Qed.

(** ** Different lengths *)

Lemma broadcast_cases (m : arr A) n k : (exists m', broadcast m n k = Ok m') \/ broadcast m n k = Err ValueError.
Proof.
  unfold broadcast. destruct (negb _); auto. destruct (_ =? n); eauto.
  destruct (rows m) as [|? [|]]; eauto.
Qed.

Lemma ufunc2_into_bad (f : A -> A -> A) (a b m : arr A) (r : bounds) :
  0 <= cols m -> cols b <> cols m -> cols b <> 1 ->
  ufunc2_into f a b m r everything = Err ValueError.
Proof.
  intros P N1 N2. unfold ufunc2_into, ufunc2. bnd.
  destruct (broadcast_cases a (upper r (nrows m) - lower r (nrows m)) (cols m - 0)) as [[m' ->]| ->]; cbn [bind]; auto.
  unfold broadcast at 1. replace (negb _) with true by lia. reflexivity.
Qed.

Lemma spectrum_algebra_lengths f pivot label s o :
  wf_spectrum s -> wf_spectrum o -> 1 <= sp_count s -> 1 <= sp_count o ->
  sp_length o <> sp_length s -> sp_length o <> 1 ->
  spectrum_algebra junk f pivot label s o = Err ValueError.
Proof.
  intros [Ws WLs] [Wo WLo] Cs Co N1 N2.
  assert (Ls : 0 <= sp_length s) by apply Ws. assert (Lo : 0 <= sp_length o) by apply Wo.
  unfold spectrum_algebra.
  destruct (Z.eqb_spec (sp_count s) 1) as [E1|E1]; [|destruct (Z.eqb_spec (sp_count o) 1) as [E2|E2];
    [|destruct (Z.ltb_spec (sp_count s) (sp_count o)) as [E3|E3]]].
  - destruct (allocate_ok junk (sp_count o) (sp_length s)) as (m0 & -> & W0 & N0 & C0); try lia. cbn [bind].
    destruct (row_ok (sp_channels s) 0) as (v & -> & Wv & Nv & Cv & Hv); auto; [fold (sp_count s); lia|]. cbn [bind].
    rewrite ufunc2_into_bad; unfold sp_length in *; auto; lia.
  - destruct (allocate_ok junk (sp_count s) (sp_length s)) as (m0 & -> & W0 & N0 & C0); try lia. cbn [bind].
    destruct (row_ok (sp_channels o) 0) as (v & -> & Wv & Nv & Cv & Hv); auto; [fold (sp_count o); lia|]. cbn [bind].
    rewrite ufunc2_into_bad; unfold sp_length in *; auto; lia.
  - destruct (allocate_ok junk (sp_count o) (sp_length s)) as (m0 & -> & W0 & N0 & C0); try lia. cbn [bind].
    rewrite ufunc2_into_bad; rewrite ?cols_block; fold (sp_length o); bnd; auto; lia.
  - destruct (allocate_ok junk (sp_count s) (sp_length s)) as (m0 & -> & W0 & N0 & C0); try lia. cbn [bind].
    rewrite ufunc2_into_bad; fold (sp_length o); auto; lia.
Qed.

(** ** The methods that do the same as those of signals *)

Definition as_signal s : signal A := Signal (sp_channels s) (o_zero O) 0 (sp_labels s).
Definition as_spectrum (q : R) (g : signal A) : spectrum A R := Spectrum (channels g) q (labels g).

Lemma as_wf s : wf_spectrum s -> wf_signal (as_signal s).
Proof. intros H; exact H. Qed.
Lemma as_wf' q g : wf_signal g -> wf_spectrum (as_spectrum q g).
Proof. intros H; exact H. Qed.

Lemma bind_mk (x : result (arr A)) q z l :
  bind x (fun m => Ok (mk_spectrum m q l)) = rmap (as_spectrum q) (bind x (fun m => Ok (mk_signal m (o_zero O) z l))).
Proof. destruct x; reflexivity. Qed.

Lemma pad_as s n v : spectrum_pad junk s n v = rmap (as_spectrum (resolution s)) (signal_pad junk (as_signal s) n v).
Proof.
  unfold spectrum_pad, signal_pad. change (length (as_signal s)) with (sp_length s).
  destruct (n =? sp_length s); [destruct s; reflexivity|].
  change (count (as_signal s)) with (sp_count s). change (channels (as_signal s)) with (sp_channels s).
  change (labels (as_signal s)) with (sp_labels s).
  destruct (allocate junk (sp_count s) n); [|reflexivity]. cbn [bind]. apply bind_mk.
Qed.

Lemma array_as f s x : spectrum_algebra_array junk f s x = rmap (as_spectrum (resolution s)) (algebra_array junk f (as_signal s) x).
Proof.
  unfold spectrum_algebra_array, algebra_array.
  change (count (as_signal s)) with (sp_count s). change (length (as_signal s)) with (sp_length s).
  destruct (allocate junk (sp_count s) (sp_length s)); [|reflexivity]. cbn [bind]. apply bind_mk.
Qed.

Lemma array_right_as f s x :
  spectrum_algebra_array_right junk f s x = rmap (as_spectrum (resolution s)) (algebra_array_right junk f (as_signal s) x).
Proof.
  unfold spectrum_algebra_array_right, algebra_array_right.
  change (count (as_signal s)) with (sp_count s). change (length (as_signal s)) with (sp_length s).
  destruct (allocate junk (sp_count s) (sp_length s)); [|reflexivity]. cbn [bind]. apply bind_mk.
Qed.

Lemma invert_as s : spectrum_invert O junk s = spectrum_algebra_array_right junk (o_div O) s (scalar (o_one O)).
Proof. reflexivity. Qed.

Lemma eqb_as R_eqb s o : o_eqb O (o_zero O) (o_zero O) = true ->
  spectrum_eqb O R_eqb s o = R_eqb (resolution s) (resolution o) && signal_eqb O (as_signal s) (as_signal o).
Proof.
  intros H. unfold spectrum_eqb, signal_eqb. cbn [as_signal sampling_rate offset channels labels]. rewrite H. cbn.
  destruct (R_eqb _ _); reflexivity.
Qed.

Lemma getitem_one_as s k :
  spectrum_getitem s (KOne k) = rmap (as_spectrum (resolution s)) (signal_getitem (as_signal s) (KOne k)).
Proof.
  unfold spectrum_getitem, signal_getitem. change (count (as_signal s)) with (sp_count s).
  change (channels (as_signal s)) with (sp_channels s). change (labels (as_signal s)) with (sp_labels s).
  destruct (key_to_slice k (sp_count s)); [|reflexivity]. cbn [bind].
  destruct (channels_slice _ _ _); [|reflexivity]. cbn [bind]. destruct (getslice _ _); reflexivity.
Qed.

Lemma getitem_two_as s k k' :
  spectrum_getitem s (KTuple [k; k']) = rmap (as_spectrum (resolution s)) (signal_getitem (as_signal s) (KTuple [k; k'])).
Proof.
  unfold spectrum_getitem, signal_getitem, keys_to_slices. change (count (as_signal s)) with (sp_count s).
  change (length (as_signal s)) with (sp_length s).
  change (channels (as_signal s)) with (sp_channels s). change (labels (as_signal s)) with (sp_labels s).
  cbn [map2 sequence].
  destruct (key_to_slice k (sp_count s)) as [c|]; [|reflexivity]. cbn [bind].
  destruct (key_to_slice k' (sp_length s)) as [t|]; [|reflexivity]. cbn [bind].
  change (getitem [c; t] 0) with (Ok c). change (getitem [c; t] 1) with (Ok t). cbn [bind].
  change (zth [c; t] 1) with (Some t). cbn iota.
  destruct (channels_slice _ _ _); [|reflexivity]. cbn [bind]. destruct (getslice _ _); reflexivity.
Qed.

End SpectrumFacts.

Section SpectrumStatements.
Context {A R : Type}.
Variable O : ops A.
Implicit Types s o r : spectrum A R.

Lemma spectrum_op_ok junk (p : operator) s o :
  wf_spectrum s -> wf_spectrum o -> 1 <= sp_count s -> 1 <= sp_count o ->
  sp_length o = sp_length s \/ sp_length o = 1 ->
  exists r, spectrum_op O junk p s o = Ok r /\ wf_spectrum r /\
    resolution r = resolution s /\ sp_count r = Z.max (sp_count s) (sp_count o) /\ sp_length r = sp_length s /\
    (forall c, 0 <= c < sp_count r -> zth (sp_labels r) c = Some (label_of_result p)) /\
    forall c k, 0 <= c < sp_count r -> 0 <= k < sp_length r ->
      exists x, bin r c k = Some x /\
      bin r c k = either (meaning' O p) (alone' O p) (operand_bin s c k) (operand_bin o c (if sp_length o =? 1 then 0 else k)).
Proof.
  intros Ws Wo Cs Co HL.
  destruct (spectrum_algebra_ok junk (op_function O p) (op_pivot O p) (op_label p) s o)
    as (r & E & W & R1 & R2 & R3 & R4 & R5); auto.
  exists r. split; [exact E|]. split; [exact W|]. do 3 (split; [assumption|]).
  split. { intros c Hc. rewrite R4, zth_repeat. replace (_ && _) with true by lia. destruct p; reflexivity. }
  intros c k Hc Hk. destruct (el_in (sp_channels r) c k) as [x X]; [apply W|auto|auto|].
  exists x. split; [exact X|]. rewrite R5 by auto. destruct p; reflexivity.
Qed.

Lemma spectrum_op_lengths junk (p : operator) s o :
  wf_spectrum s -> wf_spectrum o -> 1 <= sp_count s -> 1 <= sp_count o ->
  sp_length o <> sp_length s -> sp_length o <> 1 ->
  spectrum_op O junk p s o = Err ValueError.
Proof. intros. now apply spectrum_algebra_lengths. Qed.

Lemma spectrum_number junk (p : operator) s (x : A) : wf_spectrum s ->
  exists r r', spectrum_op_array O junk p s (scalar x) = Ok r /\ spectrum_op_array_right O junk p s (scalar x) = Ok r' /\
    (forall q, q = r \/ q = r' ->
       wf_spectrum q /\ resolution q = resolution s /\ sp_labels q = sp_labels s /\ sp_count q = sp_count s /\
       sp_length q = sp_length s) /\
    forall c k,
      bin r c k = option_map (fun a => meaning' O p a x) (bin s c k) /\
      bin r' c k = option_map (fun a => meaning' O p x a) (bin s c k).
Proof.
  intros Ws. destruct (signal_op_number O junk p (as_signal O s) x) as (g & g' & E & E' & Q & H); [exact Ws|].
  exists (as_spectrum (resolution s) g), (as_spectrum (resolution s) g').
  unfold spectrum_op_array, spectrum_op_array_right. rewrite (array_as O), (array_right_as O).
  unfold signal_op_array, signal_op_array_right in E, E'. rewrite E, E'.
  split; [reflexivity|]. split; [reflexivity|]. split.
  - intros q [E0|E0]; rewrite E0; clear E0.
    + destruct (Q g) as (W & _ & L & C & B & D); auto. unfold begins, ends, length in *. repeat split; auto; try apply W.
      unfold sp_length. cbn in *. lia.
    + destruct (Q g') as (W & _ & L & C & B & D); auto. unfold begins, ends, length in *. repeat split; auto; try apply W.
      unfold sp_length. cbn in *. lia.
  - intros c k. destruct (Q g) as (_ & _ & _ & _ & B & _); auto. destruct (Q g') as (_ & _ & _ & _ & B' & _); auto.
    destruct (H c k) as [H1 H2]. unfold at_time, begins in *. rewrite B in H1. rewrite B' in H2. cbn [as_signal offset channels] in *.
    rewrite Z.sub_0_r in *. split; [exact H1|exact H2].
Qed.

Lemma spectrum_pad_ok junk s n (v : A) : wf_spectrum s -> 0 <= n ->
  exists r, spectrum_pad junk s n v = Ok r /\ wf_spectrum r /\ resolution r = resolution s /\
    sp_labels r = sp_labels s /\ sp_count r = sp_count s /\ sp_length r = n /\
    forall c k, 0 <= c < sp_count s -> 0 <= k < n ->
      bin r c k = Some (match bin s c k with Some x => x | None => v end).
Proof.
  intros Ws N. destruct (pad_ok junk (as_signal O s) n v) as (g & E & W & R1 & R2 & R3 & R4 & R5 & R6); auto.
  exists (as_spectrum (resolution s) g). rewrite (pad_as O), E. split; [reflexivity|].
  do 5 (split; [assumption || reflexivity|]).
  intros c k Hc Hk. specialize (R6 c k Hc). unfold at_time in R6. rewrite R2 in R6. cbn [as_signal offset channels] in R6.
  rewrite Z.sub_0_r in R6. apply R6. lia.
Qed.

Lemma spectrum_eqb_ok (R_eqb : R -> R -> bool) s o : o_eqb O (o_zero O) (o_zero O) = true -> wf_spectrum s -> wf_spectrum o ->
  (spectrum_eqb O R_eqb s o = true <->
   R_eqb (resolution s) (resolution o) = true /\ sp_count s = sp_count o /\ sp_length s = sp_length o /\ sp_labels s = sp_labels o /\
   forall c k x y, bin s c k = Some x -> bin o c k = Some y -> o_eqb O x y = true).
Proof.
  intros Z0 Ws Wo. rewrite eqb_as by auto. rewrite andb_true_iff, signal_eqb_iff by auto.
  cbn [as_signal sampling_rate offset labels].
  change (count (as_signal O s)) with (sp_count s). change (count (as_signal O o)) with (sp_count o).
  change (length (as_signal O s)) with (sp_length s). change (length (as_signal O o)) with (sp_length o).
  assert (E : (forall c t x y, at_time (as_signal O s) c t = Some x -> at_time (as_signal O o) c t = Some y -> o_eqb O x y = true) <->
             (forall c k x y, bin s c k = Some x -> bin o c k = Some y -> o_eqb O x y = true)).
  { unfold at_time, bin. cbn [as_signal offset channels]. split; intros H c t; specialize (H c t); rewrite Z.sub_0_r in *; auto. }
  rewrite E. intuition.
Qed.

Lemma spectrum_equivalence (R_eqb : R -> R -> bool) :
  (forall x, o_eqb O x x = true) -> (forall x y, o_eqb O x y = o_eqb O y x) ->
  (forall x y z, o_eqb O x y = true -> o_eqb O y z = true -> o_eqb O x z = true) ->
  (forall x, R_eqb x x = true) -> (forall x y, R_eqb x y = R_eqb y x) ->
  (forall x y z, R_eqb x y = true -> R_eqb y z = true -> R_eqb x z = true) ->
  forall a b c : spectrum A R, wf_spectrum a -> wf_spectrum b -> wf_spectrum c ->
  spectrum_eqb O R_eqb a a = true /\ spectrum_eqb O R_eqb a b = spectrum_eqb O R_eqb b a /\
  (spectrum_eqb O R_eqb a b = true -> spectrum_eqb O R_eqb b c = true -> spectrum_eqb O R_eqb a c = true).
Proof.
  intros H1 H2 H3 H4 H5 H6 a b c Wa Wb Wc. rewrite !eqb_as by auto.
  destruct (signal_equivalence O H1 H2 H3 (as_signal O a) (as_signal O b) (as_signal O c)) as (E1 & E2 & E3); auto.
  rewrite H4, E1, E2, (H5 (resolution b)). split; [reflexivity|]. split; [reflexivity|]. rewrite <- E2.
  rewrite !andb_true_iff. intros [X1 X2] [Y1 Y2]. split; [|auto]. rewrite H5 in X1. rewrite H5 in X1. eauto.
Qed.

Lemma spectrum_hash_equal (R_eqb : R -> R -> bool) H (hash_number : A -> H) (hash_float : R -> H) hash_int hash_str hash_tuple s o :
  o_eqb O (o_zero O) (o_zero O) = true -> wf_spectrum s -> wf_spectrum o ->
  (forall x y, o_eqb O x y = true -> hash_number x = hash_number y) ->
  (forall x y, R_eqb x y = true -> hash_float x = hash_float y) ->
  spectrum_eqb O R_eqb s o = true ->
  spectrum_hash hash_number hash_float hash_int hash_str hash_tuple s = spectrum_hash hash_number hash_float hash_int hash_str hash_tuple o.
Proof.
  intros Z0 Ws Wo Hn Hf E. apply spectrum_eqb_ok in E; auto. destruct E as (E1 & E2 & E3 & E4 & E5).
  unfold spectrum_hash. fold (sp_count s) (sp_count o) (sp_length s) (sp_length o). rewrite (Hf _ _ E1), E2, E3, E4.
  rewrite (concat_hash hash_number (sp_channels s) (sp_channels o)); auto; try apply Ws; try apply Wo.
  intros i j x y X Y. apply Hn. eapply E5; eassumption.
Qed.

Lemma spectrum_slices s ca cb ck ta tb tk :
  wf_spectrum s -> 0 < the_step ck -> 0 < the_step tk ->
  exists r, spectrum_getitem s (KTuple [KSlice (option_map NInt ca) (option_map NInt cb) (option_map NInt ck);
                                      KSlice (option_map NInt ta) (option_map NInt tb) (option_map NInt tk)]) = Ok r /\
    wf_spectrum r /\ resolution r = resolution s /\
    (forall i, 0 <= i -> (i < sp_count r <-> selected ca cb (sp_count s) (starts_at ca (sp_count s) + i * the_step ck))) /\
    (forall j, 0 <= j -> (j < sp_length r <-> selected ta tb (sp_length s) (starts_at ta (sp_length s) + j * the_step tk))) /\
    (forall i, 0 <= i < sp_count r -> zth (sp_labels r) i = zth (sp_labels s) (starts_at ca (sp_count s) + i * the_step ck)) /\
    (forall i j, 0 <= i < sp_count r -> 0 <= j < sp_length r ->
       bin r i j = bin s (starts_at ca (sp_count s) + i * the_step ck) (starts_at ta (sp_length s) + j * the_step tk)).
Proof.
  intros Ws Kc Kt. destruct (getitem_slices (as_signal O s) ca cb ck ta tb tk) as (g & E & W & R1 & R2 & R3 & R4 & R5 & R6); auto.
  exists (as_spectrum (resolution s) g). rewrite (getitem_two_as O), E. split; [reflexivity|].
  do 5 (split; [assumption || reflexivity|]). exact R5.
Qed.

Lemma spectrum_inverse junk s : wf_spectrum s ->
  exists r, spectrum_invert O junk s = Ok r /\ wf_spectrum r /\ resolution r = resolution s /\ sp_labels r = sp_labels s /\
    sp_count r = sp_count s /\ sp_length r = sp_length s /\
    forall c k, bin r c k = option_map (o_div O (o_one O)) (bin s c k).
Proof.
  intros Ws. destruct (spectrum_number junk OpDiv s (o_one O) Ws) as (r & r' & E & E' & Q & H).
  exists r'. split; [exact E'|]. destruct (Q r') as (W & Q1 & Q2 & Q3 & Q4); auto. do 5 (split; [assumption|]).
  intros c k. destruct (H c k) as [_ H2]. exact H2.
Qed.

Lemma spectrum_unary conj s : wf_spectrum s ->
  forall q f, (q = spectrum_neg O s /\ f = o_neg O) \/ (q = spectrum_abs O s /\ f = o_abs O) \/
              (q = spectrum_conjugate conj s /\ f = conj) ->
    wf_spectrum q /\ resolution q = resolution s /\ sp_labels q = sp_labels s /\ sp_count q = sp_count s /\
    sp_length q = sp_length s /\ forall c k, bin q c k = option_map f (bin s c k).
Proof.
  intros Ws q f H.
  assert (E : q = mk_spectrum (ufunc1 f (sp_channels s)) (resolution s) (Some (sp_labels s)))
    by (destruct H as [[-> ->]|[[-> ->]|[-> ->]]]; reflexivity).
  subst q. unfold bin, sp_count, sp_length. cbn [sp_channels resolution mk_spectrum].
  split; [apply mk_spectrum_wf, ufunc1_wf, Ws|].
  repeat split; auto.
  - apply sanitize_same. rewrite nrows_ufunc1. apply Ws.
  - apply nrows_ufunc1.
  - intros c t. apply el_ufunc1.
Qed.

End SpectrumStatements.
