(** Sound files: results. *)

From Coq Require Import String ZArith QArith Qround Qabs List Bool Lia ZifyBool Lqa.
From Verif.Model Require Import Py Numpy Vector Functions Signal Pcm.
From Verif.Spec Require Import PcmSpec.
From Verif.Proofs Require Import PyFacts NumpyFacts VectorFacts SliceFacts SignalAlgebra InterleaveFacts PcmCodes PcmWriting PcmReading.
Import ListNotations.
Open Scope list_scope.
Open Scope Z_scope.

(** ** The sampling rate *)

Lemma py_round_nearest q k : (Qabs (q - inject_Z (py_round q)) <= Qabs (q - inject_Z k))%Q.
Proof.
  pose proof (py_round_near q) as [A B]. set (z := py_round q) in *.
  destruct (inject_lin z) as [L1 L2]. rewrite L1 in A. rewrite L2 in B.
  destruct (Z.eq_dec k z) as [-> | Ne]; [apply Qle_refl |].
  apply Qle_trans with (1 # 2); [apply Qabs_Qle_condition; split; lra |].
  destruct (Z.lt_ge_cases k z) as [L | L].
  - assert (H : (inject_Z k <= inject_Z z - 1)%Q) by (change 1%Q with (inject_Z 1); unfold Qminus; rewrite <- inject_Z_opp, <- inject_Z_plus, <- Zle_Qle; lia).
    apply Qle_trans with (q - inject_Z k)%Q; [lra | apply Qle_Qabs].
  - assert (H : (inject_Z z + 1 <= inject_Z k)%Q) by (change 1%Q with (inject_Z 1); rewrite <- inject_Z_plus, <- Zle_Qle; lia).
    rewrite Qabs_Qminus. apply Qle_trans with (inject_Z k - q)%Q; [lra | apply Qle_Qabs].
Qed.

Lemma frame_rate_ok q : is_frame_rate q (Z.max 1 (py_round q)).
Proof.
  split; [lia |]. intros k K. destruct (Z.lt_ge_cases (py_round q) 1) as [L | L].
  - rewrite Z.max_l by lia. pose proof (py_round_near q) as [_ B].
    assert (H : (2 * q <= 1)%Q) by (apply Qle_trans with (1 := B); change 1%Q with (inject_Z 1); rewrite <- Zle_Qle; lia).
    assert (HK : (1 <= inject_Z k)%Q) by (change 1%Q with (inject_Z 1); rewrite <- Zle_Qle; lia).
    change (inject_Z 1) with 1%Q. rewrite (Qabs_Qminus q 1), (Qabs_Qminus q (inject_Z k)). rewrite !Qabs_pos; lra.
  - rewrite Z.max_r by lia. apply py_round_nearest.
Qed.

(** ** Each sequence of bytes consists of integers *)

Lemma little_shift n : forall z k, little_endian n (z + k * 256 ^ Z.of_nat n) = little_endian n z.
Proof.
  induction n as [| n IH]; intros z k; [reflexivity |].
  cbn [little_endian]. replace (Z.of_nat (Datatypes.S n)) with (1 + Z.of_nat n) by lia.
  rewrite Z.pow_add_r by lia. change (256 ^ 1) with 256.
  replace (z + k * (256 * 256 ^ Z.of_nat n)) with (z + (k * 256 ^ Z.of_nat n) * 256) by lia.
  rewrite Z.mod_add, Z.div_add by lia. now rewrite IH.
Qed.

Definition byte (b : Z) : Prop := 0 <= b < 256.

Lemma little_inverse b : Forall byte b -> little_endian (List.length b) (little_value b) = b /\ 0 <= little_value b < 256 ^ zlen b.
Proof.
  induction 1 as [| x t Hx _ [IH B]].
  - split; [reflexivity |]. cbn [little_value]. change (256 ^ zlen (@nil Z)) with 1. lia.
  - cbn [little_endian little_value List.length]. rewrite zlen_cons, Z.pow_add_r by (try lia; apply zlen_nonneg).
    change (256 ^ 1) with 256. unfold byte in Hx. split; [| lia].
    replace (x + 256 * little_value t) with (x + little_value t * 256) by lia.
    rewrite Z.mod_add, Z.div_add by lia. rewrite Z.mod_small, Z.div_small, Z.add_0_l by lia. now rewrite IH.
Qed.

Lemma unpack_inverse F b : regular F -> Forall byte b -> zlen b = p_bytes F ->
  bytes_of F (unpack_one F b) = b /\ storable F (unpack_one F b).
Proof.
  intros R Hb L. destruct (bytes_bits F R) as (_ & B & P).
  set (l := if p_big F then rev b else b).
  assert (Hl : Forall byte l) by (unfold l; destruct (p_big F); auto using Forall_rev).
  assert (Ll : zlen l = p_bytes F) by (unfold l; destruct (p_big F); rewrite ?zlen_rev; auto).
  destruct (little_inverse l Hl) as [E V]. rewrite Ll in V.
  assert (Nl : List.length l = wn F) by (unfold wn, zlen in *; lia). rewrite Nl in E.
  replace (256 ^ p_bytes F) with (2 ^ p_bits F) in V by (rewrite B; rewrite (Z.pow_mul_r 2 8) by lia; reflexivity).
  assert (D : 2 ^ p_bits F = 2 * 2 ^ (p_bits F - 1)).
  { replace (p_bits F) with (1 + (p_bits F - 1)) at 1 by lia. rewrite Z.pow_add_r by lia. reflexivity. }
  set (z := unpack_one F b).
  assert (Z : z = little_value l \/ z = little_value l + (-1) * 256 ^ Z.of_nat (wn F)).
  { unfold z, unpack_one. fold l. replace (Z.of_nat (wn F)) with (p_bytes F) by (unfold wn; lia). rewrite <- B.
    replace (256 ^ p_bytes F) with (2 ^ p_bits F) by (rewrite B; rewrite (Z.pow_mul_r 2 8) by lia; reflexivity).
    destruct (_ && _); [right | left]; lia. }
  split.
  - rewrite bytes_of_model by auto.
    assert (El : little_endian (wn F) z = l) by (destruct Z as [-> | ->]; rewrite ?little_shift; exact E).
    rewrite El. unfold l. destruct (p_big F); auto using rev_involutive.
  - unfold z, unpack_one, storable. fold l. rewrite <- B. destruct (p_signed F); cbn [andb].
    + destruct (Z.leb_spec (2 ^ (p_bits F - 1)) (little_value l)); lia.
    + lia.
Qed.

(** The integers in the file *)
Definition file_codes (F : pcm) (f : sound_file) : arr Z :=
  Arr (map (fun c => map (fun t =>
         let i := t * f_channels f + c in
         unpack_one F (subseq (between (i * p_bytes F) ((i + 1) * p_bytes F)) (f_data f)))
       (zseq 0 (f_frames f))) (zseq 0 (f_channels f))) (f_frames f).

Lemma Forall_subseq {A} (P : A -> Prop) b l : Forall P l -> Forall P (subseq b l).
Proof.
  rewrite !Forall_zth. intros H i a E. rewrite zth_subseq in E. destruct (_ && _); [eauto | discriminate].
Qed.

Lemma el_file_codes F f c t : 0 <= c < f_channels f -> 0 <= t < f_frames f ->
  el (file_codes F f) c t = Some (unpack_one F (subseq (between ((t * f_channels f + c) * p_bytes F) ((t * f_channels f + c + 1) * p_bytes F)) (f_data f))).
Proof.
  intros Hc Ht. unfold el, file_codes. cbn [rows]. rewrite zth_map, zth_seq. replace (_ && _) with true by lia. cbn [option_map].
  rewrite zth_map, zth_seq. replace (_ && _) with true by lia. reflexivity.
Qed.

Theorem file_codes_ok F f : regular F -> 1 <= f_channels f -> f_width f = p_bytes F -> Forall byte (f_data f) ->
  (f_channels f * f_width f | zlen (f_data f)) ->
  let m := file_codes F f in
  wf m /\ nrows m = f_channels f /\ cols m = f_frames f /\ (forall c t z, el m c t = Some z -> storable F z)
  /\ f_data f = frames_of F m 0 (cols m).
Proof.
  intros R N B Hb Dv m. destruct (bytes_bits F R) as (_ & _ & P).
  assert (Fn : 0 <= f_frames f) by (unfold f_frames; apply Z.div_pos; [apply zlen_nonneg | nia]).
  assert (Wf : wf m).
  { split; [exact Fn |]. apply Forall_forall. intros r Hr. apply in_map_iff in Hr. destruct Hr as (c & <- & _).
    rewrite zlen_map, zlen_seq. cbn. lia. }
  assert (Nr : nrows m = f_channels f) by (unfold nrows, m, file_codes; cbn [rows]; rewrite zlen_map, zlen_seq; lia).
  assert (Len : zlen (f_data f) = (f_channels f * f_frames f) * p_bytes F).
  { unfold f_frames. destruct Dv as [q Dv]. rewrite Dv, Z.div_mul by nia. rewrite B. lia. }
  assert (Pc : forall i, 0 <= i < f_channels f * f_frames f ->
     let b := subseq (between (i * p_bytes F) ((i + 1) * p_bytes F)) (f_data f) in Forall byte b /\ zlen b = p_bytes F).
  { intros i I. cbv zeta. split; [now apply Forall_subseq |]. rewrite zlen_between; nia. }
  split; [exact Wf |]. split; [exact Nr |]. split; [reflexivity |]. split.
  - intros c t z E. destruct (el_range _ _ _ _ Wf E) as [Hc Ht]. rewrite Nr in Hc. change (cols m) with (f_frames f) in Ht.
    unfold m in E. rewrite el_file_codes in E by auto. injection E as <-.
    destruct (Pc (t * f_channels f + c) ltac:(nia)) as [H1 H2]. apply unpack_inverse; auto.
  - rewrite frames_interleave by auto. rewrite Nr. change (cols m) with (f_frames f).
    assert (X : forall l : list Z, zlen l = (f_channels f * f_frames f) * p_bytes F -> Forall byte l ->
      l = flat_map (bytes_of F) (map (fun i => unpack_one F (subseq (between (i * p_bytes F) ((i + 1) * p_bytes F)) l)) (zseq 0 (f_channels f * f_frames f)))).
    { set (K := f_channels f * f_frames f). assert (K0 : 0 <= K) by (unfold K; nia). clearbody K. clear - R P K0.
      revert K K0. apply (natlike_ind (fun K => forall l : list Z, zlen l = K * p_bytes F -> Forall byte l ->
        l = flat_map (bytes_of F) (map (fun i => unpack_one F (subseq (between (i * p_bytes F) ((i + 1) * p_bytes F)) l)) (zseq 0 K)))).
      - intros l L _. apply zlen_zero in L. subst; reflexivity.
      - intros K K0 IH l L Hb.
        rewrite zseq_cons by lia. cbn [map flat_map]. replace (Z.succ K - 1) with K by lia.
        set (l1 := subseq (between 0 (p_bytes F)) l). set (l2 := subseq (from (p_bytes F)) l).
        assert (Split : l = l1 ++ l2).
        { unfold l1, l2, subseq. rewrite lower_between, upper_between, lower_from, upper_from by nia.
          rewrite Z.sub_0_r. unfold ztake, zdrop. cbn [Z.to_nat skipn].
          rewrite (firstn_all2 (n := Z.to_nat (zlen l - p_bytes F))). { symmetry. apply firstn_skipn. }
          rewrite skipn_length. unfold zlen in *. lia. }
        assert (L1 : zlen l1 = p_bytes F) by (unfold l1; rewrite zlen_between; nia).
        assert (L2 : zlen l2 = K * p_bytes F) by (unfold l2; rewrite zlen_from; nia).
        rewrite Split at 1. f_equal.
        + replace (0 * p_bytes F) with 0 by lia. replace ((0 + 1) * p_bytes F) with (p_bytes F) by lia. fold l1.
          symmetry. apply unpack_inverse; auto. unfold l1. now apply Forall_subseq.
        + rewrite (IH l2) at 1; auto; [| unfold l2; now apply Forall_subseq].
          rewrite (zseq_shift 0 1), map_map. f_equal. apply map_ext_in. intros i I. apply in_zseq in I. f_equal.
          apply zth_ext. intros j. rewrite !zth_between by nia.
          replace ((i + 1) * p_bytes F - i * p_bytes F) with ((i + 1 + 1) * p_bytes F - (i + 1) * p_bytes F) by lia.
          destruct (_ && _) eqn:J; [| reflexivity]. unfold l2. rewrite zth_from by nia. replace (_ && _) with true by nia. f_equal. lia. }
    rewrite (X (f_data f) Len Hb) at 1. f_equal.
    apply interleave_eq; try lia.
    + rewrite zlen_map, zlen_seq. nia.
    + intros c t Hc Ht. rewrite zth_map, zth_seq. replace (_ && _) with true by nia. cbn [option_map].
      unfold m. rewrite el_file_codes by auto. cbn [zdflt]. rewrite Z.add_0_l. reflexivity.
Qed.

(** ** Writing *)

Section Results.
Variable F : pcm.
Hypothesis HF : In F written_formats.
Variable junk : Z -> Q.

Let R := written_regular F HF.

Lemma width_ok : p_bytes F = p_bits F / 8.
Proof. apply bytes_bits. exact R. Qed.

Theorem write_iff s : wf_signal s -> 1 <= count s ->
  (fst (write_file F junk s) = Ok tt <-> forall c t x, el (channels s) c t = Some x -> in_range F x).
Proof.
  intros W N. pose proof (write_result F R junk s W N 2048 eq_refl) as H. unfold write_file.
  destruct (write_file_with F junk s 2048) as [[[] | e] f]; cbn [fst].
  - split; [| reflexivity]. intros _ c t x E. destruct H as [_ H].
    destruct (el_range _ _ _ _ (proj1 W) E) as [_ T]. apply (H t T c x E).
  - destruct H as (_ & k & _ & _ & _ & _ & c & t & x & _ & E & Nr). split; [discriminate |]. intros Hr. destruct Nr. eauto.
Qed.

Theorem written s : wf_signal s -> 1 <= count s -> fst (write_file F junk s) = Ok tt ->
  exists codes rate, quantised F s codes /\ is_frame_rate (sampling_rate s) rate
    /\ snd (write_file F junk s) = Some (SoundFile (count s) (p_bits F / 8) rate (frames_of F codes 0 (Signal.length s))).
Proof.
  intros W N E. pose proof (write_result F R junk s W N 2048 eq_refl) as H. unfold write_file in *.
  destruct (write_file_with F junk s 2048) as [[[] | e] f]; [| discriminate]. destruct H as [-> _].
  exists (codes F s), (Z.max 1 (py_round (sampling_rate s))).
  split; [now apply codes_quantised |]. split; [apply frame_rate_ok |]. cbn [snd]. unfold file_with. now rewrite width_ok.
Qed.

Theorem write_fails s e : wf_signal s -> 1 <= count s -> fst (write_file F junk s) = Err e ->
  e = StructError
  /\ exists codes rate k, quantised F s codes /\ is_frame_rate (sampling_rate s) rate
    /\ 0 <= k < Signal.length s /\ (2048 | k)
    /\ (forall t, 0 <= t < k -> frame_in_range F s t)
    /\ (exists c t x, k <= t < k + 2048 /\ el (channels s) c t = Some x /\ ~ in_range F x)
    /\ snd (write_file F junk s) = Some (SoundFile (count s) (p_bits F / 8) rate (frames_of F codes 0 k)).
Proof.
  intros W N E. pose proof (write_result F R junk s W N 2048 eq_refl) as H. unfold write_file in *.
  destruct (write_file_with F junk s 2048) as [[[] | e'] f]; [discriminate |]. cbn [fst] in E.
  destruct H as (-> & k & K & D & -> & H1 & H2). injection E as <-. split; [reflexivity |].
  exists (codes F s), (Z.max 1 (py_round (sampling_rate s))), k.
  split; [now apply codes_quantised |]. split; [apply frame_rate_ok |]. split; [exact K |]. split; [exact D |]. split; [exact H1 |].
  split; [exact H2 |]. cbn [snd]. unfold file_with. now rewrite width_ok.
Qed.

(** ** Reading *)

Lemma format_ok : format_of_width (reader_for F) (p_bytes F) = Some F.
Proof. clear R. cbn in HF. intuition (subst F; reflexivity). Qed.

Theorem read_ok rjunk path f codes : wf codes -> 1 <= nrows codes -> (forall c t z, el codes c t = Some z -> storable F z) ->
  f_channels f = nrows codes -> f_width f = p_bits F / 8 -> f_data f = frames_of F codes 0 (cols codes) ->
  exists s, read_sound rjunk (reader_for F) path f = Ok s /\ wf_signal s /\ count s = nrows codes /\ Signal.length s = cols codes
    /\ sampling_rate s = inject_Z (f_rate f) /\ offset s = 0 /\ labels s = map (file_label path) (zseq 1 (nrows codes))
    /\ forall c t z, el codes c t = Some z -> exists y, el (channels s) c t = Some y /\ (y == sample_of F z)%Q.
Proof.
  intros W N S C B D. rewrite <- width_ok in B.
  apply (read_result rjunk F R f codes W N C B D S 2048 eq_refl (reader_for F) path). rewrite B. apply format_ok.
Qed.

Theorem any_file f : 1 <= f_channels f -> f_width f = p_bits F / 8 -> Forall (fun b => 0 <= b < 256) (f_data f) ->
  (f_channels f * f_width f | zlen (f_data f)) ->
  exists codes, wf codes /\ nrows codes = f_channels f /\ (forall c t z, el codes c t = Some z -> storable F z)
    /\ f_data f = frames_of F codes 0 (cols codes).
Proof.
  intros N B Hb Dv. rewrite <- width_ok in B. destruct (file_codes_ok F f R N B Hb Dv) as (H1 & H2 & _ & H3 & H4).
  exists (file_codes F f). auto.
Qed.

(** ** Round trips *)

Lemma codes_storable s : (forall c t x, el (channels s) c t = Some x -> in_range F x) ->
  forall c t z, el (codes F s) c t = Some z -> storable F z.
Proof.
  intros H c t z E. unfold codes in E. rewrite el_ufunc1 in E. destruct (el (channels s) c t) as [x |] eqn:Ex; [| discriminate].
  injection E as <-. apply storable_code; [exact R | eauto].
Qed.

Theorem round_trip rjunk path s : wf_signal s -> 1 <= count s -> (forall c t x, el (channels s) c t = Some x -> in_range F x) ->
  exists f s', write_file F junk s = (Ok tt, Some f) /\ read_sound rjunk (reader_for F) path f = Ok s'
    /\ wf_signal s' /\ count s' = count s /\ Signal.length s' = Signal.length s
    /\ (exists rate, is_frame_rate (sampling_rate s) rate /\ sampling_rate s' = inject_Z rate)
    /\ forall c t x, el (channels s) c t = Some x ->
         exists y, el (channels s') c t = Some y /\ (Qabs (x - y) <= quantum F / 2)%Q
                   /\ ((exists z, x == sample_of F z)%Q -> (y == x)%Q).
Proof.
  intros W N H. pose proof (write_result F R junk s W N 2048 eq_refl) as HW. pose proof (write_iff s W N) as I. unfold write_file in *.
  destruct (write_file_with F junk s 2048) as [[[] | e] f]; cbn [fst] in I; [| apply I in H; discriminate].
  destruct HW as [-> _]. eexists.
  pose proof (codes_quantised F R s W) as (Wc & Nc & Cc & Q).
  destruct (read_ok rjunk path (file_with F s (frames_of F (codes F s) 0 (Signal.length s))) (codes F s)) as (s' & E & W' & N' & L' & R' & _ & _ & H').
  - exact Wc.
  - lia.
  - now apply codes_storable.
  - exact (eq_sym Nc).
  - apply width_ok.
  - cbn [f_data file_with]. now rewrite Cc.
  - exists s'. split; [reflexivity |]. split; [exact E |]. split; [exact W' |]. split; [lia |]. split; [lia |].
    split; [exists (Z.max 1 (py_round (sampling_rate s))); split; [apply frame_rate_ok | exact R'] |].
    intros c t x Ex. destruct (Q c t x Ex) as (z & Ez & Cz). destruct (H' c t z Ez) as (y & Ey & Yz).
    exists y. split; [exact Ey |]. split.
    + rewrite Yz. apply Cz.
    + intros (z' & Ez'). rewrite Yz, Ez'. apply is_code_iff in Cz; [| exact R].
      assert (Cz' : is_code F x z').
      { apply is_code_iff; [exact R |].
        assert (Sh : (shifted F x == inject_Z z')%Q).
        { pose proof (scale_pos F R) as P. unfold shifted. unfold sample_of in Ez'. fold (scale F) in Ez'.
          destruct (p_signed F); rewrite Ez'; field; intros E0; rewrite E0 in P; discriminate. }
        rewrite Sh. destruct (inject_lin z') as [-> ->]. repeat split; try lra. }
      apply is_code_iff in Cz; [| exact R]. rewrite (is_code_unique F x z z' R Cz Cz'). reflexivity.
Qed.

(** A file, that is read and written again *)
Theorem copy_ok rjunk path f s : 1 <= f_channels f -> f_width f = p_bits F / 8 -> 1 <= f_rate f -> Forall (fun b => 0 <= b < 256) (f_data f) ->
  (f_channels f * f_width f | zlen (f_data f)) ->
  read_sound rjunk (reader_for F) path f = Ok s -> write_file F junk s = (Ok tt, Some f).
Proof.
  intros N B Rt Hb Dv E.
  destruct (any_file f N B Hb Dv) as (m & Wm & Nm & Sm & Dm).
  destruct (read_ok rjunk path f m) as (s' & E' & W' & N' & L' & R' & _ & _ & H'); auto; try lia.
  rewrite E in E'. injection E' as <-.
  assert (Q : forall c t x, el (channels s) c t = Some x -> exists z, el m c t = Some z /\ (x == sample_of F z)%Q).
  { intros c t x Ex. destruct (el_range _ _ _ _ (proj1 W') Ex) as [Hc Ht]. fold (count s) in Hc. fold (Signal.length s) in Ht.
    destruct (el_in m c t Wm) as [z Ez]; try lia. exists z. split; [exact Ez |].
    destruct (H' c t z Ez) as (y & Ey & Yz). congruence. }
  assert (Cd : forall x z, (x == sample_of F z)%Q -> code F x = z).
  { intros x z Ex. rewrite <- (code_sample F z) by exact R.
    apply (is_code_unique F x); [exact R | apply code_is_code; exact R |].
    pose proof (code_is_code F (sample_of F z) R) as [A T].
    split; [now rewrite Ex | intros T'; apply T; now rewrite Ex in T']. }
  pose proof (write_result F R junk s W' ltac:(lia) 2048 eq_refl) as HW. pose proof (write_iff s W' ltac:(lia)) as I. unfold write_file in *.
  assert (Ir : forall c t x, el (channels s) c t = Some x -> in_range F x).
  { intros c t x Ex. destruct (Q c t x Ex) as (z & Ez & Xz). apply storable_code; [exact R |]. rewrite (Cd x z Xz). eauto. }
  destruct (write_file_with F junk s 2048) as [[[] | e] g]; cbn [fst] in I; [| apply I in Ir; discriminate].
  destruct HW as [-> _]. do 2 f_equal. unfold file_with.
  assert (Ec : codes F s = m).
  { apply arr_ext; auto.
    - now apply codes_wf.
    - unfold codes. rewrite nrows_ufunc1. exact N'.
    - intros c t Hc Ht. unfold codes in *. rewrite nrows_ufunc1 in Hc. rewrite el_ufunc1.
      destruct (el_in (channels s) c t (proj1 W') Hc Ht) as [x Ex]. rewrite Ex. cbn [option_map].
      destruct (Q c t x Ex) as (z & -> & Xz). f_equal. auto. }
  rewrite Ec, R'. replace (Signal.length s) with (cols m). rewrite <- Dm, width_ok, <- B.
  replace (py_round (inject_Z (f_rate f))) with (f_rate f).
  - rewrite Z.max_r by lia. rewrite N', Nm. now destruct f.
  - unfold py_round. rewrite Qfloor_Z. replace (inject_Z (f_rate f) - inject_Z (f_rate f) ?= 1 # 2)%Q with Lt; [reflexivity |].
    symmetry. rewrite <- Qlt_alt. lra.
Qed.

(** The uninitialised memory *)
Theorem junk_irrelevant junk' s : wf_signal s -> 1 <= count s -> write_file F junk s = write_file F junk' s.
Proof.
  intros W N. pose proof (write_result F R junk s W N 2048 eq_refl) as H1. pose proof (write_result F R junk' s W N 2048 eq_refl) as H2.
  unfold write_file. destruct (write_file_with F junk s 2048) as [[[] | e1] f1], (write_file_with F junk' s 2048) as [[[] | e2] f2].
  - now destruct H1 as [-> _], H2 as [-> _].
  - destruct H1 as [_ H1]. destruct H2 as (_ & k & _ & _ & _ & _ & c & t & x & _ & E & B). destruct B.
    destruct (el_range _ _ _ _ (proj1 W) E) as [_ T]. exact (H1 t T c x E).
  - destruct H2 as [_ H1']. destruct H1 as (_ & k & _ & _ & _ & _ & c & t & x & _ & E & B). destruct B.
    destruct (el_range _ _ _ _ (proj1 W) E) as [_ T]. exact (H1' t T c x E).
  - destruct H1 as (-> & k1 & K1 & D1 & -> & P1 & c1 & t1 & x1 & T1 & E1 & B1).
    destruct H2 as (-> & k2 & K2 & D2 & -> & P2 & c2 & t2 & x2 & T2 & E2 & B2).
    destruct D1 as [d1 D1], D2 as [d2 D2].
    destruct (el_range _ _ _ _ (proj1 W) E1) as [_ R1], (el_range _ _ _ _ (proj1 W) E2) as [_ R2].
    assert (d1 = d2); [| now subst].
    destruct (Z.lt_trichotomy d1 d2) as [L | [L | L]]; auto; exfalso.
    + apply B1. apply (P2 t1 ltac:(lia) c1 x1 E1).
    + apply B2. apply (P1 t2 ltac:(lia) c2 x2 E2).
Qed.

End Results.

(** ** Full scale *)

Theorem full_scale F x : In F written_formats -> (1 - quantum F / 2 <= x < 1)%Q \/ (x == 1)%Q ->
  exists s, wf_signal s /\ count s = 1 /\ Signal.length s = 1 /\ el (channels s) 0 0 = Some x
    /\ forall junk, fst (write_file F junk s) = Err StructError.
Proof.
  intros HF Hx. exists (Signal (Arr [[x]] 1) 44100%Q 0 [""%string]).
  assert (W : wf_signal (Signal (Arr [[x]] 1) 44100%Q 0 [""%string])).
  { split; [split; [cbn; lia | repeat constructor] | reflexivity]. }
  split; [exact W |]. repeat (split; [reflexivity |]).
  intros junk. pose proof (write_iff F HF junk _ W ltac:(vm_compute; discriminate)) as I.
  destruct (fst (write_file F junk (Signal (Arr [[x]] 1) 44100%Q 0 [""%string]))) as [[] | e] eqn:E.
  - assert (H : in_range F x) by (apply (proj1 I eq_refl 0 0 x); reflexivity).
    assert (P : (0 <= quantum F / 2)%Q) by (clear - HF; cbn in HF; intuition (subst F; discriminate)).
    destruct H as [_ H]. set (h := (quantum F / 2)%Q) in *.
    clearbody h. clear - H P Hx. exfalso. destruct Hx as [[Hx _] | Hx]; lra.
  - apply (write_fails F HF junk _ e W) in E; [| vm_compute; discriminate]. destruct E as [-> _]. reflexivity.
Qed.
