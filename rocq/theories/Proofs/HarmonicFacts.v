(** The impulse responses of harmonics. *)

From Coq Require Import String ZArith QArith List Bool Lia Lra ZifyBool Reals Ring_theory Ring.
From Verif.Model Require Import Py Numpy Vector Functions Signal Spectrum Fft Fourier Text Sweeps.
From Verif.Spec Require Import TimeSpec FrequencySpec RealSpec ConvolutionSpec ComplexSpec DftSpec FourierSpec SweepSpec HarmonicSpec.
From Verif.Proofs Require Import PyFacts NumpyFacts VectorFacts MergeOrder SumFacts ComplexFacts ConvolveFacts PlacedFacts DftFacts MethodFacts CircularFacts SpectrumModes SignalAlgebra FourierFacts RoundTripFacts FourierResults SweepFacts.
Import ListNotations.
Open Scope Z_scope.
Ltac Zify.zify_post_hook ::= idtac.

(** ** The delay *)
Section Advance.
Variable n : Z.
Hypothesis Hn : 0 < n.

Lemma hermitian_symmetric y : symmetric n (fun k => hermitian y n (k mod n)).
Proof.
  split; intros k.
  - rewrite <- Zplus_mod_idemp_r, Z_mod_same_full, Z.add_0_r. reflexivity.
  - pose proof (Z.mod_pos_bound k n Hn) as B. destruct (k mod n =? 0) eqn:E0.
    + assert (k mod n = 0) as -> by lia. rewrite (Z_mod_zero_opp_full k n) by lia. unfold hermitian. cbn [Z.eqb]. now rewrite Cconj_real.
    + rewrite (Z_mod_nz_opp_full k n) by lia. set (q := k mod n) in *. clearbody q. unfold hermitian.
      replace (n - q =? 0) with false by lia. rewrite E0. destruct (2 * q <? n) eqn:E1.
      * replace (2 * (n - q) <? n) with false by lia. replace (2 * (n - q) =? n) with false by lia. do 2 f_equal. lia.
      * destruct (2 * q =? n) eqn:E2.
        -- replace (2 * (n - q) <? n) with false by lia. replace (2 * (n - q) =? n) with true by lia. rewrite Cconj_real. do 3 f_equal. lia.
        -- replace (2 * (n - q) <? n) with true by lia. now rewrite Cconj_involutive.
Qed.

Lemma irfft_hermitian y : irfft y n = irfft (map (fun k => hermitian y n (k mod n)) (zseq 0 (n / 2 + 1))) n.
Proof.
  unfold irfft. apply map_ext. intros m. do 2 f_equal. rewrite !Csum_sumz. apply sumz_ext. intros k Hk. f_equal.
  rewrite (hermitian_ok n Hn (fun k => hermitian y n (k mod n))) by (auto using hermitian_symmetric; lia). rewrite Z.mod_small by lia. reflexivity.
Qed.

Lemma dft_hermitian y k : 0 <= k < n -> dft (irfft y n) k = hermitian y n k.
Proof.
  intros H. rewrite irfft_hermitian. rewrite (dft_irfft n Hn) by (auto using hermitian_symmetric). rewrite Z.mod_small by lia. reflexivity.
Qed.

Lemma dft_of_list (x : list R) k : zlen x = n -> dft x k = dft_of n (at_R x) k.
Proof. intros <-. reflexivity. Qed.

Lemma advanced_ok (x : list R) d : zlen x = n ->
  advanced n d (at_R x) (at_R (irfft (map (fun k => Cmul (dft x k) (cis (2 * PI * IZR k * d / IZR n))) (zseq 0 (n / 2 + 1))) n)).
Proof.
  intros L k Hk. set (y := map _ _).
  assert (D := Z.div_mod n 2 ltac:(lia)). assert (B := Z.mod_pos_bound n 2 ltac:(lia)).
  assert (V : forall q, 0 <= q <= n / 2 -> at_C y q = Cmul (dft x q) (cis (2 * PI * IZR q * d / IZR n))).
  { intros q Hq. unfold y, at_C. rewrite zth_map, zth_seq. replace (_ && _) with true by lia. cbn. f_equal. }
  destruct (dft_symmetric n Hn x L) as [Sp Sc]. pose proof (n_not_0 n Hn) as N0.
  split; intros Hk2; rewrite <- !dft_of_list by (auto; rewrite zlen_irfft; lia); rewrite dft_hermitian by lia; unfold hermitian.
  - destruct (k =? 0) eqn:E0.
    + rewrite V by lia. replace k with 0 by lia. replace (2 * PI * 0 * d / IZR n)%R with 0%R by (field; auto).
      assert (E : cis 0 = C1) by (unfold cis; rewrite cos_0, sin_0; reflexivity). rewrite E.
      transitivity (C_of_R (re (dft x 0))); [f_equal; f_equal; ring|]. rewrite (self_conj (dft x 0) (Sc 0)). ring.
    + replace (2 * k <? n) with true by lia. rewrite V by lia. ring.
  - replace (k =? 0) with false by lia. replace (2 * k <? n) with false by lia. replace (2 * k =? n) with true by lia. rewrite V by lia.
    assert (E : dft x k = Cconj (dft x k)). { rewrite <- Sc. rewrite <- (Sp (- k)). f_equal. lia. }
    apply self_conj in E. set (z := re (dft x k)) in *. rewrite <- E.
    replace (2 * PI * IZR k * d / IZR n)%R with (PI * d)%R. { apply C_ext; cbn; ring. }
    rewrite <- Hk2, mult_IZR. field. apply not_0_IZR. lia.
Qed.

End Advance.

Section Harmonics.
Variables power modulo : R -> R -> R.
Variables cpower cmodulo : C -> C -> C.
Variable junk : Z -> Z -> R.
Notation O := (real_ops power modulo).
Notation M := real_functions.
Notation X := real_transforms.
Notation N := (real_numbers cpower cmodulo).
Let EX : exact_transforms O X := real_exact power modulo.

Lemma apply_delay_ok (ch : arr R) rate delay out : wf ch -> wf out -> 0 < nrows ch -> nrows out = nrows ch -> 0 < cols ch ->
  exists m, apply_delay O M X N ch rate delay out = Ok m /\ wf m /\ nrows m = nrows out /\ cols m = cols out /\
    forall c, 0 <= c < nrows ch -> exists y, advanced (cols ch) (advance (cols ch) (delay * rate)) (at_R (rowv ch c)) y /\
      (forall j, 0 <= j < cols out -> j < cols ch -> el m c j = Some (y j)) /\ (forall j, cols ch <= j -> el m c j = el out c j).
Proof.
  intros W Wo R1 R2 Hn. set (n := cols ch) in *. unfold apply_delay. fold n.
  assert (Hd : 0 <= n / 2) by (apply Z.div_pos; lia). assert (D := Z.div_mod n 2 ltac:(lia)). assert (B := Z.mod_pos_bound n 2 ltac:(lia)).
  replace ((nrows ch =? 0) || (n =? 0)) with false by lia.
  destruct (rfft_rows_ok O X EX ch) as (p & -> & Wp & Np & Cp & Vp); auto. fold n in Cp. cbn [bind].
  set (ff := map _ (linspace_ _ _ _ _ _)).
  assert (Lf : zlen ff = n / 2 + 1). { unfold ff. rewrite zlen_map, zlen_linspace; lia. }
  assert (Vf : forall k, 0 <= k < n / 2 + 1 -> zth ff k = Some (cis (2 * PI * IZR k * advance n (delay * rate) / IZR n))).
  { assert (VL : forall k, 0 <= k < n / 2 + 1 -> zth (linspace_ O M 0%R (rate / 2)%R (n / 2 + 1)) k = Some (IZR k * (if n =? 1 then 0 else rate / 2 / IZR (n / 2)))%R).
    { intros k Hk. destruct (n =? 1) eqn:E1.
      - assert (n / 2 = 0) by lia. assert (k = 0) by lia. subst k. replace (n / 2) with 0 by lia. unfold linspace_. rewrite zth_map_zseq. cbn. f_equal. ring.
      - assert (IZR (n / 2) <> 0%R) by (apply not_0_IZR; lia).
        rewrite (linspace_nth power modulo) with (d := (rate / 2 / IZR (n / 2))%R); [f_equal; ring| |lia].
        replace (n / 2 + 1 - 1) with (n / 2) by lia. field. auto. }
    intros k Hk. unfold ff. rewrite zth_map, Cp. cbn [o_zero o_div O real_ops f_int M real_functions]. rewrite VL by auto.
    cbn [option_map]. f_equal. cbn [c_exp c_make N real_numbers o_zero o_mul O real_ops f_int f_pi M real_functions]. rewrite Cexp_imaginary. f_equal.
    pose proof (n_not_0 n Hn) as N0. unfold advance. destruct (n =? 1) eqn:E1.
    - assert (n / 2 = 0) by lia. assert (k = 0) by lia. subst k. field. auto.
    - assert (IZR (n / 2) <> 0%R) by (apply not_0_IZR; lia). destruct (Z.even n) eqn:Ev.
      + assert (E : n = 2 * (n / 2)). { rewrite Zeven_mod in Ev. apply Zeq_bool_eq in Ev. lia. }
        assert (IZR n = 2 * IZR (n / 2))%R as -> by (rewrite <- mult_IZR; f_equal; lia). field. auto.
      + assert (E : n - 1 = 2 * (n / 2)). { rewrite Zeven_mod in Ev. apply Zeq_bool_neq in Ev. lia. }
        rewrite E, mult_IZR. field. auto. }
  clearbody ff.
  assert (Wf : wf (Arr [ff] (zlen ff))) by (split; cbn [cols rows]; [lia|repeat constructor]).
  assert (NN : 0 <= nrows p) by apply nrows_nonneg.
  destruct (ufunc2_into_ok (o_mul (c_ops N)) p (Arr [ff] (zlen ff)) p everything everything) as (q & -> & Wq & Nq & Cq & Vq); auto;
    rewrite ?lower_everything, ?upper_everything by (cbn [cols]; lia); cbn [cols]; try lia. cbn [bind].
  destruct (irfft_rows_ok q n) as (r & -> & Wr & Nr & Cr & Vr); auto. cbn [bind].
  assert (NO : 0 <= cols out) by apply Wo.
  assert (Er : forall c, 0 <= c < nrows ch -> rowv q c = map (fun k => Cmul (dft (rowv ch c) k) (cis (2 * PI * IZR k * advance n (delay * rate) / IZR n))) (zseq 0 (n / 2 + 1))).
  { intros c Hc. apply (list_of_terms n Hn); [rewrite zlen_rowv by (auto; lia); lia|]. intros k Hk. rewrite <- el_rowv by lia. rewrite Vq.
    rewrite !lower_everything, !upper_everything by lia. replace (_ && _) with true by lia. cbn [cols].
    change (nrows (Arr [ff] (zlen ff)) =? 1) with true. cbv iota. rewrite !Z.sub_0_r. rewrite !one_index by lia.
    rewrite Vp by lia. cbn [x_rfft real_transforms]. rewrite (zth_rfft n) by (auto; apply zlen_rowv; auto).
    change (el (Arr [ff] (zlen ff)) 0 k) with (zth ff k). rewrite Vf by auto. reflexivity. }
  rewrite Cr. set (w := Z.min n (cols out)).
  assert (U1 : upper (between 0 n) (cols out) = w) by (unfold_bounds; unfold w; zcases).
  assert (U2 : upper (between 0 (cols out)) n = w) by (unfold_bounds; unfold w; zcases).
  assert (L1 : lower (between 0 n) (cols out) = 0) by (unfold_bounds; zcases).
  assert (L2 : lower (between 0 (cols out)) n = 0) by (unfold_bounds; zcases).
  destruct (set_block_ok out everything (between 0 n) (block r everything (between 0 (cols out)))) as (m & -> & Wm & Nm & Cm & Vm); auto using wf_block.
  { left. rewrite nrows_block, Nr, Nq, Np, !lower_everything, !upper_everything; lia. }
  { left. rewrite cols_block, Cr, U1, U2, L1, L2. lia. }
  exists m. split; [auto|]. split; [auto|]. split; [auto|]. split; [auto|].
  intros c Hc. exists (at_R (irfft (rowv q c) n)). split; [rewrite Er by auto; apply advanced_ok; auto; now apply zlen_rowv|].
  split.
  - intros j0 Hj1 Hj2. rewrite Vm. rewrite lower_everything, upper_everything, L1, U1 by lia. replace (_ && _) with true by (unfold w; lia).
    rewrite el_block by auto. rewrite !lower_everything, !upper_everything, Cr, L2, U2, !Z.add_0_r by (try lia; apply nrows_nonneg).
    rewrite nrows_block, cols_block, Cr, L2, U2, !lower_everything, !upper_everything, !Z.sub_0_r by (try lia; apply nrows_nonneg).
    rewrite !one_index by (unfold w; lia). replace (_ && _) with true by (unfold w; lia). apply Vr; lia.
  - intros j0 Hj1. rewrite Vm. rewrite lower_everything, upper_everything, L1, U1 by lia. replace (_ && _) with false by (unfold w; lia). reflexivity.
Qed.
(** ** Which samples are cut out *)

Lemma floor_ok x e : rounded_down x e -> Int_part x = e.
Proof.
  intros [H1 H2]. destruct (base_Int_part x) as [B1 B2]. assert (IZR e < IZR (Int_part x) + 1)%R by lra. assert (IZR (Int_part x) < IZR e + 1)%R by lra.
  rewrite <- plus_IZR in *. apply lt_IZR in H, H0. lia.
Qed.
Lemma ceil_ok x s : rounded_up x s -> - Int_part (- x) = s.
Proof. intros [H1 H2]. rewrite (floor_ok (- x) (- s)); [lia|]. split; rewrite opp_IZR; lra. Qed.

Lemma harmonic_cut_ok l rate off h s e : (0 < rate)%R -> 2 <= h -> rounded_up (ln (IZR h) * l * rate) s -> rounded_down (ln (IZR (h - 1)) * l * rate) e ->
  harmonic_cut O M l rate off h =
  Ok (- s - off, if (- e - off =? 0) || ((- s - off <? 0) && (0 <=? - e - off)) then None else Some (- e - off), Some (IZR s / rate - ln (IZR h) * l)%R).
Proof.
  intros P Hh Hs He. unfold harmonic_cut. replace (h =? 1) with false by lia. unfold logarithm.
  cbn [f_leb f_int f_log M real_functions o_zero O real_ops].
  rewrite leb_false by (apply IZR_lt; lia). cbn [bind o_mul O real_ops f_ceil M real_functions o_sub]. rewrite (ceil_ok _ s) by auto.
  rewrite (divide_ok power modulo) by lra. cbn [bind].
  destruct (h =? 2) eqn:E2.
  - assert (h = 2) by lia. subst h. cbn [bind]. assert (e = 0).
    { apply floor_ok in He. rewrite <- He. apply floor_ok. change (2 - 1) with 1. rewrite ln_1. split; lra. }
    subst e. reflexivity.
  - rewrite leb_false by (apply IZR_lt; lia). cbn [bind f_floor M real_functions]. rewrite (floor_ok _ e) by auto. reflexivity.
Qed.

Lemma cut_bounds off len s e : 0 <= len -> e < s -> (off <= - s /\ - e <= off + len \/ off - len <= - s /\ - e <= off) ->
  let cut := match (if (- e - off =? 0) || ((- s - off <? 0) && (0 <=? - e - off)) then None else Some (- e - off)) with None => from (- s - off) | Some stop => between (- s - off) stop end in
  exists a, lower cut len = a /\ upper cut len = a + (s - e) /\ 0 <= a /\ a + (s - e) <= len /\ (- s - off) mod len = a.
Proof.
  intros L H [F|F]; cbv zeta.
  - replace ((- e - off =? 0) || ((- s - off <? 0) && (0 <=? - e - off))) with false by lia.
    exists (- s - off). repeat split; try lia; [unfold_bounds; zcases|unfold_bounds; zcases|apply Z.mod_small; lia].
  - destruct (- e - off =? 0) eqn:E.
    + cbn [orb]. exists (len - s - off). repeat split; try lia; [unfold_bounds; zcases|unfold_bounds; zcases|].
      rewrite <- (Z_mod_plus_full (- s - off) 1 len). replace (- s - off + 1 * len) with (len - s - off) by lia. apply Z.mod_small. lia.
    + replace (false || ((- s - off <? 0) && (0 <=? - e - off))) with false by lia.
      exists (len - s - off). repeat split; try lia; [unfold_bounds; zcases|unfold_bounds; zcases|].
      rewrite <- (Z_mod_plus_full (- s - off) 1 len). replace (- s - off + 1 * len) with (len - s - off) by lia. apply Z.mod_small. lia.
Qed.

Lemma advanced_ext n d x x' y y' : (forall m, 0 <= m < n -> x m = x' m) -> (forall m, 0 <= m < n -> y m = y' m) -> advanced n d x y -> advanced n d x' y'.
Proof.
  intros Ex Ey A k Hk. assert (E : forall f g : Z -> R, (forall m, 0 <= m < n -> f m = g m) -> dft_of n f k = dft_of n g k).
  { intros f g H. unfold dft_of. rewrite !Csum_sumz. apply sumz_ext. intros m Hm. rewrite H; auto. }
  rewrite <- (E x x'), <- (E y y') by auto. apply A. auto.
Qed.

Section Cut.
Variables (ir : signal R) (h : Z) (l : R) (s e : Z).
Hypothesis W : wf_signal ir.
Hypothesis Hc : 0 < count ir.
Hypothesis Hr : (0 < sampling_rate ir)%R.
Hypothesis Hh : 2 <= h.
Hypothesis Hl : (0 < l)%R.
Hypothesis Hs : rounded_up (ln (IZR h) * l * sampling_rate ir) s.
Hypothesis He : rounded_down (ln (IZR (h - 1)) * l * sampling_rate ir) e.
Hypothesis F : fits ir s e.
Notation d := (IZR s - ln (IZR h) * l * sampling_rate ir)%R.
Notation response length := (harmonic_impulse_response O M X N junk l ir h length).
Notation frame r n := (harmonic_frame ir r (counting_number h) n).

Lemma cut_order : e < s.
Proof.
  apply lt_IZR. destruct Hs as [_ H1], He as [H2 _].
  assert (L : (ln (IZR (h - 1)) < ln (IZR h))%R) by (apply ln_increasing; apply IZR_lt; lia).
  assert (ln (IZR (h - 1)) * l * sampling_rate ir < ln (IZR h) * l * sampling_rate ir)%R by (repeat apply Rmult_lt_compat_r; auto). lra.
Qed.

Definition cut : bounds :=
  match (if (- e - offset ir =? 0) || ((- s - offset ir <? 0) && (0 <=? - e - offset ir)) then None else Some (- e - offset ir)) with
  | None => from (- s - offset ir) | Some stop => between (- s - offset ir) stop end.

Lemma cut_ok : exists a, lower cut (length ir) = a /\ upper cut (length ir) = a + (s - e) /\ 0 <= a /\ a + (s - e) <= length ir /\
  (forall m, 0 <= m < s - e -> (m - s - offset ir) mod length ir = a + m) /\
  let b := block (channels ir) everything cut in wf b /\ nrows b = count ir /\ cols b = s - e /\
  forall c m, 0 <= c < count ir -> 0 <= m < s - e -> el b c m = Some (periodic ir c (m - s)).
Proof.
  pose proof cut_order as Lt. assert (Ln : 0 <= length ir) by apply W.
  destruct (cut_bounds (offset ir) (length ir) s e) as (a & La & Ua & A0 & A1 & Am); auto. fold cut in La, Ua.
  assert (Mo : forall m, 0 <= m < s - e -> (m - s - offset ir) mod length ir = a + m).
  { intros m Hm. replace (m - s - offset ir) with (m + (- s - offset ir)) by lia. rewrite <- Zplus_mod_idemp_r, Am. rewrite Z.mod_small; lia. }
  exists a. split; [auto|]. split; [auto|]. split; [auto|]. split; [auto|]. split; [auto|]. cbv zeta.
  assert (Nn : 0 <= nrows (channels ir)) by apply nrows_nonneg. destruct W as [Wc _].
  split; [now apply wf_block|]. split; [rewrite nrows_block, lower_everything, upper_everything; unfold count; lia|].
  unfold length in *. split; [rewrite cols_block; lia|].
  intros c m C1 C2. rewrite el_block by auto. rewrite lower_everything, upper_everything, La, Ua by auto. unfold count in *.
  replace (_ && _) with true by lia. unfold periodic, sample, at_time, begins.
  match goal with |- _ = Some (match el _ _ ?z with _ => _ end) => replace z with (m + a) end.
  - rewrite Z.add_0_r. destruct (el_in (channels ir) c (m + a)) as (v & ->); auto; lia.
  - unfold length. pose proof (Mo m C2). lia.
Qed.

Lemma rest_ok : ((IZR s / sampling_rate ir - ln (IZR h) * l) * sampling_rate ir)%R = d.
Proof. field. lra. Qed.

Lemma frame_ok m r : wf m -> nrows m = count ir -> 
  r = mk_signal m (sampling_rate ir) 0 (Some (map (fun l => l ++ " (" ++ counting_number h ++ " harmonic)")%string (labels ir))) ->
  frame r (cols m) /\ forall c j, at_time r c j = el m c j.
Proof.
  intros Wm Nm ->. destruct W as [Wc Wl]. split.
  - unfold harmonic_frame, mk_signal. rewrite sanitize_same by (rewrite zlen_map; unfold count in *; lia).
    unfold wf_signal, count, begins, ends, length. cbn [channels sampling_rate offset labels]. rewrite zlen_map. unfold count in *.
    repeat split; auto; try apply Wm; try lia.
  - intros c j. unfold at_time, mk_signal. cbn [channels offset]. now rewrite Z.sub_0_r.
Qed.

Lemma row_is (b : arr R) n f c : wf b -> 0 <= c < nrows b -> cols b = n -> (forall m, 0 <= m < n -> el b c m = Some (f m)) ->
  forall m, 0 <= m < n -> at_R (rowv b c) m = f m.
Proof. intros Wb Hb Cb V m Hm. unfold at_R. rewrite <- el_rowv by auto. now rewrite V. Qed.

(** Without a length *)
Lemma response_none : exists r a, response None = Ok (Outcome r a) /\ frame r (s - e) /\
  (forall c, 0 <= c < count ir -> advanced (s - e) (advance (s - e) d) (fun m => periodic ir c (m - s)) (sample r c)) /\
  wf a /\ nrows a = count ir /\ cols a = length ir /\
  forall c t, 0 <= c < count ir -> begins ir <= t < ends ir ->
    el a c (t - begins ir) = Some (if (t + s) mod length ir <? s - e then sample r c ((t + s) mod length ir) else sample ir c t).
Proof.
  pose proof cut_order as Lt. destruct cut_ok as (a & La & Ua & A0 & A1 & Mo & Wb & Nb & Cb & Vb). cbv zeta in *.
  unfold harmonic_impulse_response. rewrite (harmonic_cut_ok _ _ _ _ s e) by auto. cbn [bind]. fold cut.
  set (b := block (channels ir) everything cut) in *. clearbody b.
  destruct (apply_delay_ok b (sampling_rate ir) (IZR s / sampling_rate ir - ln (IZR h) * l)%R b) as (m & -> & Wm & Nm & Cm & Vm); auto; try lia. cbn [bind].
  rewrite Cb in *. rewrite Nb in *. pose proof W as [Wc Wl]. assert (Nn : 0 <= nrows (channels ir)) by apply nrows_nonneg.
  unfold length in La, Ua.
  destruct (set_block_ok (channels ir) everything cut m) as (a' & -> & Wa & Na & Ca & Va); auto; unfold count in *; rewrite ?lower_everything, ?upper_everything by auto; try lia.
  cbn [bind]. eexists _, _. split; [reflexivity|]. match goal with |- harmonic_frame _ ?r _ _ /\ _ => destruct (frame_ok m r Wm) as (Fr & Vr); [auto|reflexivity|]; set (res := r) in * end.
  rewrite Cm in Fr. split; [exact Fr|]. split.
  { intros c C1. destruct (Vm c C1) as (y & Ay & Vy & _). rewrite rest_ok in Ay. eapply advanced_ext; [| |exact Ay].
    - apply row_is; auto. lia.
    - intros k Hk. unfold sample. rewrite Vr, Vy by lia. reflexivity. }
  split; [auto|]. split; [auto|]. split; [auto|]. clearbody res. intros c t C1 T. unfold begins, ends in *. rewrite Va.
  rewrite lower_everything, upper_everything, La, Ua by auto.
  assert (Lp : 0 < length ir) by lia.
  pose proof (Z.mod_pos_bound (t + s) (length ir) Lp) as Bd.
  assert (Eq : (t + s) mod length ir < s - e -> t - offset ir = a + (t + s) mod length ir).
  { intros H. rewrite <- Mo by lia. replace ((t + s) mod length ir - s - offset ir) with ((t + s) mod length ir + (- s - offset ir)) by lia.
    rewrite Zplus_mod_idemp_l. replace (t + s + (- s - offset ir)) with (t - offset ir) by lia. rewrite Z.mod_small; lia. }
  assert (Eq2 : a <= t - offset ir < a + (s - e) -> (t + s) mod length ir = t - offset ir - a).
  { intros H. set (k := t - offset ir - a). replace (t + s) with (k + (a - (- s - offset ir))) by (unfold k; lia).
    assert (A : (a - (- s - offset ir)) mod length ir = 0). { pose proof (Mo 0 ltac:(lia)) as M0. replace a with ((- s - offset ir) mod length ir) by (replace (- s - offset ir) with (0 - s - offset ir) by lia; lia).
      rewrite Zminus_mod_idemp_l, Z.sub_diag. apply Z.mod_0_l. lia. }
    rewrite <- Zplus_mod_idemp_r, A, Z.add_0_r. apply Z.mod_small. unfold k. lia. }
  destruct ((t + s) mod length ir <? s - e) eqn:E.
  - rewrite Eq by lia. replace (_ && _) with true by (unfold count in *; lia). rewrite !Z.sub_0_r.
    rewrite Nm, Cm. unfold count in *. rewrite one_index by lia. rewrite one_index by lia. unfold sample. rewrite Vr. 
    replace (a + (t + s) mod length ir - a) with ((t + s) mod length ir) by lia.
    destruct (el_in m c ((t + s) mod length ir)) as (v & ->); auto; lia.
  - replace (_ && _) with false by lia. unfold sample, at_time. destruct (el_in (channels ir) c (t - offset ir)) as (v & ->); auto; unfold length in *; lia.
Qed.

(** The requested length is greater *)
Lemma response_padded n : s - e < n -> exists r, response (Some n) = Ok (Outcome r (channels ir)) /\ frame r n /\
  forall c, 0 <= c < count ir -> advanced n (advance n d) (fun m => if m <? s - e then periodic ir c (m - s) else 0%R) (sample r c).
Proof.
  intros Hn. pose proof cut_order as Lt. destruct cut_ok as (a & La & Ua & A0 & A1 & Mo & Wb & Nb & Cb & Vb). cbv zeta in *.
  unfold harmonic_impulse_response. rewrite (harmonic_cut_ok _ _ _ _ s e) by auto. cbn [bind]. fold cut.
  set (b := block (channels ir) everything cut) in *. clearbody b. rewrite Nb, Cb. replace (s - e <? n) with true by lia.
  destruct (allocate_ok junk (count ir) n) as (q & -> & Wq & Nq & Cq); try lia. cbn [bind].
  destruct (set_cols_ok q (between 0 (s - e)) b 0 (s - e)) as (q1 & -> & Wq1 & Nq1 & Cq1 & Vq1); auto; try lia.
  { rewrite Cq. unfold_bounds; zcases. } { rewrite Cq. unfold_bounds; zcases. }
  cbn [bind].
  destruct (set_block_ok q1 everything (from (s - e)) (scalar 0%R)) as (q2 & E2 & Wq2 & Nq2 & Cq2 & Vq2); auto.
  { split; cbn; [lia|repeat constructor]. } 
  cbn [o_zero O real_ops]. rewrite E2. cbn [bind].
  destruct (apply_delay_ok q2 (sampling_rate ir) (IZR s / sampling_rate ir - ln (IZR h) * l)%R q2) as (m & -> & Wm & Nm & Cm & Vm); auto; try lia. cbn [bind].
  assert (Cq2' : cols q2 = n) by lia. rewrite Cq2' in *.
  eexists. split; [reflexivity|]. match goal with |- harmonic_frame _ ?r _ _ /\ _ => destruct (frame_ok m r Wm) as (Fr & Vr); [lia|reflexivity|]; set (res := r) in * end.
  rewrite Cm in Fr. split; [exact Fr|]. intros c C1. destruct (Vm c ltac:(lia)) as (y & Ay & Vy & _). rewrite rest_ok in Ay. eapply advanced_ext; [| |exact Ay].
  - apply row_is; auto; try lia. intros k Hk. rewrite Vq2. rewrite lower_everything, upper_everything by (rewrite Nq1; lia).
    rewrite Cq1, Cq. replace (lower (from (s - e)) n) with (s - e) by (symmetry; unfold_bounds; zcases).
    replace (upper (from (s - e)) n) with n by (symmetry; unfold_bounds; zcases).
    destruct (k <? s - e) eqn:E.
    + replace (_ && _) with false by lia. rewrite Vq1 by lia. replace (_ && _) with true by lia. rewrite Z.sub_0_r. apply Vb; lia.
    + replace (_ && _) with true by lia. reflexivity.
  - intros k Hk. unfold sample. rewrite Vr, Vy by lia. reflexivity.
Qed.

(** The requested length is not greater and the harmonic impulse response is longer than the number of channels *)
Lemma response_cropped n : 0 <= n <= s - e -> count ir < s - e -> exists r, response (Some n) = Ok (Outcome r (channels ir)) /\ frame r n /\
  forall c, 0 <= c < count ir -> exists y, advanced (s - e) (advance (s - e) d) (fun m => periodic ir c (m - s)) y /\ forall m, 0 <= m < n -> sample r c m = y m.
Proof.
  intros Hn Hk. pose proof cut_order as Lt. destruct cut_ok as (a & La & Ua & A0 & A1 & Mo & Wb & Nb & Cb & Vb). cbv zeta in *.
  unfold harmonic_impulse_response. rewrite (harmonic_cut_ok _ _ _ _ s e) by auto. cbn [bind]. fold cut.
  set (b := block (channels ir) everything cut) in *. clearbody b. rewrite Nb, Cb. replace (s - e <? n) with false by lia. replace (count ir <? s - e) with true by lia.
  destruct (allocate_ok junk (count ir) n) as (q & -> & Wq & Nq & Cq); try lia. cbn [bind].
  destruct (apply_delay_ok b (sampling_rate ir) (IZR s / sampling_rate ir - ln (IZR h) * l)%R q) as (m & -> & Wm & Nm & Cm & Vm); auto; try lia. cbn [bind].
  eexists. split; [reflexivity|]. match goal with |- harmonic_frame _ ?r _ _ /\ _ => destruct (frame_ok m r Wm) as (Fr & Vr); [lia|reflexivity|]; set (res := r) in * end.
  rewrite Cm, Cq in Fr. split; [exact Fr|]. intros c C1. destruct (Vm c ltac:(lia)) as (y & Ay & Vy & _). rewrite rest_ok, Cb in Ay. exists y. split.
  - eapply advanced_ext; [| |exact Ay]; auto. apply row_is; auto. lia.
  - intros k Kk. unfold sample. rewrite Vr, Vy by lia. reflexivity.
Qed.

(** The requested length is not greater and the harmonic impulse response is not longer than the number of channels *)
Lemma response_ignored n : n <= s - e -> s - e <= count ir -> exists r, response (Some n) = Ok (Outcome r (channels ir)) /\ frame r (s - e) /\
  forall c m, 0 <= c < count ir -> 0 <= m < s - e -> sample r c m = periodic ir c (m - s).
Proof.
  intros Hn Hk. pose proof cut_order as Lt. destruct cut_ok as (a & La & Ua & A0 & A1 & Mo & Wb & Nb & Cb & Vb). cbv zeta in *.
  unfold harmonic_impulse_response. rewrite (harmonic_cut_ok _ _ _ _ s e) by auto. cbn [bind]. fold cut.
  set (b := block (channels ir) everything cut) in *. clearbody b. rewrite Nb, Cb. replace (s - e <? n) with false by lia. replace (count ir <? s - e) with false by lia.
  cbn [bind]. eexists. split; [reflexivity|]. match goal with |- harmonic_frame _ ?r _ _ /\ _ => destruct (frame_ok b r Wb) as (Fr & Vr); [lia|reflexivity|]; set (res := r) in * end.
  rewrite Cb in Fr. split; [exact Fr|]. intros c m C1 Hm. unfold sample at 1. rewrite Vr, Vb by lia. reflexivity.
Qed.

End Cut.

(** ** The linear impulse response *)
Section Linear.
Variables (ir : signal R) (l : R).
Hypothesis W : wf_signal ir.
Hypothesis B0 : begins ir <= 0.
Hypothesis E0 : 0 <= ends ir.
Notation response length := (harmonic_impulse_response O M X N junk l ir 1 length).

Lemma linear_cut : let b := block (channels ir) everything (from (- offset ir)) in
  wf b /\ nrows b = count ir /\ cols b = ends ir /\ forall c t, 0 <= t < ends ir -> el b c t = at_time ir c t.
Proof.
  cbv zeta. destruct W as [Wc _]. assert (Nn : 0 <= nrows (channels ir)) by apply nrows_nonneg. unfold begins, ends, length, count in *.
  assert (Cn : 0 <= cols (channels ir)) by apply Wc.
  assert (L : lower (from (- offset ir)) (cols (channels ir)) = - offset ir) by (apply lower_from; lia).
  assert (U : upper (from (- offset ir)) (cols (channels ir)) = cols (channels ir)) by (apply upper_from; lia).
  split; [now apply wf_block|]. split; [rewrite nrows_block, lower_everything, upper_everything; lia|]. split; [rewrite cols_block; lia|].
  intros c t T. rewrite el_block by auto. rewrite lower_everything, upper_everything, L, U by auto. unfold at_time.
  replace (t + - offset ir) with (t - offset ir) by lia. rewrite Z.add_0_r, Z.sub_0_r.
  destruct ((0 <=? c) && (c <? nrows (channels ir))) eqn:E; [replace (_ && _) with true by lia; reflexivity|].
  replace (_ && _) with false by lia. symmetry. apply el_out; auto. lia.
Qed.

Lemma linear_response n : n = None \/ (exists m, n = Some m /\ 0 <= m /\ (m <= ends ir -> count ir < ends ir)) ->
  exists r, response n = Ok (Outcome r (channels ir)) /\ harmonic_frame ir r "1st" (match n with Some m => m | None => ends ir end) /\
  forall c t, 0 <= c < count ir -> 0 <= t < ends r -> at_time r c t = Some (if t <? ends ir then sample ir c t else 0%R).
Proof.
  intros Hn. destruct linear_cut as (Wb & Nb & Cb & Vb). cbv zeta in *. unfold harmonic_impulse_response, harmonic_cut. change (1 =? 1) with true. cbv iota. cbn [bind].
  set (b := block (channels ir) everything (from (- offset ir))) in *. clearbody b. assert (Nn : 0 <= count ir) by apply nrows_nonneg.
  assert (Vs : forall c t, 0 <= c < count ir -> 0 <= t < ends ir -> at_time ir c t = Some (sample ir c t)).
  { intros c t C1 T. unfold sample. rewrite <- Vb by lia. destruct (el_in b c t) as (v & ->); auto; lia. }
  destruct Hn as [->|(n' & -> & Hn0 & Hn)].
  - cbn [bind]. eexists. split; [reflexivity|].
    match goal with |- harmonic_frame _ ?r _ _ /\ _ => destruct (frame_ok ir 1 W b r Wb) as (Fr & Vr); [lia|reflexivity|]; set (res := r) in * end.
    rewrite Cb in Fr. split; [exact Fr|]. intros c t C1 T. replace (ends res) with (ends ir) in T by (symmetry; apply Fr). rewrite Vr, Vb by lia. replace (t <? ends ir) with true by lia. auto.
  - rewrite Nb, Cb. destruct (ends ir <? n') eqn:E.
    + destruct (allocate_ok junk (count ir) n') as (q & -> & Wq & Nq & Cq); try lia. cbn [bind].
      destruct (set_cols_ok q (between 0 (ends ir)) b 0 (ends ir)) as (q1 & -> & Wq1 & Nq1 & Cq1 & Vq1); auto; try lia.
      { rewrite Cq. unfold_bounds; zcases. } { rewrite Cq. unfold_bounds; zcases. }
      cbn [bind].
      destruct (set_block_ok q1 everything (from (ends ir)) (scalar 0%R)) as (q2 & E2 & Wq2 & Nq2 & Cq2 & Vq2); auto.
      { split; cbn; [lia|repeat constructor]. } 
      cbn [o_zero O real_ops]. rewrite E2. cbn [bind].
      eexists. split; [reflexivity|]. match goal with |- harmonic_frame _ ?r _ _ /\ _ => destruct (frame_ok ir 1 W q2 r Wq2) as (Fr & Vr); [lia|reflexivity|]; set (res := r) in * end.
      rewrite Cq2, Cq1, Cq in Fr. split; [exact Fr|]. intros c t C1 T. replace (ends res) with n' in T by (symmetry; apply Fr). rewrite Vr, Vq2.
      rewrite lower_everything, upper_everything by (rewrite Nq1; lia).
      rewrite Cq1, Cq. replace (lower (from (ends ir)) n') with (ends ir) by (symmetry; unfold_bounds; zcases).
      replace (upper (from (ends ir)) n') with n' by (symmetry; unfold_bounds; zcases).
      destruct (t <? ends ir) eqn:Et.
      * replace (_ && _) with false by lia. rewrite Vq1 by lia. replace (_ && _) with true by lia. rewrite Z.sub_0_r, Vb by lia. apply Vs; lia.
      * replace (_ && _) with true by lia. reflexivity.
    + replace (count ir <? ends ir) with true by lia. cbn [bind]. eexists. split; [reflexivity|].
      assert (U : upper (between 0 n') (cols b) = n') by (rewrite Cb; unfold_bounds; zcases).
      assert (L : lower (between 0 n') (cols b) = 0) by (unfold_bounds; zcases).
      match goal with |- harmonic_frame _ ?r _ _ /\ _ => destruct (frame_ok ir 1 W (block b everything (between 0 n')) r) as (Fr & Vr);
        [now apply wf_block|rewrite nrows_block, lower_everything, upper_everything; lia|reflexivity|]; set (res := r) in * end.
      rewrite cols_block, U, L, Z.sub_0_r in Fr. split; [exact Fr|]. intros c t C1 T. replace (ends res) with n' in T by (symmetry; apply Fr). rewrite Vr.
      rewrite el_block by auto. rewrite lower_everything, upper_everything, U, L by lia. replace (_ && _) with true by lia. rewrite !Z.add_0_r.
      replace (t <? ends ir) with true by lia. rewrite Vb by lia. apply Vs; lia.
Qed.

End Linear.
End Harmonics.
