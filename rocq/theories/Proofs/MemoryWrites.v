(** Proofs for C74: writing to parts of arrays and the impulse responses of harmonics *)

From Coq Require Import String ZArith List Bool Lia.
From Verif.Model Require Import Py Numpy Vector Functions Signal Spectrum Fft Fourier Text Merge Concatenate Sweeps Memory.
From Verif.Spec Require Import MemorySpec.
From Verif.Proofs Require Import PyFacts NumpyFacts MemoryFacts.
Import ListNotations.
Open Scope Z_scope.

(** ** The elements of an array in the order of their addresses *)

Lemma zth_concat {T} (rs : list (list T)) : forall w i j, 0 <= w -> Forall (fun r => zlen r = w) rs -> 0 <= i -> 0 <= j < w ->
  zth (concat rs) (i * w + j) = match zth rs i with Some r => zth r j | None => None end.
Proof.
  induction rs as [| r rs IH]; intros w i j W F I J.
  - cbn [concat]. rewrite !zth_nil. reflexivity.
  - inversion F as [| ? ? Lr F']; subst. cbn [concat]. destruct (Z.eq_dec i 0) as [-> | N].
    + rewrite Z.mul_0_l, Z.add_0_l, zth_cons. cbn. rewrite zth_app. replace (j <? zlen r) with true by lia. reflexivity.
    + rewrite zth_app. replace (i * zlen r + j <? zlen r) with false by nia. replace (i * zlen r + j - zlen r) with ((i - 1) * zlen r + j) by ring.
      rewrite (IH (zlen r) (i - 1) j) by (assumption || lia). rewrite zth_cons. replace (i =? 0) with false by lia. destruct (0 <? i) eqn:E; [| lia]. reflexivity.
Qed.

Lemma zlen_concat {T} (rs : list (list T)) w : Forall (fun r => zlen r = w) rs -> zlen (concat rs) = zlen rs * w.
Proof. induction 1 as [| r rs L _ IH]; [reflexivity |]. cbn [concat]. rewrite zlen_app, zlen_cons, L, IH. ring. Qed.

Lemma zth_elements {T} (m : arr T) i j : wf m -> 0 <= i -> 0 <= j < cols m -> zth (concat (rows m)) (i * cols m + j) = el m i j.
Proof. intros [W F] I J. apply zth_concat; assumption. Qed.

Lemma elements_zth {T} (m : arr T) k a : wf m -> zth (concat (rows m)) k = Some a -> 0 <= k < nrows m * cols m /\ 0 < cols m /\ el m (k / cols m) (k mod cols m) = Some a.
Proof.
  intros W E. assert (R : 0 <= k < nrows m * cols m).
  { pose proof (zlen_concat (rows m) (cols m) (proj2 W)) as L. fold (nrows m) in L. rewrite <- L. exact (zth_range _ _ _ E). }
  destruct W as [C F]. assert (0 < cols m) by (destruct (Z.eq_dec (cols m) 0) as [E0 |]; [rewrite E0, Z.mul_0_r in R; lia | lia]). split; [exact R |]. split; [assumption |].
  rewrite <- zth_elements; [| split; assumption | apply Z.div_pos; lia | apply Z.mod_pos_bound; lia].
  replace (k / cols m * cols m + k mod cols m) with k by (pose proof (Z.div_mod k (cols m) ltac:(lia)); lia). exact E.
Qed.

Lemma In_zth {T} (l : list T) a : In a l <-> exists k, zth l k = Some a.
Proof.
  split.
  - intros H. apply In_nth_error in H. destruct H as [n H]. exists (Z.of_nat n). unfold zth. replace (Z.of_nat n <? 0) with false by lia. rewrite Nat2Z.id. exact H.
  - intros [k H]. unfold zth in H. destruct (k <? 0); [discriminate |]. exact (nth_error_In _ _ H).
Qed.

Lemma NoDup_zth {T} (l : list T) : NoDup l <-> forall k k' a, zth l k = Some a -> zth l k' = Some a -> k = k'.
Proof.
  split.
  - intros H k k' a E E'. unfold zth in E, E'. destruct (k <? 0) eqn:K; [discriminate |]. destruct (k' <? 0) eqn:K'; [discriminate |].
    rewrite NoDup_nth_error in H. assert (L : (Z.to_nat k < List.length l)%nat) by (apply nth_error_Some; congruence). specialize (H _ (Z.to_nat k') L). rewrite E, E' in H. specialize (H eq_refl). lia.
  - intros H. apply NoDup_nth_error. intros i j L E. destruct (nth_error l i) as [a |] eqn:N; [| apply nth_error_None in N; lia].
    assert (F : forall n, nth_error l n = Some a -> zth l (Z.of_nat n) = Some a) by (intros n Hn; unfold zth; replace (Z.of_nat n <? 0) with false by lia; rewrite Nat2Z.id; exact Hn).
    specialize (H _ _ a (F i N) (F j (eq_sym E))). lia.
Qed.

Lemma distinct_el (m : arr Z) : wf m -> NoDup (concat (rows m)) -> forall i j i' j' a, el m i j = Some a -> el m i' j' = Some a -> i = i' /\ j = j'.
Proof.
  intros W D i j i' j' a E E'. destruct (el_range m i j a W E) as [I J]. destruct (el_range m i' j' a W E') as [I' J'].
  rewrite NoDup_zth in D. specialize (D (i * cols m + j) (i' * cols m + j') a). rewrite !zth_elements in D by (assumption || lia). specialize (D E E').
  destruct (Z.lt_trichotomy i i') as [L | [-> | L]]; [nia | lia | nia].
Qed.

Lemma distinct_block (m : arr Z) c : wf m -> NoDup (concat (rows m)) -> NoDup (concat (rows (block m everything c))).
Proof.
  intros W D. apply NoDup_zth. intros k k' a E E'. pose proof (wf_block m everything c W) as Wb.
  destruct (elements_zth _ _ _ Wb E) as (R & P & F). destruct (elements_zth _ _ _ Wb E') as (R' & _ & F').
  set (w := cols (block m everything c)) in *. rewrite el_block in F, F' by exact W.
  destruct ((0 <=? k / w) && (k / w <? upper everything (nrows m) - lower everything (nrows m)) && (0 <=? k mod w) && (k mod w <? upper c (cols m) - lower c (cols m))); [| discriminate].
  destruct ((0 <=? k' / w) && (k' / w <? upper everything (nrows m) - lower everything (nrows m)) && (0 <=? k' mod w) && (k' mod w <? upper c (cols m) - lower c (cols m))); [| discriminate].
  destruct (distinct_el m W D _ _ _ _ _ F F') as [H1 H2]. pose proof (Z.div_mod k w ltac:(lia)). pose proof (Z.div_mod k' w ltac:(lia)).
  assert (k / w = k' / w) by lia. assert (k mod w = k' mod w) by lia. congruence.
Qed.

Section Writes.
Context {A : Type}.

Lemma write_at (c : Z -> A) addresses xs k a x : NoDup addresses -> zlen addresses = zlen xs -> zth addresses k = Some a -> zth xs k = Some x -> write c addresses xs a = x.
Proof.
  intros D L E F. pose proof (write_same addresses c xs D L) as W. rewrite <- W, zth_map, E in F. cbn [option_map] in F. congruence.
Qed.

(** Writing to a part of the columns of an array *)
Lemma write_block (c : Z -> A) (m : arr Z) b (out : arr A) : wf m -> NoDup (concat (rows m)) ->
  wf out -> nrows out = nrows m -> cols out = upper b (cols m) - lower b (cols m) ->
  set_block (ufunc1 c m) everything b out = Ok (ufunc1 (write c (concat (rows (block m everything b))) (concat (rows out))) m).
Proof.
  intros W D Wo N Co. pose proof (ufunc1_wf c m W) as Wm. pose proof (wf_block m everything b W) as Wb.
  assert (U : upper everything (nrows m) = nrows m /\ lower everything (nrows m) = 0) by (pose proof (nrows_nonneg m); unfold_bounds; split; zcases).
  destruct U as [U L].
  destruct (set_block_ok (ufunc1 c m) everything b out Wm Wo) as (m' & E & Wm' & Nm' & Cm' & H).
  - left. rewrite nrows_ufunc1, U, L. lia.
  - left. exact Co.
  - rewrite E. f_equal. rewrite nrows_ufunc1 in *. change (cols (ufunc1 c m)) with (cols m) in *. apply arr_ext; [exact Wm' | apply ufunc1_wf, W | rewrite nrows_ufunc1; exact Nm' | exact Cm' |].
    intros i j I J. rewrite Nm' in I. rewrite Cm' in J. rewrite H, U, L, el_ufunc1, el_ufunc1. destruct (el_in m i j W I J) as [a Ea]. rewrite Ea. cbn [option_map].
    assert (NB : nrows (block m everything b) = nrows m) by (rewrite nrows_block, U, L; lia).
    replace ((0 <=? i) && (i <? nrows m)) with true by lia. cbn [andb]. destruct ((lower b (cols m) <=? j) && (j <? upper b (cols m))) eqn:Q.
    + assert (S : (if nrows out =? 1 then 0 else i - 0) = i) by (destruct (Z.eqb_spec (nrows out) 1); lia).
      assert (T : (if cols out =? 1 then 0 else j - lower b (cols m)) = j - lower b (cols m)) by (destruct (Z.eqb_spec (cols out) 1); lia).
      rewrite S, T. destruct (el_in out i (j - lower b (cols m)) Wo) as [x Ex]; [lia | lia |]. rewrite Ex. f_equal. symmetry.
      apply (write_at c _ _ (i * cols out + (j - lower b (cols m)))).
      * apply distinct_block; assumption.
      * rewrite (zlen_concat _ _ (proj2 Wb)), (zlen_concat _ _ (proj2 Wo)). fold (nrows (block m everything b)). fold (nrows out). rewrite NB, N, cols_block, Co. reflexivity.
      * rewrite Co, <- cols_block with (r := everything). rewrite zth_elements by (try exact Wb; rewrite ?cols_block; lia). rewrite el_block by exact W. rewrite U, L.
        replace ((0 <=? i) && (i <? nrows m - 0) && (0 <=? j - lower b (cols m)) && (j - lower b (cols m) <? upper b (cols m) - lower b (cols m))) with true by lia.
        replace (i + 0) with i by ring. replace (j - lower b (cols m) + lower b (cols m)) with j by ring. exact Ea.
      * rewrite zth_elements by (try exact Wo; lia). exact Ex.
    + f_equal. symmetry. apply write_other. intros I'. apply In_zth in I'. destruct I' as [k E']. destruct (elements_zth _ _ _ Wb E') as (_ & _ & F).
      set (w := cols (block m everything b)) in *. rewrite el_block in F by exact W. rewrite U, L in F.
      destruct ((0 <=? k / w) && (k / w <? nrows m - 0) && (0 <=? k mod w) && (k mod w <? upper b (cols m) - lower b (cols m))) eqn:Z; [| discriminate].
      destruct (distinct_el m W D _ _ _ _ _ Ea F) as [_ H2]. lia.
Qed.

(** What a user writes is where they have written it, and nowhere else in this signal. *)
Lemma assign_effect (m : memory A) x c t v m' : distinct x -> 0 <= c -> 0 <= t -> assign m x c t v = Ok m' ->
  forall i j, el (channels (values m' x)) i j = if (i =? c) && (j =? t) then Some v else el (channels (values m x)) i j.
Proof.
  intros [W D] C T E i j. unfold assign, getitem in E. replace (c <? 0) with false in E by lia. replace (t <? 0) with false in E by lia.
  destruct (zth (rows (locations x)) c) as [r |] eqn:Er; [| discriminate]. cbn [bind] in E. destruct (zth r t) as [a |] eqn:Ea; [| discriminate]. injection E as <-.
  assert (Ect : el (locations x) c t = Some a) by (unfold el; rewrite Er; exact Ea). cbn [values channels]. rewrite !el_ufunc1. cbn [cells].
  destruct ((i =? c) && (j =? t)) eqn:Q.
  - assert (i = c /\ j = t) as [-> ->] by lia. rewrite Ect. cbn [option_map]. unfold poke. cbn [fst snd]. rewrite Z.eqb_refl. reflexivity.
  - destruct (el (locations x) i j) as [b |] eqn:Eb; [| reflexivity]. cbn [option_map]. unfold poke. cbn [fst snd]. destruct (Z.eqb_spec b a) as [-> |]; [| reflexivity].
    destruct (distinct_el _ W D _ _ _ _ _ Ect Eb). lia.
Qed.
End Writes.

(** ** The impulse responses of harmonics *)
Section Harmonics.
Context {A K : Type}.
Variable O : ops A.
Variable M : functions A.
Variable X : transforms A K.
Variable N : numbers A K.
Variable junk : Z -> Z -> A.
Hypothesis irfft_length : forall y n, 0 < n -> zlen (x_irfft X y n) = n.

Lemma broadcast_rows {T} (m : arr T) n k s : 0 <= n -> broadcast m n k = Ok s -> nrows s = n.
Proof.
  unfold broadcast. intros H E. destruct (negb ((cols m =? k) || (cols m =? 1))); [discriminate |]. destruct (Z.eqb_spec (nrows m) n) as [Em |].
  - injection E as <-. unfold nrows in *. cbn [rows]. rewrite zlen_map. exact Em.
  - destruct (rows m) as [| r [| ? ?]]; try discriminate. injection E as <-. unfold nrows. cbn [rows]. rewrite zlen_repeat. lia.
Qed.

Lemma set_block_rows {T} (m m' : arr T) r c src : set_block m r c src = Ok m' -> nrows m' = nrows m.
Proof.
  unfold set_block. intros E. pose proof (nrows_nonneg m) as Hn. pose proof (lower_range r (nrows m) Hn) as HL. pose proof (upper_range r (nrows m) Hn) as HU.
  destruct (broadcast src (upper r (nrows m) - lower r (nrows m)) (upper c (cols m) - lower c (cols m))) as [s | e] eqn:B; [| discriminate]. cbn [bind] in E. injection E as <-.
  apply broadcast_rows in B; [| lia]. unfold nrows in *. cbn [rows]. rewrite !zlen_app, zlen_take, zlen_map2, zlen_subseq, zlen_drop, B. lia.
Qed.

Lemma delay_shape (channels : arr A) rate delay out : wf channels -> apply_delay O M X N channels rate delay channels = Ok out ->
  wf out /\ nrows out = nrows channels /\ cols out = cols channels.
Proof.
  intros W. pose proof (nrows_nonneg channels) as Hn. pose proof (proj1 W) as Hc.
  assert (U : forall n, 0 <= n -> upper everything n = n /\ lower everything n = 0) by (intros n P; unfold_bounds; split; zcases).
  unfold apply_delay. destruct ((nrows channels =? 0) || (cols channels =? 0)) eqn:Z.
  - intros E. destruct (set_block_ok channels everything everything channels W W) as (m' & E' & W' & N' & C' & _).
    + left. destruct (U (nrows channels) Hn) as [-> ->]. lia.
    + left. destruct (U (cols channels) Hc) as [-> ->]. lia.
    + rewrite E in E'. injection E' as ->. auto.
  - intros E. unfold rfft_rows in E. replace (cols channels <? 1) with false in E by lia. cbn [bind] in E.
    set (spectrum := Arr (map (x_rfft X) (rows channels)) (cols channels / 2 + 1)) in E.
    match type of E with bind ?q _ = _ => destruct q as [product | e] eqn:P; [| discriminate] end. cbn [bind] in E.
    assert (NP : nrows product = nrows channels).
    { unfold ufunc2_into in P. match type of P with bind ?q _ = _ => destruct q as [s | e]; [| discriminate] end. cbn [bind] in P. apply set_block_rows in P.
      rewrite P. unfold nrows, spectrum. cbn [rows]. apply zlen_map. }
    unfold irfft_rows_n in E. replace (cols channels <? 1) with false in E by lia. cbn [bind] in E.
    set (signal := Arr (map (fun r => x_irfft X r (cols channels)) (rows product)) (cols channels)) in E. change (cols signal) with (cols channels) in E.
    assert (Ws : wf signal).
    { split; [exact Hc |]. cbn [rows cols signal]. apply Forall_forall. intros r Hr. apply in_map_iff in Hr. destruct Hr as (y & <- & _). apply irfft_length. lia. }
    assert (Ns : nrows signal = nrows channels) by (unfold nrows in *; cbn [rows signal]; rewrite zlen_map; exact NP).
    assert (UB : upper (between 0 (cols channels)) (cols channels) = cols channels /\ lower (between 0 (cols channels)) (cols channels) = 0) by (unfold_bounds; split; zcases).
    destruct (set_block_ok channels everything (between 0 (cols channels)) (block signal everything (between 0 (cols channels))) W (wf_block _ _ _ Ws)) as (m' & E' & W' & N' & C' & _).
    + left. rewrite nrows_block, Ns. reflexivity.
    + left. rewrite cols_block. reflexivity.
    + rewrite E in E'. injection E' as ->. auto.
Qed.

Lemma subseq_map {S T} (f : S -> T) r l : subseq r (map f l) = map f (subseq r l).
Proof. unfold subseq, ztake, zdrop. rewrite zlen_map, skipn_map, firstn_map. reflexivity. Qed.

Lemma ufunc1_block {S T} (f : S -> T) (m : arr S) r c : ufunc1 f (block m r c) = block (ufunc1 f m) r c.
Proof.
  unfold ufunc1, block. cbn [rows cols]. f_equal. rewrite subseq_map, !map_map. apply map_ext. intros x. symmetry. apply subseq_map.
Qed.

Lemma values_shared (m : memory A) (x : object A) c o l : values m (view x (mk_signal c 0 o l)) = mk_signal (ufunc1 (cells m) c) (rate_of x) o l.
Proof. unfold values, view, mk_signal. cbn. rewrite nrows_ufunc1. reflexivity. Qed.

Theorem harmonic_memory (m : memory A) l (x : object A) harmonic length : distinct x -> placed m x ->
  match perform_harmonic O M X N junk m l x harmonic length with
  | Ok (m', r) => harmonic_impulse_response O M X N junk l (values m x) harmonic length = Ok (Outcome (values m' r) (channels (values m' x)))
  | Err e => harmonic_impulse_response O M X N junk l (values m x) harmonic length = Err e
  end.
Proof.
  intros [W D] P. unfold perform_harmonic, harmonic_impulse_response. change (sampling_rate (values m x)) with (rate_of x). change (offset (values m x)) with (offset_of x).
  change (labels (values m x)) with (labels_of x).
  destruct (harmonic_cut O M l (rate_of x) (offset_of x) harmonic) as [[[start stop] delay] | e]; [| reflexivity]. cbn [bind].
  set (cut := match stop with Some stop => between start stop | None => from start end).
  set (names := Some (map (fun l => (l ++ " (" ++ counting_number harmonic ++ " harmonic)")%string) (labels_of x))).
  change (channels (values m x)) with (ufunc1 (cells m) (locations x)). rewrite <- ufunc1_block.
  set (part := block (locations x) everything cut). set (samples := ufunc1 (cells m) part).
  assert (Ns : nrows samples = nrows part) by apply nrows_ufunc1. assert (Cs : cols samples = cols part) by reflexivity. rewrite Ns, Cs.
  assert (New : forall r, match new m (rmap (fun channels => mk_signal channels (rate_of x) 0 names) r) with
    | Ok (m', o) => exists c, r = Ok c /\ values m' o = mk_signal c (rate_of x) 0 names /\ ufunc1 (cells m') (locations x) = ufunc1 (cells m) (locations x)
    | Err e => r = Err e end).
  { intros [c | e]; [| reflexivity]. unfold new. cbn [rmap]. destruct (store m (mk_signal c (rate_of x) 0 names)) as [m' o] eqn:E. exists c. split; [reflexivity |].
    split; [exact (store_values _ _ _ _ E) |]. destruct (store_other _ _ _ _ E) as (_ & H & _). pose proof (values_kept m m' x H P) as V. injection V as V. unfold ufunc1. rewrite V. reflexivity. }
  destruct length as [length |].
  - destruct (cols part <? length).
    + match goal with |- match new m (rmap _ ?q) with _ => _ end => specialize (New q); destruct (new m (rmap (fun channels => mk_signal channels (rate_of x) 0 names) q)) as [[m' o] | e] end.
      * destruct New as (c & E & V & U). cbn [channels values]. rewrite V, U. fold samples.
        destruct (allocate junk (nrows part) length) as [a | e]; [| discriminate]. cbn [bind] in E |- *.
        destruct (set_block a everything (between 0 (cols part)) samples) as [b | e]; [| discriminate]. cbn [bind] in E |- *.
        destruct (set_block b everything (from (cols part)) (scalar (o_zero O))) as [d | e]; [| discriminate]. cbn [bind] in E |- *.
        rewrite E. reflexivity.
      * destruct (allocate junk (nrows part) length) as [a | e']; cbn [bind] in New |- *; [| congruence].
        destruct (set_block a everything (between 0 (cols part)) samples) as [b | e']; cbn [bind] in New |- *; [| congruence].
        destruct (set_block b everything (from (cols part)) (scalar (o_zero O))) as [d | e']; cbn [bind] in New |- *; [| congruence].
        rewrite New. reflexivity.
    + destruct (nrows part <? cols part).
      * destruct delay as [delay |].
        -- match goal with |- match new m (rmap _ ?q) with _ => _ end => specialize (New q); destruct (new m (rmap (fun channels => mk_signal channels (rate_of x) 0 names) q)) as [[m' o] | e] end.
           ++ destruct New as (c & E & V & U). cbn [channels values]. rewrite V, U.
              destruct (allocate junk (nrows part) length) as [a | e]; [| discriminate]. cbn [bind] in E |- *. rewrite E. reflexivity.
           ++ destruct (allocate junk (nrows part) length) as [a | e']; cbn [bind] in New |- *; [| congruence]. rewrite New. reflexivity.
        -- cbn [bind]. rewrite values_shared, ufunc1_block. reflexivity.
      * cbn [bind]. rewrite values_shared. reflexivity.
  - destruct delay as [delay |].
    + destruct (apply_delay O M X N samples (rate_of x) delay samples) as [out | e] eqn:E; [| reflexivity]. cbn [bind].
      assert (Wp : wf part) by (apply wf_block; exact W). assert (Ws : wf samples) by (apply ufunc1_wf; exact Wp).
      destruct (delay_shape samples (rate_of x) delay out Ws E) as (Wo & No & Co).
      assert (Np : nrows part = nrows (locations x)).
      { unfold part. rewrite nrows_block. pose proof (nrows_nonneg (locations x)). unfold_bounds. zcases. }
      rewrite (write_block (cells m) (locations x) cut out W D Wo) by (rewrite ?No, ?Co, ?Ns, ?Cs; try exact Np; reflexivity). cbn [bind]. rewrite values_shared. cbn [cells values channels].
      f_equal. f_equal. f_equal. fold part.
      pose proof (distinct_block (locations x) cut W D) as Db. fold part in Db.
      assert (Wr : map (write (cells m) (concat (rows part)) (concat (rows out))) (concat (rows part)) = concat (rows out)).
      { apply write_same; [exact Db |]. rewrite (zlen_concat _ _ (proj2 Wp)), (zlen_concat _ _ (proj2 Wo)). fold (nrows part) (nrows out). rewrite No, Ns, Co, Cs. reflexivity. }
      set (g := write (cells m) (concat (rows part)) (concat (rows out))) in *. symmetry. apply arr_ext; [apply ufunc1_wf, Wp | exact Wo | rewrite nrows_ufunc1; congruence | rewrite Co; exact Cs |].
      intros i j I J. rewrite nrows_ufunc1 in I. change (cols (ufunc1 g part)) with (cols part) in J.
      rewrite <- (zth_elements (ufunc1 g part)) by (try apply ufunc1_wf, Wp; try exact (proj1 I); exact J).
      rewrite <- (zth_elements out) by (try exact Wo; try exact (proj1 I); rewrite Co, Cs; exact J).
      rewrite Co, Cs. change (cols (ufunc1 g part)) with (cols part). cbn [rows ufunc1]. rewrite <- concat_map, Wr. reflexivity.
    + cbn [bind]. rewrite values_shared. reflexivity.
Qed.

(** Nothing is changed, if a length is given or if the linear part is cut out. *)
Theorem harmonic_unchanged (m : memory A) l (x : object A) harmonic length m' r : length <> None \/ harmonic = 1 ->
  perform_harmonic O M X N junk m l x harmonic length = Ok (m', r) -> forall y, placed m y -> values m' y = values m y.
Proof.
  intros H E y P. unfold perform_harmonic in E. destruct (harmonic_cut O M l (rate_of x) (offset_of x) harmonic) as [[[start stop] delay] | e] eqn:Cut; [| discriminate]. cbn [bind] in E.
  assert (New : forall q, new m q = Ok (m', r) -> values m' y = values m y).
  { intros [s | e] S; [| discriminate]. unfold new in S. cbn [rmap] in S. assert (S2 : store m s = (m', r)) by congruence. destruct (store_other _ _ _ _ S2) as (_ & K2 & _).
    exact (values_kept m m' y K2 P). }
  destruct length as [length |].
  - destruct (_ <? length) in E; [exact (New _ E) |]. destruct (_ <? _) in E; [destruct delay; [exact (New _ E) |] |]; injection E as <- _; reflexivity.
  - destruct H as [H | ->]; [contradiction |]. unfold harmonic_cut in Cut. cbn in Cut. injection Cut as <- <- <-. injection E as <- _. reflexivity.
Qed.
End Harmonics.
