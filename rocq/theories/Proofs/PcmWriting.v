(** Writing sound files. *)

From Coq Require Import String ZArith QArith Qabs List Bool Lia ZifyBool Lqa.
From Verif.Model Require Import Py Numpy Vector Functions Signal Pcm.
From Verif.Spec Require Import PcmSpec.
From Verif.Proofs Require Import PyFacts NumpyFacts VectorFacts SliceFacts SignalAlgebra InterleaveFacts PcmCodes.
Import ListNotations.
Open Scope list_scope.
Open Scope Z_scope.

Definition dflt (o : option Q) : Q := match o with Some x => x | None => 0%Q end.

Lemma flat_map_map {A B C} (f : A -> B) (g : B -> list C) l : flat_map g (map f l) = flat_map (fun x => g (f x)) l.
Proof. induction l; cbn; congruence. Qed.

Lemma flat_map_flat {A B C} (f : A -> list B) (g : B -> list C) l : flat_map g (flat_map f l) = flat_map (fun x => flat_map g (f x)) l.
Proof. induction l; cbn; rewrite ?flat_map_app; congruence. Qed.

Lemma flat_map_ext_in {A B} (f g : A -> list B) l : (forall x, In x l -> f x = g x) -> flat_map f l = flat_map g l.
Proof. induction l; intros H; cbn; auto. rewrite H, IHl; auto; [intros; apply H; now right | now left]. Qed.

Lemma map_interleave {A B} (h : A -> B) n k f : map h (interleave n k f) = interleave n k (fun c t => h (f c t)).
Proof.
  unfold interleave. rewrite !flat_map_concat_map, concat_map, map_map. f_equal. apply map_ext. intros t. now rewrite map_map.
Qed.

Lemma in_zseq a n x : In x (zseq a n) <-> a <= x < a + n.
Proof.
  split.
  - intros I. apply In_zth in I. destruct I as (i & I). rewrite zth_seq in I. destruct ((0 <=? i) && (i <? n)) eqn:B; [| discriminate].
    injection I as <-. lia.
  - intros H. apply (zth_In _ (x - a)). rewrite zth_seq. replace (_ && _) with true by lia. f_equal. lia.
Qed.

Section Writing.
Variable F : pcm.
Hypothesis R : regular F.
Variable junk : Z -> Q.
Variable s : signal Q.
Hypothesis W : wf_signal s.
Hypothesis N : 1 <= count s.

Notation n := (count s).
Definition codes : arr Z := ufunc1 (code F) (channels s).

Lemma codes_wf : wf codes.
Proof. apply ufunc1_wf. apply W. Qed.

Lemma codes_quantised : quantised F s codes.
Proof.
  split; [apply codes_wf |]. split; [apply nrows_ufunc1 |]. split; [reflexivity |].
  intros c t x E. unfold codes. rewrite el_ufunc1, E. eexists. split; [reflexivity |]. now apply code_is_code.
Qed.

(** ** A chunk *)

Definition piece (i : Z) : Z -> Z -> Q := fun c t => dflt (el (channels s) c (i + t)).

Definition takes (b : bounds) (i k : Z) : Prop :=
  forall r : list Q, zlen r = Signal.length s -> zlen (subseq b r) = k /\ forall t, 0 <= t < k -> zth (subseq b r) t = zth r (i + t).

Lemma takes_between i k : 0 <= i -> 0 <= k -> i + k <= Signal.length s -> takes (between i (i + k)) i k.
Proof.
  intros I K L r E. rewrite zlen_between by lia. split; [lia |]. intros t T. rewrite zth_between by lia.
  replace (_ && _) with true by lia. f_equal. lia.
Qed.

Lemma takes_from i : 0 <= i <= Signal.length s -> takes (from i) i (Signal.length s - i).
Proof.
  intros I r E. rewrite zlen_from by lia. split; [lia |]. intros t T. rewrite zth_from by lia.
  replace (_ && _) with true by lia. f_equal. lia.
Qed.

Lemma fill_ok array b i k : 0 <= i -> 0 <= k -> i + k <= Signal.length s -> zlen array = n * k -> takes b i k ->
  fill_buffer s array b = Ok (interleave n k (piece i)).
Proof.
  intros I K L Z T. unfold fill_buffer.
  destruct (for_each_seq (fun c array => zlen array = n * k /\ forall d t, 0 <= d < c -> 0 <= t < k -> zth array (t * n + d) = Some (piece i d t))
    (fun array c => r <- getitem (rows (channels s)) c ;; vset_slice array (Slice (Some c) None (Some n)) (subseq b r)) n 0 array)
    as (v & E & LV & PV).
  - lia.
  - split; [exact Z |]. intros. lia.
  - intros c v C [LV PV]. unfold getitem. replace (c <? 0) with false by lia.
    destruct (zth_in (rows (channels s)) c) as [r Er]; [change (zlen (rows (channels s))) with n; lia |].
    rewrite Er. cbn [bind]. pose proof (wf_zlen _ _ _ (proj1 W) Er) as Lr.
    destruct (T r Lr) as [Ls Zs].
    destruct (stride_set v (subseq b r) c n k) as (v' & E' & L' & P' & O'); try lia.
    exists v'. split; [exact E' |]. split; [lia |]. intros d t D Tt.
    destruct (Z.eq_dec d c) as [-> | Ne].
    + rewrite P', Zs by lia. unfold piece, el. rewrite Er. destruct (zth_in r (i + t)) as [x Ex]; [rewrite Lr; unfold Signal.length in L; lia |].
      now rewrite Ex.
    + rewrite O' by lia. apply PV; lia.
  - rewrite E. f_equal. apply interleave_eq; try lia. intros c t C Tt. apply PV; lia.
Qed.

Definition chunk_ok (i k : Z) : bool := forallb (storableb F) (interleave n k (fun c t => code F (piece i c t))).

Lemma convert_ok i k : 0 <= k ->
  exists array, zlen array = n * k /\
    convert F (interleave n k (piece i)) (n * k)
    = if chunk_ok i k then Ok (array, flat_map (bytes_of F) (interleave n k (fun c t => code F (piece i c t)))) else Err StructError.
Proof.
  intros K. unfold convert. set (array := if p_signed F then _ else _).
  exists (map (fun x => x * scale F)%Q array).
  assert (L : zlen (map (fun x => (x * scale F)%Q) array) = n * k).
  { unfold array. destruct (p_signed F); rewrite !zlen_map, interleave_len; lia. }
  split; [exact L |].
  assert (E : map py_round (map (fun x => x * scale F)%Q array) = interleave n k (fun c t => code F (piece i c t))).
  { unfold array, code, shifted. destruct (p_signed F); rewrite !map_map, map_interleave; reflexivity. }
  cbv zeta. rewrite E. rewrite pack_spec; auto; [| rewrite interleave_len; lia].
  fold (chunk_ok i k). destruct (chunk_ok i k); reflexivity.
Qed.

Lemma el_piece i c t : 0 <= i -> 0 <= c < n -> 0 <= t -> i + t < Signal.length s -> el (channels s) c (i + t) = Some (piece i c t).
Proof.
  intros I C T L. unfold piece. destruct (el_in (channels s) c (i + t) (proj1 W)) as [x Ex]; try (unfold count in *; lia).
  - unfold Signal.length in L. lia.
  - now rewrite Ex.
Qed.

Lemma chunk_bytes i k : 0 <= i -> 0 <= k -> i + k <= Signal.length s ->
  flat_map (bytes_of F) (interleave n k (fun c t => code F (piece i c t))) = frames_of F codes i (i + k).
Proof.
  intros I K L. unfold interleave, frames_of. rewrite flat_map_flat. change (nrows codes) with (nrows (ufunc1 (code F) (channels s))).
  rewrite nrows_ufunc1. fold (count s). replace (i + k - i) with k by lia.
  replace (zseq i k) with (zseq (0 + i) k) by (f_equal; lia). rewrite zseq_shift, flat_map_map.
  apply flat_map_ext_in. intros t Ht. apply in_zseq in Ht. rewrite flat_map_map.
  apply flat_map_ext_in. intros c Hc. apply in_zseq in Hc.
  unfold codes. rewrite el_ufunc1. replace (t + i) with (i + t) by lia. rewrite el_piece by lia. reflexivity.
Qed.

Lemma chunk_range i k : 0 <= i -> 0 <= k -> i + k <= Signal.length s ->
  chunk_ok i k = true <-> forall t, i <= t < i + k -> frame_in_range F s t.
Proof.
  intros I K L. unfold chunk_ok. rewrite forallb_forall. split.
  - intros H t T c x E.
    destruct (el_range _ _ _ _ (proj1 W) E) as [C _]. fold (count s) in C.
    pose proof (el_piece i c (t - i) I C ltac:(lia) ltac:(lia)) as E'. replace (i + (t - i)) with t in E' by lia.
    rewrite E in E'. injection E' as ->. apply storable_code; auto. apply storableb_iff. apply H.
    unfold interleave. apply in_flat_map. exists (t - i). split; [apply in_zseq; lia |].
    apply in_map_iff. exists c. split; [reflexivity |]. apply in_zseq. lia.
  - intros H z Hz. unfold interleave in Hz. apply in_flat_map in Hz. destruct Hz as (t & Ht & Hz). apply in_zseq in Ht.
    apply in_map_iff in Hz. destruct Hz as (c & <- & Hc). apply in_zseq in Hc.
    apply storableb_iff, storable_code; auto. apply (H (i + t) ltac:(lia) c). apply el_piece; lia.
Qed.

Lemma chunk_fails i k : 0 <= i -> 0 <= k -> i + k <= Signal.length s ->
  chunk_ok i k = false -> exists c t x, i <= t < i + k /\ el (channels s) c t = Some x /\ ~ in_range F x.
Proof.
  intros I K L H. unfold chunk_ok in H.
  assert (E : exists z, In z (interleave n k (fun c t => code F (piece i c t))) /\ storableb F z = false).
  { induction (interleave n k (fun c t => code F (piece i c t))) as [| z l IH]; [discriminate |].
    cbn in H. destruct (storableb F z) eqn:E; [| exists z; split; [now left | exact E]].
    destruct (IH H) as (z' & Hz & Ez). exists z'. split; [now right | exact Ez]. }
  destruct E as (z & Hz & Ez). unfold interleave in Hz. apply in_flat_map in Hz. destruct Hz as (t & Ht & Hz). apply in_zseq in Ht.
  apply in_map_iff in Hz. destruct Hz as (c & <- & Hc). apply in_zseq in Hc.
  exists c, (i + t), (piece i c t). split; [lia |]. split; [apply el_piece; lia |].
  intros Hr. apply storable_code, storableb_iff in Hr; auto. congruence.
Qed.

Lemma frames_app (m : arr Z) a b c : a <= b <= c -> frames_of F m a b ++ frames_of F m b c = frames_of F m a c.
Proof.
  intros H. unfold frames_of. rewrite <- flat_map_app. f_equal.
  replace (c - a) with ((b - a) + (c - b)) by lia. rewrite zseq_app by lia. do 2 f_equal. lia.
Qed.

(** ** The loop *)

Section Loop.
Variable chunk_size : Z.
Hypothesis P : 0 < chunk_size.

Lemma chunks_ok fuel : forall array i, 0 <= i <= Signal.length s -> Signal.length s - i <= Z.of_nat fuel -> zlen array = n * chunk_size -> (chunk_size | i) ->
  match write_chunks F s fuel chunk_size array i (frames_of F codes 0 i) with
  | (Ok (array', i'), data) =>
      i <= i' <= Signal.length s /\ Signal.length s < i' + chunk_size /\ (chunk_size | i') /\ zlen array' = n * chunk_size /\ data = frames_of F codes 0 i'
      /\ forall t, i <= t < i' -> frame_in_range F s t
  | (Err e, data) =>
      e = StructError /\ exists k, i <= k /\ k + chunk_size <= Signal.length s /\ (chunk_size | k) /\ data = frames_of F codes 0 k
      /\ (forall t, i <= t < k -> frame_in_range F s t)
      /\ exists c t x, k <= t < k + chunk_size /\ el (channels s) c t = Some x /\ ~ in_range F x
  end.
Proof.
  induction fuel as [| fuel IH]; intros array i I Fu L D.
  - cbn [write_chunks]. replace (i + chunk_size <=? Signal.length s) with false by lia.
    repeat split; auto; try lia.
  - cbn [write_chunks]. destruct (Z.leb_spec (i + chunk_size) (Signal.length s)) as [Lt | Ge].
    2: { repeat split; auto; try lia. }
    rewrite (fill_ok array _ i chunk_size) by (try apply takes_between; lia). cbn [bind].
    destruct (convert_ok i chunk_size ltac:(lia)) as (array' & L' & ->).
    destruct (chunk_ok i chunk_size) eqn:C.
    + rewrite chunk_bytes by lia. rewrite frames_app by lia.
      assert (D' : (chunk_size | i + chunk_size)) by (apply Z.divide_add_r; auto using Z.divide_refl).
      specialize (IH array' (i + chunk_size) ltac:(lia) ltac:(lia) L' D').
      rewrite chunk_range in C by lia.
      destruct (write_chunks _ _ _ _ _ _ _) as [[[array'' i'] | e] data].
      * destruct IH as (H1 & H2 & H3 & H4 & H5 & H6). split; [lia |]. split; [lia |]. split; [exact H3 |]. split; [exact H4 |]. split; [exact H5 |].
        intros t T. destruct (Z.lt_ge_cases t (i + chunk_size)); [apply C; lia | apply H6; lia].
      * destruct IH as (H1 & k & H2 & H3 & H4 & H5 & H6 & H7). split; [exact H1 |]. exists k. split; [lia |]. split; [exact H3 |]. split; [exact H4 |]. split; [exact H5 |]. split; [| exact H7].
        intros t T. destruct (Z.lt_ge_cases t (i + chunk_size)); [apply C; lia | apply H6; lia].
    + split; [reflexivity |]. exists i. split; [lia |]. split; [lia |]. split; [exact D |]. split; [reflexivity |]. split; [intros; lia |].
      apply chunk_fails; auto; lia.
Qed.

Definition file_with (data : list Z) : sound_file := SoundFile n (p_bytes F) (Z.max 1 (py_round (sampling_rate s))) data.

Theorem write_result :
  match write_file_with F junk s chunk_size with
  | (Ok _, f) => f = Some (file_with (frames_of F codes 0 (Signal.length s))) /\ forall t, 0 <= t < Signal.length s -> frame_in_range F s t
  | (Err e, f) =>
      e = StructError /\ exists k, 0 <= k < Signal.length s /\ (chunk_size | k) /\ f = Some (file_with (frames_of F codes 0 k))
      /\ (forall t, 0 <= t < k -> frame_in_range F s t)
      /\ exists c t x, k <= t < k + chunk_size /\ el (channels s) c t = Some x /\ ~ in_range F x
  end.
Proof.
  unfold write_file_with. destruct (vector_ok junk (n * chunk_size)) as (array & -> & L); [nia |].
  replace (n <? 1) with false by lia.
  assert (LN : 0 <= Signal.length s) by apply (proj1 (proj1 W)).
  pose proof (chunks_ok (Z.to_nat (Signal.length s)) array 0 ltac:(lia) ltac:(lia) L (Z.divide_0_r _)) as H.
  change (frames_of F codes 0 0) with (@nil Z) in H.
  destruct (write_chunks _ _ _ _ _ _ _) as [[[array' i] | e] data].
  2: { destruct H as (-> & k & H2 & H3 & H4 & -> & H6 & H7). split; [reflexivity |]. exists k. split; [lia |]. split; [exact H4 |]. split; [reflexivity |]. split; [exact H6 | exact H7]. }
  destruct H as (H1 & H2 & H3 & H4 & -> & H6).
  unfold write_rest. cbv zeta. destruct (Z.eqb_spec (Signal.length s - i) 0) as [E | E]; cbn [negb].
  - assert (i = Signal.length s) by lia. subst i. split; auto.
  - assert (B : exists a, (if zlen array' <? n * (Signal.length s - i) then vector junk (n * (Signal.length s - i))
                    else Ok (subseq (between 0 (n * (Signal.length s - i))) array')) = Ok a /\ zlen a = n * (Signal.length s - i)).
    { destruct (Z.ltb_spec (zlen array') (n * (Signal.length s - i))).
      - apply vector_ok. nia.
      - eexists. split; [reflexivity |]. rewrite zlen_between; nia. }
    destruct B as (a & -> & La). cbn [bind].
    rewrite (fill_ok a _ i (Signal.length s - i)) by (try apply takes_from; lia). cbn [bind].
    destruct (convert_ok i (Signal.length s - i) ltac:(lia)) as (array'' & L' & ->).
    destruct (chunk_ok i (Signal.length s - i)) eqn:C.
    + rewrite chunk_bytes by lia. rewrite frames_app by lia. replace (i + (Signal.length s - i)) with (Signal.length s) by lia.
      split; [reflexivity |]. rewrite chunk_range in C by lia.
      intros t T. destruct (Z.lt_ge_cases t i); [apply H6; lia | apply C; lia].
    + split; [reflexivity |]. exists i. split; [lia |]. split; [exact H3 |]. split; [reflexivity |]. split; [exact H6 |].
      destruct (chunk_fails i (Signal.length s - i) ltac:(lia) ltac:(lia) ltac:(lia) C) as (c & t & x & T & Hx). exists c, t, x. split; [lia | exact Hx].
Qed.
End Loop.
End Writing.
