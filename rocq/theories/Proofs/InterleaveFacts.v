(** Interleaved sequences: lists, that consist of parts of equal lengths, and strided slices. *)

From Coq Require Import String ZArith QArith List Bool Lia ZifyBool FinFun.
From Verif.Model Require Import Py Numpy Vector Functions Signal Pcm.
From Verif.Proofs Require Import PyFacts NumpyFacts VectorFacts SliceFacts.
Import ListNotations.
Open Scope list_scope.
Open Scope Z_scope.

(** ** Parts of equal lengths *)

Section Parts.
Context {A B : Type}.
Variable f : A -> list B.
Variable w : nat.

Lemma flat_skipn n : forall l, Forall (fun a => List.length (f a) = w) l -> skipn (n * w) (flat_map f l) = flat_map f (skipn n l).
Proof.
  induction n as [| n IH]; intros l H; [reflexivity |].
  destruct H as [| a t Ha Ht]; [now rewrite skipn_nil |].
  cbn [flat_map skipn]. rewrite <- IH by exact Ht.
  change (Datatypes.S n * w)%nat with (w + n * w)%nat. rewrite <- Ha at 1.
  rewrite skipn_app. rewrite skipn_all2 by lia. cbn [app]. f_equal. lia.
Qed.

Lemma flat_firstn n : forall l, Forall (fun a => List.length (f a) = w) l -> firstn (n * w) (flat_map f l) = flat_map f (firstn n l).
Proof.
  induction n as [| n IH]; intros l H; [reflexivity |].
  destruct H as [| a t Ha Ht]; [now rewrite firstn_nil |].
  cbn [flat_map firstn]. rewrite <- IH by exact Ht.
  change (Datatypes.S n * w)%nat with (w + n * w)%nat. rewrite <- Ha at 1.
  rewrite firstn_app. rewrite firstn_all2 by lia. f_equal. f_equal. lia.
Qed.

Lemma flat_length l : Forall (fun a => List.length (f a) = w) l -> zlen (flat_map f l) = zlen l * Z.of_nat w.
Proof.
  induction 1 as [| a t Ha _ IH]; [reflexivity |].
  cbn [flat_map]. rewrite zlen_app, zlen_cons, IH. unfold zlen at 1. rewrite Ha. lia.
Qed.

Lemma flat_take n l : 0 <= n -> Forall (fun a => List.length (f a) = w) l -> ztake (n * Z.of_nat w) (flat_map f l) = flat_map f (ztake n l).
Proof.
  intros N H. unfold ztake. replace (Z.to_nat (n * Z.of_nat w)) with (Z.to_nat n * w)%nat by lia. now apply flat_firstn.
Qed.

Lemma flat_drop n l : 0 <= n -> Forall (fun a => List.length (f a) = w) l -> zdrop (n * Z.of_nat w) (flat_map f l) = flat_map f (zdrop n l).
Proof.
  intros N H. unfold zdrop. replace (Z.to_nat (n * Z.of_nat w)) with (Z.to_nat n * w)%nat by lia. now apply flat_skipn.
Qed.

Lemma Forall_skipn (P : A -> Prop) n : forall l, Forall P l -> Forall P (skipn n l).
Proof. induction n; intros l H; [exact H |]. destruct H; [constructor | now apply IHn]. Qed.

Lemma flat_between a b l : 0 <= a <= b -> b <= zlen l -> Forall (fun x => List.length (f x) = w) l ->
  subseq (between (a * Z.of_nat w) (b * Z.of_nat w)) (flat_map f l) = flat_map f (subseq (between a b) l).
Proof.
  intros H L F. pose proof (flat_length l F) as E.
  unfold subseq. rewrite !lower_between, !upper_between; try nia.
  replace (b * Z.of_nat w - a * Z.of_nat w) with ((b - a) * Z.of_nat w) by lia.
  rewrite flat_drop by (auto; lia). apply flat_take; [lia |]. now apply Forall_skipn.
Qed.
End Parts.

(** ** Interleaving *)

Section Interleave.
Context {A : Type}.

Definition interleave (n k : Z) (f : Z -> Z -> A) : list A := flat_map (fun t => map (fun c => f c t) (zseq 0 n)) (zseq 0 k).

Lemma zseq_app s n m : 0 <= n -> 0 <= m -> zseq s (n + m) = zseq s n ++ zseq (s + n) m.
Proof.
  intros N M. apply zth_ext. intros i. rewrite zth_app, !zth_seq, !zlen_seq.
  destruct (Z.ltb_spec i (Z.max 0 n)).
  - destruct ((0 <=? i) && (i <? n + m)) eqn:E, ((0 <=? i) && (i <? n)) eqn:E'; auto; lia.
  - destruct ((0 <=? i) && (i <? n + m)) eqn:E, ((0 <=? i - Z.max 0 n) && (i - Z.max 0 n <? m)) eqn:E'; auto; try lia. f_equal. lia.
Qed.

Lemma zseq_cons s n : 0 < n -> zseq s n = s :: zseq (s + 1) (n - 1).
Proof.
  intros N. replace n with (1 + (n - 1)) at 1 by lia. rewrite zseq_app by lia.
  change (zseq s 1) with [s + 0]. now rewrite Z.add_0_r.
Qed.

Lemma zseq_empty s n : n <= 0 -> zseq s n = [].
Proof. intros N. unfold zseq. replace (Z.to_nat n) with 0%nat by lia. reflexivity. Qed.

Lemma zseq_shift s d n : zseq (s + d) n = map (fun i => i + d) (zseq s n).
Proof.
  unfold zseq. rewrite map_map. apply map_ext. intros. lia.
Qed.

Lemma interleave_zth n k f p : 0 < n -> 0 <= p < n * k -> zth (interleave n k f) p = Some (f (p mod n) (p / n)).
Proof.
  intros N P. unfold interleave.
  assert (L : Forall (fun t => List.length (map (fun c => f c t) (zseq 0 n)) = Z.to_nat n) (zseq 0 k)).
  { apply Forall_forall. intros t _. rewrite map_length. unfold zseq. now rewrite map_length, seq_length. }
  pose proof (Z.div_mod p n ltac:(lia)) as D. pose proof (Z.mod_pos_bound p n ltac:(lia)) as M.
  set (t := p / n) in *. set (c := p mod n) in *.
  assert (T : 0 <= t < k) by nia.
  replace (zseq 0 k) with (zseq 0 t ++ t :: zseq (t + 1) (k - t - 1)).
  2: { rewrite <- (zseq_cons t (k - t)) by lia. replace (zseq t (k - t)) with (zseq (0 + t) (k - t)) by (f_equal; lia).
       rewrite <- zseq_app by lia. f_equal. lia. }
  rewrite flat_map_app. cbn [flat_map]. rewrite zth_app.
  assert (L1 : Forall (fun t => List.length (map (fun c => f c t) (zseq 0 n)) = Z.to_nat n) (zseq 0 t)).
  { apply Forall_forall. intros t' _. rewrite map_length. unfold zseq. now rewrite map_length, seq_length. }
  pose proof (flat_length _ _ _ L1) as E. rewrite zlen_seq in E.
  replace (Z.max 0 t * Z.of_nat (Z.to_nat n)) with (n * t) in E by nia.
  rewrite E. destruct (Z.ltb_spec p (n * t)); [lia |].
  rewrite zth_app, zlen_map, zlen_seq. destruct (Z.ltb_spec (p - n * t) (Z.max 0 n)); [| lia].
  rewrite zth_map, zth_seq. replace (_ && _) with true by lia. cbn. do 2 f_equal. lia.
Qed.

Lemma interleave_len n k f : 0 <= n -> 0 <= k -> zlen (interleave n k f) = n * k.
Proof.
  intros N K. unfold interleave. rewrite (flat_length _ (Z.to_nat n)).
  - rewrite zlen_seq. lia.
  - apply Forall_forall. intros t _. rewrite map_length. unfold zseq. now rewrite map_length, seq_length.
Qed.

Lemma interleave_eq n k f l : 0 < n -> 0 <= k -> zlen l = n * k ->
  (forall c t, 0 <= c < n -> 0 <= t < k -> zth l (t * n + c) = Some (f c t)) -> l = interleave n k f.
Proof.
  intros N K L H. apply zth_ext_in; [rewrite interleave_len; lia |].
  intros p P. rewrite interleave_zth by lia.
  pose proof (Z.div_mod p n ltac:(lia)) as D. pose proof (Z.mod_pos_bound p n ltac:(lia)) as M.
  rewrite <- H by nia. f_equal. nia.
Qed.
End Interleave.

(** ** Strided slices *)

Lemma stride_first c n len : 0 <= c -> 0 < n -> 0 <= len -> slice_first (Slice (Some c) None (Some n)) len = Z.min c len.
Proof.
  intros C N L.
  unfold slice_first, adjust_bound. cbn [slice_step sl_step sl_start]. destruct (Z.ltb_spec c 0); [lia |].
  destruct (Z.leb_spec len c); [| lia]. destruct (Z.ltb_spec n 0); lia.
Qed.

Lemma stride_count c n k : 0 <= c < n -> 0 <= k -> slice_count (Slice (Some c) None (Some n)) (n * k) = k.
Proof.
  intros C K. unfold slice_count. cbn [slice_step sl_step]. destruct (Z.ltb_spec n 0); [lia |].
  rewrite stride_first by nia.
  unfold slice_last. cbn [slice_step sl_step sl_stop]. destruct (Z.ltb_spec n 0); [lia |].
  destruct (Z.ltb_spec (Z.min c (n * k)) (n * k)).
  - assert (0 < k) by nia. replace (Z.min c (n * k)) with c by nia.
    replace (n * k - c - 1) with ((n - 1 - c) + (k - 1) * n) by lia. rewrite Z.div_add by lia.
    rewrite Z.div_small by lia. lia.
  - assert (k = 0) by nia. lia.
Qed.

Lemma stride_positions c n k : 0 <= c < n -> 0 <= k ->
  slice_positions (Slice (Some c) None (Some n)) (n * k) = map (fun t => t * n + c) (zseq 0 k).
Proof.
  intros C K. unfold slice_positions. rewrite stride_count by auto. cbn [slice_step sl_step].
  destruct (Z.eq_dec k 0) as [-> | ?]; [reflexivity |].
  apply map_ext_in. intros t _. rewrite stride_first by nia. nia.
Qed.

Lemma put_all_ok {A} ps : forall (v src : list A), zlen src = zlen ps -> NoDup ps -> Forall (fun p => 0 <= p < zlen v) ps ->
  exists v', put_all v ps src = Ok v' /\ zlen v' = zlen v
    /\ (forall i p, zth ps i = Some p -> zth v' p = zth src i)
    /\ (forall j, ~ In j ps -> zth v' j = zth v j).
Proof.
  induction ps as [| p ps IH]; intros v src L N F.
  - exists v. cbn. repeat split; auto. intros i p E. now rewrite zth_nil in E.
  - destruct src as [| x src]; [rewrite zlen_cons in L; pose proof (zlen_nonneg ps); rewrite zlen_nil in L; lia |].
    rewrite !zlen_cons in L. inversion N as [| ? ? Np Nt]; subst. inversion F as [| ? ? Fp Ft]; subst.
    cbn [put_all]. destruct (vput_ok v p x Fp) as (v1 & E1 & L1 & Z1). rewrite E1. cbn [bind].
    destruct (IH v1 src) as (v2 & E2 & L2 & Z2 & O2); auto; [lia | now rewrite L1 |].
    exists v2. split; [exact E2 |]. split; [lia |]. split.
    + intros i q. rewrite !zth_cons. destruct (Z.eqb_spec i 0).
      * intros E. injection E as <-. rewrite O2 by exact Np. rewrite Z1, Z.eqb_refl. reflexivity.
      * intros E. apply Z2. exact E.
    + intros j J. rewrite O2 by (intros I; apply J; now right). rewrite Z1. destruct (Z.eqb_spec j p); auto. subst. destruct J. now left.
Qed.

(** [v[c::n] = src] *)
Lemma stride_set {A} (v src : list A) c n k : 0 <= c < n -> 0 <= k -> zlen v = n * k -> zlen src = k ->
  exists v', vset_slice v (Slice (Some c) None (Some n)) src = Ok v' /\ zlen v' = zlen v
    /\ (forall t, 0 <= t < k -> zth v' (t * n + c) = zth src t)
    /\ (forall t d, 0 <= d < n -> d <> c -> zth v' (t * n + d) = zth v (t * n + d)).
Proof.
  intros C K V S. unfold vset_slice. rewrite V, stride_positions by auto.
  rewrite zlen_map, zlen_seq. replace (zlen src =? Z.max 0 k) with true by lia.
  destruct (put_all_ok (map (fun t => t * n + c) (zseq 0 k)) v src) as (v' & E & L & P & O).
  - rewrite zlen_map, zlen_seq. lia.
  - apply Injective_map_NoDup.
    + intros a b H. nia.
    + unfold zseq. apply Injective_map_NoDup; [intros a b; lia | apply seq_NoDup].
  - apply Forall_forall. intros p I. apply in_map_iff in I. destruct I as (t & <- & I).
    apply In_zth in I. destruct I as (i & I). rewrite zth_seq in I. destruct (_ && _) eqn:B in I; [| discriminate]. injection I as <-. nia.
  - exists v'. split; [exact E |]. split; [rewrite L; exact V |]. split.
    + intros t T. apply P. rewrite zth_map, zth_seq. replace (_ && _) with true by lia. reflexivity.
    + intros t d D Ne. apply O. intros I. apply in_map_iff in I. destruct I as (t' & I & _).
      assert (t = t') by nia. subst. lia.
Qed.

(** [v[c::n]] *)
Lemma stride_get {A} (v : list A) c n k : 0 <= c < n -> 0 <= k -> zlen v = n * k ->
  exists r, getslice v (Slice (Some c) None (Some n)) = Ok r /\ zlen r = k /\ forall t, 0 <= t < k -> zth r t = zth v (t * n + c).
Proof.
  intros C K V. destruct (getslice_ok v (Slice (Some c) None (Some n))) as (r & E & L & Z); [cbn; lia |].
  rewrite V, stride_count in L, Z by auto. exists r. split; [exact E |]. split; [exact L |].
  intros t T. rewrite Z. replace (_ && _) with true by lia. f_equal. cbn [slice_step sl_step].
  rewrite stride_first by nia. nia.
Qed.
