(** Proofs for C74: views, copies and programs *)

From Coq Require Import String ZArith List Bool Lia FinFun.
From Verif.Model Require Import Py Numpy Functions Signal Merge Concatenate Memory.
From Verif.Spec Require Import MemorySpec.
From Verif.Proofs Require Import PyFacts NumpyFacts.
Import ListNotations.
Open Scope Z_scope.

(** ** Slicing does not depend on what the elements are. *)

Section Natural.
Context {B C : Type}.
Variable f : B -> C.

Lemma pick_map {S T} (g : S -> T) l ps : pick (map g l) ps = map g (pick l ps).
Proof. induction ps as [| p ps IH]; [reflexivity |]. cbn [pick]. rewrite zth_map. destruct (zth l p); cbn; rewrite IH; reflexivity. Qed.

Lemma getslice_map {S T} (g : S -> T) l s : getslice (map g l) s = rmap (map g) (getslice l s).
Proof. unfold getslice. destruct (slice_step s =? 0); [reflexivity |]. cbn [rmap]. rewrite zlen_map, pick_map. reflexivity. Qed.

Lemma sequence_getslice l s : sequence (map (fun x => getslice x s) (map (map f) l)) = rmap (map (map f)) (sequence (map (fun x => getslice x s) l)).
Proof.
  induction l as [| r l IH]; [reflexivity |]. cbn [map sequence]. rewrite getslice_map. destruct (getslice r s); [| reflexivity]. cbn [rmap bind]. rewrite IH.
  destruct (sequence (map (fun x => getslice x s) l)); reflexivity.
Qed.

Lemma channels_slice_map (m : arr B) c t : channels_slice (ufunc1 f m) c t = rmap (ufunc1 f) (channels_slice m c t).
Proof.
  unfold channels_slice. cbn [rows cols ufunc1]. rewrite getslice_map. destruct (getslice (rows m) c) as [r | e]; [| reflexivity]. cbn [rmap bind].
  rewrite sequence_getslice. destruct (sequence (map (fun x => getslice x t) r)) as [r' | e]; [| reflexivity]. cbn [rmap bind].
  destruct (slice_step t =? 0); reflexivity.
Qed.

(** A signal with other samples and another sampling rate *)
Definition lift (x : C) (s : signal B) : signal C := Signal (ufunc1 f (channels s)) x (offset s) (labels s).

Lemma lift_mk x m r o l : lift x (mk_signal m r o l) = mk_signal (ufunc1 f m) x o l.
Proof. unfold lift, mk_signal. cbn. rewrite nrows_ufunc1. reflexivity. Qed.

Lemma getitem_lift x s k : signal_getitem (lift x s) k = rmap (lift x) (signal_getitem s k).
Proof.
  destruct k as [k1 | ks]; cbn [signal_getitem].
  - change (count (lift x s)) with (nrows (ufunc1 f (channels s))). rewrite nrows_ufunc1. change (nrows (channels s)) with (count s).
    destruct (key_to_slice k1 (count s)) as [c | e]; [| reflexivity]. cbn [bind]. change (channels (lift x s)) with (ufunc1 f (channels s)). rewrite channels_slice_map.
    destruct (channels_slice (channels s) c (Slice None None None)) as [m | e]; [| reflexivity]. cbn [rmap bind]. change (labels (lift x s)) with (labels s).
    destruct (getslice (labels s) c); [| reflexivity]. cbn [bind rmap]. rewrite lift_mk. reflexivity.
  - change (count (lift x s)) with (nrows (ufunc1 f (channels s))). rewrite nrows_ufunc1. change (nrows (channels s)) with (count s). change (length (lift x s)) with (length s).
    destruct (keys_to_slices ks [count s; length s]) as [sl | e]; [| reflexivity]. cbn [bind]. destruct (getitem sl 1) as [t | e]; [| reflexivity]. cbn [bind].
    destruct (getitem sl 0) as [c | e]; [| reflexivity]. cbn [bind]. change (channels (lift x s)) with (ufunc1 f (channels s)). rewrite channels_slice_map.
    destruct (channels_slice (channels s) c t) as [m | e]; [| reflexivity]. cbn [rmap bind]. change (labels (lift x s)) with (labels s). change (offset (lift x s)) with (offset s).
    destruct (getslice (labels s) c); [| reflexivity]. cbn [bind rmap]. rewrite lift_mk. reflexivity.
Qed.

Lemma reversed_lift x s : signal_reversed (lift x s) = rmap (lift x) (signal_reversed s).
Proof.
  unfold signal_reversed. change (channels (lift x s)) with (ufunc1 f (channels s)). rewrite channels_slice_map.
  destruct (channels_slice (channels s) (Slice None None None) (Slice None None (Some (-1)))) as [m | e]; [| reflexivity]. cbn [rmap bind]. rewrite lift_mk. reflexivity.
Qed.
End Natural.

(** ** The elements of slices are elements of the array. *)
Section Subsets.
Context {B : Type}.
Variable P : B -> Prop.

Lemma pick_Forall {T} (Q : T -> Prop) l ps : Forall Q l -> Forall Q (pick l ps).
Proof.
  intros H. induction ps as [| p ps IH]; [constructor |]. cbn [pick]. destruct (zth l p) as [a |] eqn:E; [| exact IH]. constructor; [| exact IH].
  unfold zth in E. destruct (p <? 0); [discriminate |]. apply nth_error_In in E. rewrite Forall_forall in H. exact (H a E).
Qed.

Lemma getslice_Forall {T} (Q : T -> Prop) l s r : Forall Q l -> getslice l s = Ok r -> Forall Q r.
Proof. unfold getslice. intros H E. destruct (slice_step s =? 0); [discriminate |]. injection E as <-. apply pick_Forall, H. Qed.

Lemma channels_slice_Forall (m m' : arr B) c t : Forall (Forall P) (rows m) -> channels_slice m c t = Ok m' -> Forall (Forall P) (rows m').
Proof.
  unfold channels_slice. intros H E. destruct (getslice (rows m) c) as [r | e] eqn:Er; [| discriminate]. cbn [bind] in E. pose proof (getslice_Forall _ _ _ _ H Er) as Hr. clear Er H.
  destruct (sequence (map (fun x => getslice x t) r)) as [r' | e] eqn:Es; [| discriminate]. cbn [bind] in E. destruct (slice_step t =? 0); [discriminate |]. injection E as <-. cbn [rows].
  revert r' Es. induction r as [| x r IH]; intros r' E; [injection E as <-; constructor |]. cbn [map sequence] in E. destruct (getslice x t) as [y | e] eqn:Ey; [| discriminate].
  cbn [bind] in E. destruct (sequence (map (fun x => getslice x t) r)) as [z | e]; [| discriminate]. injection E as <-.
  constructor; [exact (getslice_Forall _ _ _ _ (Forall_inv Hr) Ey) | exact (IH (Forall_inv_tail Hr) _ eq_refl)].
Qed.

Lemma getitem_Forall (s s' : signal B) k : Forall (Forall P) (rows (channels s)) -> signal_getitem s k = Ok s' -> Forall (Forall P) (rows (channels s')).
Proof.
  intros H E. destruct k as [k1 | ks]; cbn [signal_getitem] in E.
  - destruct (key_to_slice k1 (count s)) as [c | e]; [| discriminate]. cbn [bind] in E.
    destruct (channels_slice (channels s) c (Slice None None None)) as [m | e] eqn:Em; [| discriminate]. cbn [bind] in E.
    destruct (getslice (labels s) c); [| discriminate]. injection E as <-. exact (channels_slice_Forall _ _ _ _ H Em).
  - destruct (keys_to_slices ks [count s; length s]) as [sl | e]; [| discriminate]. cbn [bind] in E. destruct (getitem sl 1) as [t | e]; [| discriminate]. cbn [bind] in E.
    destruct (getitem sl 0) as [c | e]; [| discriminate]. cbn [bind] in E.
    destruct (channels_slice (channels s) c t) as [m | e] eqn:Em; [| discriminate]. cbn [bind] in E.
    destruct (getslice (labels s) c); [| discriminate]. injection E as <-. exact (channels_slice_Forall _ _ _ _ H Em).
Qed.

Lemma reversed_Forall (s s' : signal B) : Forall (Forall P) (rows (channels s)) -> signal_reversed s = Ok s' -> Forall (Forall P) (rows (channels s')).
Proof.
  unfold signal_reversed. intros H E. destruct (channels_slice (channels s) (Slice None None None) (Slice None None (Some (-1)))) as [m | e] eqn:Em; [| discriminate].
  injection E as <-. exact (channels_slice_Forall _ _ _ _ H Em).
Qed.
End Subsets.

(** ** Writing *)
Section Writing.
Context {A : Type}.

Lemma write_other addresses : forall (c : Z -> A) xs a, ~ In a addresses -> write c addresses xs a = c a.
Proof.
  induction addresses as [| b l IH]; intros c xs a H; [reflexivity |]. destruct xs as [| x xs]; [reflexivity |].
  unfold write. cbn [combine fold_left]. change (write (poke c (b, x)) l xs a = c a). rewrite IH by (intros I; apply H; right; exact I).
  unfold poke. cbn [fst snd]. destruct (Z.eqb_spec a b) as [-> |]; [| reflexivity]. exfalso. apply H. left. reflexivity.
Qed.

Lemma write_same addresses : forall (c : Z -> A) xs, NoDup addresses -> zlen addresses = zlen xs -> map (write c addresses xs) addresses = xs.
Proof.
  induction addresses as [| b l IH]; intros c xs D L.
  - rewrite zlen_nil in L. symmetry in L. apply zlen_zero in L. subst xs. reflexivity.
  - destruct xs as [| x xs]; [rewrite zlen_cons, zlen_nil in L; pose proof (zlen_nonneg l); lia |]. rewrite !zlen_cons in L. inversion D as [| ? ? N D']; subst.
    assert (E : forall a, write c (b :: l) (x :: xs) a = write (poke c (b, x)) l xs a) by reflexivity.
    cbn [map]. rewrite E, (write_other l _ _ _ N). f_equal; [unfold poke; cbn [fst snd]; rewrite Z.eqb_refl; reflexivity |].
    rewrite (map_ext _ _ E). apply IH; [exact D' | lia].
Qed.

Lemma concat_numbered {B} (l : list (list B)) : forall n, concat (numbered n l) = zseq n (zlen (concat l)).
Proof.
  induction l as [| r l IH]; intros n; [reflexivity |]. cbn [numbered concat]. rewrite IH, zlen_app. unfold zseq.
  rewrite Z2Nat.inj_add by apply zlen_nonneg. rewrite seq_app, map_app. f_equal. replace (0 + Z.to_nat (zlen r))%nat with (Z.to_nat (zlen r) + 0)%nat by lia.
  set (k := Z.to_nat (zlen (concat l))). pose proof (zlen_nonneg r) as Hr. clear IH. generalize 0%nat at 1 2. induction k as [| k IH]; intros z; [reflexivity |]. cbn [seq map].
  f_equal; [lia |]. replace (S (Z.to_nat (zlen r) + z)) with (Z.to_nat (zlen r) + S z)%nat by lia. apply IH.
Qed.

Lemma app_split {T} (a : list T) : forall a' b b', a ++ b = a' ++ b' -> List.length a = List.length a' -> a = a' /\ b = b'.
Proof.
  induction a as [| x a IH]; intros [| y a'] b b' E L; try discriminate L; [split; [reflexivity | exact E] |].
  cbn [app] in E. injection E as -> E. destruct (IH a' b b' E) as [-> ->]; [injection L as L; exact L | split; reflexivity].
Qed.

Lemma numbered_shape {B} (l : list (list B)) : forall n (g : Z -> B), map g (concat (numbered n l)) = concat l -> map (map g) (numbered n l) = l.
Proof.
  induction l as [| r l IH]; intros n g E; [reflexivity |]. cbn [numbered concat map] in *. rewrite map_app in E.
  destruct (app_split _ _ _ _ E) as [E1 E2]; [unfold zseq; rewrite !map_length, seq_length; unfold zlen; lia |].
  rewrite E1. f_equal. apply IH, E2.
Qed.

Lemma NoDup_zseq n k : NoDup (zseq n k).
Proof. unfold zseq. apply Injective_map_NoDup; [intros a b; lia | apply seq_NoDup]. Qed.

Lemma zseq_range n k a : In a (zseq n k) -> n <= a < n + k.
Proof. unfold zseq. rewrite in_map_iff. intros (i & <- & H). apply in_seq in H. lia. Qed.

Lemma numbered_range {B} n (l : list (list B)) r a : In r (numbered n l) -> In a r -> n <= a < n + zlen (concat (numbered n l)).
Proof.
  intros H I. assert (J : In a (concat (numbered n l))) by (apply in_concat; exists r; split; assumption).
  rewrite concat_numbered in J |- *. apply zseq_range in J. rewrite zlen_seq. lia.
Qed.

(** What is stored can be read, ... *)
Lemma store_values (m : memory A) s m' x : store m s = (m', x) -> values m' x = s.
Proof.
  unfold store. intros E. injection E as <- <-. unfold values. cbn [cells locations rate_of offset_of labels_of]. destruct s as [[rs cs] r o l]. cbn [channels rows cols sampling_rate offset labels].
  unfold ufunc1. cbn [rows cols]. f_equal. f_equal. apply numbered_shape. apply write_same; rewrite concat_numbered; [apply NoDup_zseq | rewrite zlen_seq; pose proof (zlen_nonneg (concat rs)); lia].
Qed.

(** ... and nothing else changes. *)
Lemma store_other (m : memory A) s m' x : store m s = (m', x) -> next m <= next m' /\ (forall a, a < next m -> cells m' a = cells m a) /\ placed m' x /\
  Forall (Forall (fun a => next m <= a)) (rows (locations x)).
Proof.
  unfold store. intros E. injection E as <- <-. cbn [cells next locations rows]. split; [pose proof (zlen_nonneg (concat (numbered (next m) (rows (channels s))))); lia |]. split; [| split].
  - intros a H. apply write_other. rewrite concat_numbered. intros I. apply zseq_range in I. lia.
  - apply Forall_forall. intros r Hr. apply Forall_forall. intros a Ha. cbn [next]. apply (numbered_range _ _ _ _ Hr Ha).
  - apply Forall_forall. intros r Hr. apply Forall_forall. intros a Ha. apply (numbered_range _ _ _ _ Hr Ha).
Qed.

(** Signals are the same in memories, that agree where the signals are. *)
Lemma values_ext (m m' : memory A) x : Forall (Forall (fun a => cells m' a = cells m a)) (rows (locations x)) -> values m' x = values m x.
Proof.
  intros H. unfold values, ufunc1. f_equal. f_equal. apply map_ext_in. intros r Hr. apply map_ext_in. intros a Ha. rewrite Forall_forall in H. specialize (H r Hr).
  rewrite Forall_forall in H. exact (H a Ha).
Qed.

Lemma values_kept (m m' : memory A) x : (forall a, a < next m -> cells m' a = cells m a) -> placed m x -> values m' x = values m x.
Proof. intros H P. apply values_ext. eapply Forall_impl; [| exact P]. intros r. apply Forall_impl. exact H. Qed.

Lemma placed_later (m m' : memory A) x : next m <= next m' -> placed m x -> placed m' x.
Proof. intros H. unfold placed. apply Forall_impl. intros r. apply Forall_impl. intros a. lia. Qed.
End Writing.

(** ** Programs *)
Section Programs.
Context {A : Type}.
Variable O : ops A.
Variable junk : Z -> Z -> A.

Lemma fetch_map {B C} (f : B -> C) env i : fetch (map f env) i = rmap f (fetch env i).
Proof. unfold fetch. rewrite zth_map. destruct (zth env i); reflexivity. Qed.

Lemma fetch_all_map {B C} (f : B -> C) env l : fetch_all (map f env) l = rmap (map f) (fetch_all env l).
Proof.
  unfold fetch_all. induction l as [| i l IH]; [reflexivity |]. cbn [map sequence]. rewrite fetch_map. destruct (fetch env i); [| reflexivity]. cbn [rmap bind]. rewrite IH.
  destruct (sequence (map (fetch env) l)); reflexivity.
Qed.

Lemma fetch_Forall {B} (P : B -> Prop) env i x : Forall P env -> fetch env i = Ok x -> P x.
Proof.
  unfold fetch, zth. intros H E. destruct (i <? 0); [discriminate |]. destruct (nth_error env (Z.to_nat i)) as [y |] eqn:N; [| discriminate]. injection E as <-.
  rewrite Forall_forall in H. apply H. exact (nth_error_In _ _ N).
Qed.

Lemma fetch_all_Forall {B} (P : B -> Prop) env l : Forall P env -> forall xs, fetch_all env l = Ok xs -> Forall P xs.
Proof.
  unfold fetch_all. intros H. induction l as [| i l IH]; intros xs E; [injection E as <-; constructor |]. cbn [map sequence] in E.
  destruct (fetch env i) as [x | e] eqn:F; [| discriminate]. cbn [bind] in E. destruct (sequence (map (fetch env) l)) as [y | e]; [| discriminate]. injection E as <-.
  constructor; [exact (fetch_Forall P env i x H F) | exact (IH _ eq_refl)].
Qed.

Lemma fetch_all_len {B} (env : list B) l : forall xs, fetch_all env l = Ok xs -> zlen xs = zlen l.
Proof.
  unfold fetch_all. induction l as [| i l IH]; intros xs E; [injection E as <-; reflexivity |]. cbn [map sequence] in E.
  destruct (fetch env i) as [x | e] eqn:F; [| discriminate]. cbn [bind] in E. destruct (sequence (map (fetch env) l)) as [y | e]; [| discriminate]. injection E as <-.
  rewrite !zlen_cons, (IH _ eq_refl). reflexivity.
Qed.

(** What is guaranteed by one action *)
Definition sound (m : memory A) (r : result (memory A * object A)) (v : result (signal A)) : Prop :=
  match r with
  | Ok (m', x) => v = Ok (values m' x) /\ next m <= next m' /\ (forall a, a < next m -> cells m' a = cells m a) /\ placed m' x
  | Err e => v = Err e
  end.

Lemma sound_new m r : sound m (new m r) r.
Proof.
  destruct r as [s | e]; [| reflexivity]. unfold new. cbn [rmap]. destruct (store m s) as [m' x] eqn:E. cbn [sound].
  destruct (store_other m s m' x E) as (H1 & H2 & H3 & _). rewrite (store_values m s m' x E). repeat split; assumption.
Qed.

Lemma sound_same m x : placed m x -> sound m (Ok (m, x)) (Ok (values m x)).
Proof. intros H. cbn. repeat split; [apply Z.le_refl | exact H]. Qed.

Lemma sound_view m x s : Forall (Forall (fun a => a < next m)) (rows (channels s)) -> sound m (Ok (m, view x s)) (Ok (lift (cells m) (rate_of x) s)).
Proof. intros H. cbn. repeat split; [apply Z.le_refl | exact H]. Qed.

Lemma values_lift (m : memory A) x : values m x = lift (cells m) (rate_of x) (frame x).
Proof. reflexivity. Qed.

Lemma perform_sound m env a : Forall (placed m) env -> sound m (perform O junk m env a) (evaluate O junk (map (values m) env) a).
Proof.
  intros P. destruct a as [i k | i | i shift mode | i len v | i | i | p i j | p i y | p x j | mode l | l | f l]; cbn [perform evaluate]; rewrite ?fetch_map, ?fetch_all_map;
    try (destruct (fetch env i) as [x | e] eqn:F; [| reflexivity]; pose proof (fetch_Forall _ _ _ _ P F) as Px; cbn [rmap bind]).
  - rewrite values_lift, getitem_lift. destruct (signal_getitem (frame x) k) as [s | e] eqn:E; [| reflexivity]. cbn [rmap bind]. apply sound_view.
    exact (getitem_Forall _ (frame x) s k Px E).
  - rewrite values_lift, reversed_lift. destruct (signal_reversed (frame x)) as [s | e] eqn:E; [| reflexivity]. cbn [rmap bind]. apply sound_view.
    exact (reversed_Forall _ (frame x) s Px E).
  - assert (V : forall o, sound m (Ok (m, view x (mk_signal (locations x) 0 o (Some (labels_of x)))))
      (Ok (mk_signal (channels (values m x)) (sampling_rate (values m x)) o (Some (labels (values m x)))))).
    { intros o. change (channels (values m x)) with (ufunc1 (cells m) (locations x)). rewrite <- (lift_mk (cells m) (sampling_rate (values m x)) (locations x) 0). apply sound_view. exact Px. }
    destruct shift as [[| q | q] |]; destruct mode; cbn [signal_shift]; try (apply sound_same, Px); try apply V; apply sound_new.
  - unfold signal_pad at 2. change (length (values m x)) with (cols (locations x)). destruct (len =? cols (locations x)) eqn:E; [apply sound_same, Px |].
    pose proof (sound_new m (signal_pad junk (values m x) len v)) as H. unfold signal_pad at 2 in H. change (length (values m x)) with (cols (locations x)) in H. rewrite E in H. exact H.
  - apply sound_new.
  - apply sound_new.
  - destruct (fetch env j) as [y | e]; [| reflexivity]. apply sound_new.
  - apply sound_new.
  - destruct (fetch env j) as [y | e]; [| reflexivity]. apply sound_new.
  - destruct (fetch_all env l) as [xs | e] eqn:F; [| reflexivity]. pose proof (fetch_all_Forall _ _ _ P _ F) as Px. cbn [rmap bind].
    destruct xs as [| x [| y xs]]; [apply sound_new | apply sound_same; exact (Forall_inv Px) | apply sound_new].
  - destruct (fetch_all env l) as [xs | e] eqn:F; [| reflexivity]. pose proof (fetch_all_Forall _ _ _ P _ F) as Px. cbn [rmap bind].
    destruct xs as [| x [| y xs]]; [apply sound_new | apply sound_same; exact (Forall_inv Px) | apply sound_new].
  - destruct (fetch_all env l) as [xs | e] eqn:F; [| reflexivity]. apply sound_new.
Qed.

Theorem run_sound program : forall m env, Forall (placed m) env ->
  match run O junk m env program with
  | Ok (m', env') => run_values O junk (map (values m) env) program = Ok (map (values m') env') /\
      (exists new, env' = env ++ new) /\ map (values m') env = map (values m) env /\ Forall (placed m') env'
  | Err e => run_values O junk (map (values m) env) program = Err e
  end.
Proof.
  induction program as [| a program IH]; intros m env P.
  - cbn [run run_values]. split; [reflexivity |]. split; [exists []; rewrite app_nil_r; reflexivity |]. split; [reflexivity | exact P].
  - cbn [run run_values]. pose proof (perform_sound m env a P) as S. destruct (perform O junk m env a) as [[m1 x] | e]; cbn [sound] in S.
    + destruct S as (E & H1 & H2 & H3). rewrite E. cbn [bind fst snd].
      assert (K : map (values m1) env = map (values m) env) by (apply map_ext_in; intros y I; apply values_kept; [exact H2 | rewrite Forall_forall in P; exact (P y I)]).
      assert (P1 : Forall (placed m1) (env ++ [x])).
      { apply Forall_app. split; [| constructor; [exact H3 | constructor]]. eapply Forall_impl; [| exact P]. intros y. apply placed_later, H1. }
      specialize (IH m1 (env ++ [x]) P1). rewrite map_app, K in IH. cbn [map] in IH. destruct (run O junk m1 (env ++ [x]) program) as [[m' env'] | e]; [| exact IH].
      destruct IH as (I1 & (new & I2) & I3 & I4). split; [exact I1 |]. split; [exists (x :: new); rewrite I2, <- app_assoc; reflexivity |]. split; [| exact I4].
      rewrite map_app in I3. cbn [map] in I3. apply app_inj_tail in I3. exact (proj1 I3).
    + rewrite S. reflexivity.
Qed.

(** ** Copies and views *)

Lemma new_apart m (r : result (signal A)) m' x : new m r = Ok (m', x) -> Forall (Forall (fun a => next m <= a)) (rows (locations x)).
Proof. destruct r as [s | e]; [| discriminate]. unfold new. cbn [rmap]. intros E. assert (E2 : store m s = (m', x)) by congruence. exact (proj2 (proj2 (proj2 (store_other m s m' x E2)))). Qed.

Lemma copies_apart m env a m' x : copies env a -> perform O junk m env a = Ok (m', x) -> Forall (Forall (fun a => next m <= a)) (rows (locations x)).
Proof.
  intros C E. destruct a as [i k | i | i shift mode | i len v | i | i | p i j | p i y | p y j | mode l | l | f l]; cbn [copies] in C; try contradiction; cbn [perform] in E;
    try (destruct (fetch env i) as [o | e] eqn:F; [| discriminate]; cbn [bind] in E); try exact (new_apart _ _ _ _ E).
  - destruct C as [C1 C2]. destruct shift as [[| q | q] |]; destruct mode; try contradiction; exact (new_apart _ _ _ _ E).
  - assert (N : cols (locations o) <> len) by (apply C; unfold fetch in F; destruct (zth env i); [injection F as ->; reflexivity | discriminate]).
    destruct (Z.eqb_spec len (cols (locations o))); [congruence |]. exact (new_apart _ _ _ _ E).
  - destruct (fetch env j); [| discriminate]. exact (new_apart _ _ _ _ E).
  - destruct (fetch env j); [| discriminate]. exact (new_apart _ _ _ _ E).
  - destruct (fetch_all env l) as [xs | e] eqn:F; [| discriminate]. cbn [bind] in E. apply fetch_all_len in F.
    destruct xs as [| y [| z xs]]; try exact (new_apart _ _ _ _ E). rewrite zlen_cons, zlen_nil in F. lia.
  - destruct (fetch_all env l) as [xs | e] eqn:F; [| discriminate]. cbn [bind] in E. apply fetch_all_len in F.
    destruct xs as [| y [| z xs]]; try exact (new_apart _ _ _ _ E). rewrite zlen_cons, zlen_nil in F. lia.
  - destruct (fetch_all env l) as [xs | e] eqn:F; [| discriminate]. exact (new_apart _ _ _ _ E).
Qed.

(** The address, to which is written *)
Lemma assign_address (Q : Z -> Prop) m x c t (v : A) m' : Forall (Forall Q) (rows (locations x)) -> assign m x c t v = Ok m' ->
  exists a, Q a /\ m' = Memory (poke (cells m) (a, v)) (next m).
Proof.
  intros H E. unfold assign, getitem in E. destruct (zth (rows (locations x)) (if c <? 0 then c + zlen (rows (locations x)) else c)) as [r |] eqn:Er; [| discriminate]. cbn [bind] in E.
  destruct (zth r (if t <? 0 then t + zlen r else t)) as [a |] eqn:Ea; [| discriminate]. injection E as <-. exists a. split; [| reflexivity].
  unfold zth in Er, Ea. destruct ((if c <? 0 then _ else c) <? 0); [discriminate |]. destruct ((if t <? 0 then _ else t) <? 0); [discriminate |].
  apply nth_error_In in Er, Ea. rewrite Forall_forall in H. specialize (H r Er). rewrite Forall_forall in H. exact (H a Ea).
Qed.

Lemma assign_unrelated (P : Z -> Prop) m x y c t (v : A) m' : Forall (Forall P) (rows (locations x)) -> Forall (Forall (fun a => ~ P a)) (rows (locations y)) ->
  assign m x c t v = Ok m' -> values m' y = values m y.
Proof.
  intros H N E. destruct (assign_address P m x c t v m' H E) as (a & Ha & ->). apply values_ext. eapply Forall_impl; [| exact N]. intros r. apply Forall_impl. intros b Hb. cbn [cells].
  unfold poke. cbn [fst snd]. destruct (Z.eqb_spec b a); [congruence | reflexivity].
Qed.

Theorem copy_independent m env a m' x : Forall (placed m) env -> copies env a -> perform O junk m env a = Ok (m', x) ->
  forall y, In y env -> forall c t v m'',
    (assign m' x c t v = Ok m'' -> values m'' y = values m' y) /\ (assign m' y c t v = Ok m'' -> values m'' x = values m' x).
Proof.
  intros P C E y I c t v m''. pose proof (copies_apart m env a m' x C E) as H. rewrite Forall_forall in P. specialize (P y I). unfold placed in P. split; intros As.
  - apply (assign_unrelated (fun a => next m <= a) m' x y c t v m'' H); [| exact As]. eapply Forall_impl; [| exact P]. intros r. apply Forall_impl. intros b. lia.
  - apply (assign_unrelated (fun a => a < next m) m' y x c t v m'' P); [| exact As]. eapply Forall_impl; [| exact H]. intros r. apply Forall_impl. intros b. lia.
Qed.

Theorem view_consistent m env a m' x : perform O junk m env a = Ok (m', x) -> forall i, views env a i -> forall y, zth env i = Some y ->
  m' = m /\ forall later, evaluate O junk (map (values later) env) a = Ok (values later x).
Proof.
  intros E i V y Y. destruct a as [j k | j | j shift mode | j len v | | | | | | mode l | l |]; cbn [views] in V; try contradiction; cbn [perform] in E.
  - subst j. unfold fetch in E. rewrite Y in E. cbn [bind] in E. destruct (signal_getitem (frame y) k) as [s | e] eqn:S; [| discriminate]. injection E as <- <-. split; [reflexivity |].
    intros later. cbn [evaluate]. rewrite fetch_map. unfold fetch. rewrite Y. cbn [rmap bind]. rewrite values_lift, getitem_lift, S. reflexivity.
  - subst j. unfold fetch in E. rewrite Y in E. cbn [bind] in E. destruct (signal_reversed (frame y)) as [s | e] eqn:S; [| discriminate]. injection E as <- <-. split; [reflexivity |].
    intros later. cbn [evaluate]. rewrite fetch_map. unfold fetch. rewrite Y. cbn [rmap bind]. rewrite values_lift, reversed_lift, S. reflexivity.
  - destruct V as [-> V]. unfold fetch in E. rewrite Y in E. cbn [bind] in E. cbn [evaluate].
    assert (W : forall o later, Ok (mk_signal (channels (values later y)) (sampling_rate (values later y)) o (Some (labels (values later y)))) =
      Ok (values later (view y (mk_signal (locations y) 0 o (Some (labels_of y)))))).
    { intros o later. change (channels (values later y)) with (ufunc1 (cells later) (locations y)). rewrite <- (lift_mk (cells later) (sampling_rate (values later y)) (locations y) 0). reflexivity. }
    destruct shift as [[| q | q] |]; destruct mode; try (destruct V; discriminate); injection E as <- <-; (split; [reflexivity |]); intros later;
      rewrite fetch_map; unfold fetch; rewrite Y; cbn [rmap bind signal_shift]; try reflexivity; apply W.
  - destruct V as [-> V]. unfold fetch in E. rewrite Y in E. cbn [bind] in E. rewrite (V y Y), Z.eqb_refl in E. injection E as <- <-. split; [reflexivity |].
    intros later. cbn [evaluate]. rewrite fetch_map. unfold fetch. rewrite Y. cbn [rmap bind]. unfold signal_pad. change (length (values later y)) with (cols (locations y)).
    rewrite (V y Y), Z.eqb_refl. reflexivity.
  - subst l. unfold fetch_all, fetch in E. cbn [map sequence] in E. rewrite Y in E. cbn [bind] in E. injection E as <- <-. split; [reflexivity |].
    intros later. cbn [evaluate]. rewrite fetch_all_map. unfold fetch_all, fetch. cbn [map sequence]. rewrite Y. reflexivity.
  - subst l. unfold fetch_all, fetch in E. cbn [map sequence] in E. rewrite Y in E. cbn [bind] in E. injection E as <- <-. split; [reflexivity |].
    intros later. cbn [evaluate]. rewrite fetch_all_map. unfold fetch_all, fetch. cbn [map sequence]. rewrite Y. reflexivity.
Qed.

End Programs.
