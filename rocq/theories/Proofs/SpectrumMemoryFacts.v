(** Proofs for C74: views, copies and programs with spectrums *)

From Coq Require Import String ZArith List Bool Lia.
From Verif.Model Require Import Py Numpy Functions Signal Spectrum Merge Memory SpectrumMemory.
From Verif.Spec Require Import MemorySpec SpectrumMemorySpec.
From Verif.Proofs Require Import PyFacts NumpyFacts MemoryFacts.
Import ListNotations.
Open Scope Z_scope.

Section Slices.
Context {B C R : Type}.
Variable f : B -> C.

Definition sp_lift (s : spectrum B R) : spectrum C R := Spectrum (ufunc1 f (sp_channels s)) (resolution s) (sp_labels s).

Lemma sp_lift_mk m r l : sp_lift (mk_spectrum m r l) = mk_spectrum (ufunc1 f m) r l.
Proof. unfold sp_lift, mk_spectrum. cbn [sp_channels resolution sp_labels]. rewrite nrows_ufunc1. reflexivity. Qed.

Lemma sp_getitem_lift s k : spectrum_getitem (sp_lift s) k = rmap sp_lift (spectrum_getitem s k).
Proof.
  destruct k as [k1 | ks]; cbn [spectrum_getitem]; change (sp_count (sp_lift s)) with (nrows (ufunc1 f (sp_channels s))); rewrite nrows_ufunc1;
    change (nrows (sp_channels s)) with (sp_count s); change (sp_length (sp_lift s)) with (sp_length s); change (sp_channels (sp_lift s)) with (ufunc1 f (sp_channels s));
    change (sp_labels (sp_lift s)) with (sp_labels s); change (resolution (sp_lift s)) with (resolution s).
  - destruct (key_to_slice k1 (sp_count s)) as [c | e]; [| reflexivity]. cbn [bind]. rewrite channels_slice_map.
    destruct (channels_slice (sp_channels s) c (Slice None None None)) as [m | e]; [| reflexivity]. cbn [rmap bind].
    destruct (getslice (sp_labels s) c); [| reflexivity]. cbn [bind rmap]. rewrite sp_lift_mk. reflexivity.
  - destruct (keys_to_slices ks [sp_count s; sp_length s]) as [sl | e]; [| reflexivity]. cbn [bind].
    destruct (getitem sl 0) as [c | e]; [| reflexivity]. cbn [bind]. rewrite channels_slice_map.
    destruct (channels_slice (sp_channels s) c _) as [m | e]; [| reflexivity]. cbn [rmap bind].
    destruct (getslice (sp_labels s) c); [| reflexivity]. cbn [bind rmap]. rewrite sp_lift_mk. reflexivity.
Qed.

Lemma sp_getitem_Forall (P : B -> Prop) (s s' : spectrum B R) k : Forall (Forall P) (rows (sp_channels s)) -> spectrum_getitem s k = Ok s' -> Forall (Forall P) (rows (sp_channels s')).
Proof.
  intros H E. destruct k as [k1 | ks]; cbn [spectrum_getitem] in E.
  - destruct (key_to_slice k1 (sp_count s)) as [c | e]; [| discriminate]. cbn [bind] in E.
    destruct (channels_slice (sp_channels s) c (Slice None None None)) as [m | e] eqn:Em; [| discriminate]. cbn [bind] in E.
    destruct (getslice (sp_labels s) c); [| discriminate]. injection E as <-. exact (channels_slice_Forall _ _ _ _ _ H Em).
  - destruct (keys_to_slices ks [sp_count s; sp_length s]) as [sl | e]; [| discriminate]. cbn [bind] in E.
    destruct (getitem sl 0) as [c | e]; [| discriminate]. cbn [bind] in E.
    destruct (channels_slice (sp_channels s) c _) as [m | e] eqn:Em; [| discriminate]. cbn [bind] in E.
    destruct (getslice (sp_labels s) c); [| discriminate]. injection E as <-. exact (channels_slice_Forall _ _ _ _ _ H Em).
Qed.
End Slices.

Section Programs.
Context {A R : Type}.
Variable O : ops A.
Variable conj : A -> A.
Variable junk : Z -> Z -> A.
Notation object := (spectrum_object R).

Lemma sp_store_values (m : memory A) (s : spectrum A R) m' (x : object) : sp_store m s = (m', x) -> sp_values m' x = s.
Proof.
  unfold sp_store. intros E. injection E as <- <-. unfold sp_values. cbn [cells sp_locations sp_resolution_of sp_labels_of]. destruct s as [[rs cs] r l]. cbn [sp_channels rows cols resolution sp_labels].
  unfold ufunc1. cbn [rows cols]. f_equal. f_equal. apply numbered_shape. apply write_same; rewrite concat_numbered; [apply NoDup_zseq | rewrite zlen_seq; pose proof (zlen_nonneg (concat rs)); lia].
Qed.

Lemma sp_store_other (m : memory A) (s : spectrum A R) m' (x : object) : sp_store m s = (m', x) -> next m <= next m' /\ (forall a, a < next m -> cells m' a = cells m a) /\ sp_placed m' x /\
  Forall (Forall (fun a => next m <= a)) (rows (sp_locations x)).
Proof.
  unfold sp_store. intros E. injection E as <- <-. cbn [cells next sp_locations rows]. split; [pose proof (zlen_nonneg (concat (numbered (next m) (rows (sp_channels s))))); lia |]. split; [| split].
  - intros a H. apply write_other. rewrite concat_numbered. intros I. apply zseq_range in I. lia.
  - apply Forall_forall. intros r Hr. apply Forall_forall. intros a Ha. cbn [next]. apply (numbered_range _ _ _ _ Hr Ha).
  - apply Forall_forall. intros r Hr. apply Forall_forall. intros a Ha. apply (numbered_range _ _ _ _ Hr Ha).
Qed.

Lemma sp_values_ext (m m' : memory A) (x : object) : Forall (Forall (fun a => cells m' a = cells m a)) (rows (sp_locations x)) -> sp_values m' x = sp_values m x.
Proof.
  intros H. unfold sp_values, ufunc1. f_equal. f_equal. apply map_ext_in. intros r Hr. apply map_ext_in. intros a Ha. rewrite Forall_forall in H. specialize (H r Hr).
  rewrite Forall_forall in H. exact (H a Ha).
Qed.

Lemma sp_values_kept (m m' : memory A) (x : object) : (forall a, a < next m -> cells m' a = cells m a) -> sp_placed m x -> sp_values m' x = sp_values m x.
Proof. intros H P. apply sp_values_ext. eapply Forall_impl; [| exact P]. intros r. apply Forall_impl. exact H. Qed.

Lemma sp_placed_later (m m' : memory A) (x : object) : next m <= next m' -> sp_placed m x -> sp_placed m' x.
Proof. intros H. unfold sp_placed. apply Forall_impl. intros r. apply Forall_impl. intros a. lia. Qed.

Definition sp_sound (m : memory A) (r : result (memory A * object)) (v : result (spectrum A R)) : Prop :=
  match r with
  | Ok (m', x) => v = Ok (sp_values m' x) /\ next m <= next m' /\ (forall a, a < next m -> cells m' a = cells m a) /\ sp_placed m' x
  | Err e => v = Err e
  end.

Lemma sp_sound_new m r : sp_sound m (sp_new m r) r.
Proof.
  destruct r as [s | e]; [| reflexivity]. unfold sp_new. cbn [rmap]. destruct (sp_store m s) as [m' x] eqn:E. cbn [sp_sound].
  destruct (sp_store_other m s m' x E) as (H1 & H2 & H3 & _). rewrite (sp_store_values m s m' x E). repeat split; assumption.
Qed.

Lemma sp_sound_same m x : sp_placed m x -> sp_sound m (Ok (m, x)) (Ok (sp_values m x)).
Proof. intros H. cbn. repeat split; [apply Z.le_refl | exact H]. Qed.

Lemma sp_values_lift (m : memory A) (x : object) : sp_values m x = sp_lift (cells m) (sp_frame x).
Proof. reflexivity. Qed.

Lemma sp_perform_sound m env a : Forall (sp_placed m) env -> sp_sound m (sp_perform O conj junk m env a) (sp_evaluate O conj junk (map (sp_values m) env) a).
Proof.
  intros P. destruct a as [i k | i len v | i | i | i | i | p i j | p i y | p x j | mode l | f l]; cbn [sp_perform sp_evaluate]; rewrite ?fetch_map, ?fetch_all_map;
    try (destruct (fetch env i) as [x | e] eqn:F; [| reflexivity]; pose proof (fetch_Forall _ _ _ _ P F) as Px; cbn [rmap bind]); try apply sp_sound_new.
  - rewrite sp_values_lift, sp_getitem_lift. destruct (spectrum_getitem (sp_frame x) k) as [s | e] eqn:E; [| reflexivity]. cbn [rmap bind sp_sound].
    split; [reflexivity |]. split; [apply Z.le_refl |]. split; [reflexivity |]. exact (sp_getitem_Forall _ (sp_frame x) s k Px E).
  - unfold spectrum_pad at 2. change (sp_length (sp_values m x)) with (cols (sp_locations x)). destruct (len =? cols (sp_locations x)) eqn:E; [apply sp_sound_same, Px |].
    pose proof (sp_sound_new m (spectrum_pad junk (sp_values m x) len v)) as H. unfold spectrum_pad at 2 in H. change (sp_length (sp_values m x)) with (cols (sp_locations x)) in H. rewrite E in H. exact H.
  - destruct (fetch env j) as [y | e]; [| reflexivity]. apply sp_sound_new.
  - destruct (fetch env j) as [y | e]; [| reflexivity]. apply sp_sound_new.
  - destruct (fetch_all env l) as [xs | e] eqn:F; [| reflexivity]. pose proof (fetch_all_Forall _ _ _ P _ F) as Px. cbn [rmap bind].
    destruct xs as [| x [| y xs]]; [apply sp_sound_new | apply sp_sound_same; exact (Forall_inv Px) | apply sp_sound_new].
  - destruct (fetch_all env l) as [xs | e] eqn:F; [| reflexivity]. apply sp_sound_new.
Qed.

Theorem sp_run_sound (program : list (spectrum_action A R)) : forall m (env : list object), Forall (sp_placed m) env ->
  match sp_run O conj junk m env program with
  | Ok (m', env') => sp_run_values O conj junk (map (sp_values m) env) program = Ok (map (sp_values m') env') /\
      (exists new, env' = env ++ new) /\ map (sp_values m') env = map (sp_values m) env /\ Forall (sp_placed m') env'
  | Err e => sp_run_values O conj junk (map (sp_values m) env) program = Err e
  end.
Proof.
  induction program as [| a program IH]; intros m env P.
  - cbn [sp_run sp_run_values]. split; [reflexivity |]. split; [exists []; rewrite app_nil_r; reflexivity |]. split; [reflexivity | exact P].
  - cbn [sp_run sp_run_values]. pose proof (sp_perform_sound m env a P) as S. destruct (sp_perform O conj junk m env a) as [[m1 x] | e]; cbn [sp_sound] in S.
    + destruct S as (E & H1 & H2 & H3). rewrite E. cbn [bind fst snd].
      assert (K : map (sp_values m1) env = map (sp_values m) env) by (apply map_ext_in; intros y I; apply sp_values_kept; [exact H2 | rewrite Forall_forall in P; exact (P y I)]).
      assert (P1 : Forall (sp_placed m1) (env ++ [x])).
      { apply Forall_app. split; [| constructor; [exact H3 | constructor]]. eapply Forall_impl; [| exact P]. intros y. apply sp_placed_later, H1. }
      specialize (IH m1 (env ++ [x]) P1). rewrite map_app, K in IH. cbn [map] in IH. destruct (sp_run O conj junk m1 (env ++ [x]) program) as [[m' env'] | e]; [| exact IH].
      destruct IH as (I1 & (new & I2) & I3 & I4). split; [exact I1 |]. split; [exists (x :: new); rewrite I2, <- app_assoc; reflexivity |]. split; [| exact I4].
      rewrite map_app in I3. cbn [map] in I3. apply app_inj_tail in I3. exact (proj1 I3).
    + rewrite S. reflexivity.
Qed.

(** ** Copies and views *)

Lemma sp_new_apart m (r : result (spectrum A R)) m' (x : object) : sp_new m r = Ok (m', x) -> Forall (Forall (fun a => next m <= a)) (rows (sp_locations x)).
Proof. destruct r as [s | e]; [| discriminate]. unfold sp_new. cbn [rmap]. intros E. assert (E2 : sp_store m s = (m', x)) by congruence. exact (proj2 (proj2 (proj2 (sp_store_other m s m' x E2)))). Qed.

Lemma sp_copies_apart m (env : list object) (a : spectrum_action A R) m' (x : object) : sp_copies env a -> sp_perform O conj junk m env a = Ok (m', x) -> Forall (Forall (fun a => next m <= a)) (rows (sp_locations x)).
Proof.
  intros C E. destruct a as [i k | i len v | i | i | i | i | p i j | p i y | p y j | mode l | f l]; cbn [sp_copies] in C; try contradiction; cbn [sp_perform] in E;
    try (destruct (fetch env i) as [o | e] eqn:F; [| discriminate]; cbn [bind] in E); try exact (sp_new_apart _ _ _ _ E).
  - assert (N : cols (sp_locations o) <> len) by (apply C; unfold fetch in F; destruct (zth env i); [injection F as ->; reflexivity | discriminate]).
    destruct (Z.eqb_spec len (cols (sp_locations o))); [congruence |]. exact (sp_new_apart _ _ _ _ E).
  - destruct (fetch env j); [| discriminate]. exact (sp_new_apart _ _ _ _ E).
  - destruct (fetch env j); [| discriminate]. exact (sp_new_apart _ _ _ _ E).
  - destruct (fetch_all env l) as [xs | e] eqn:F; [| discriminate]. cbn [bind] in E. apply fetch_all_len in F.
    destruct xs as [| y [| z xs]]; try exact (sp_new_apart _ _ _ _ E). rewrite zlen_cons, zlen_nil in F. lia.
  - destruct (fetch_all env l) as [xs | e] eqn:F; [| discriminate]. exact (sp_new_apart _ _ _ _ E).
Qed.

Lemma sp_assign_address (Q : Z -> Prop) (m : memory A) (x : object) c t (v : A) m' : Forall (Forall Q) (rows (sp_locations x)) -> sp_assign m x c t v = Ok m' ->
  exists a, Q a /\ m' = Memory (poke (cells m) (a, v)) (next m).
Proof.
  intros H E. unfold sp_assign, getitem in E. destruct (zth (rows (sp_locations x)) (if c <? 0 then c + zlen (rows (sp_locations x)) else c)) as [r |] eqn:Er; [| discriminate]. cbn [bind] in E.
  destruct (zth r (if t <? 0 then t + zlen r else t)) as [a |] eqn:Ea; [| discriminate]. injection E as <-. exists a. split; [| reflexivity].
  unfold zth in Er, Ea. destruct ((if c <? 0 then _ else c) <? 0); [discriminate |]. destruct ((if t <? 0 then _ else t) <? 0); [discriminate |].
  apply nth_error_In in Er, Ea. rewrite Forall_forall in H. specialize (H r Er). rewrite Forall_forall in H. exact (H a Ea).
Qed.

Lemma sp_assign_unrelated (P : Z -> Prop) (m : memory A) (x y : object) c t (v : A) m' : Forall (Forall P) (rows (sp_locations x)) -> Forall (Forall (fun a => ~ P a)) (rows (sp_locations y)) ->
  sp_assign m x c t v = Ok m' -> sp_values m' y = sp_values m y.
Proof.
  intros H N E. destruct (sp_assign_address P m x c t v m' H E) as (a & Ha & ->). apply sp_values_ext. eapply Forall_impl; [| exact N]. intros r. apply Forall_impl. intros b Hb. cbn [cells].
  unfold poke. cbn [fst snd]. destruct (Z.eqb_spec b a); [congruence | reflexivity].
Qed.

Theorem sp_copy_independent m (env : list object) (a : spectrum_action A R) m' (x : object) : Forall (sp_placed m) env -> sp_copies env a -> sp_perform O conj junk m env a = Ok (m', x) ->
  forall y, In y env -> forall c t v m'',
    (sp_assign m' x c t v = Ok m'' -> sp_values m'' y = sp_values m' y) /\ (sp_assign m' y c t v = Ok m'' -> sp_values m'' x = sp_values m' x).
Proof.
  intros P C E y I c t v m''. pose proof (sp_copies_apart m env a m' x C E) as H. rewrite Forall_forall in P. specialize (P y I). unfold sp_placed in P. split; intros As.
  - apply (sp_assign_unrelated (fun a => next m <= a) m' x y c t v m'' H); [| exact As]. eapply Forall_impl; [| exact P]. intros r. apply Forall_impl. intros b. lia.
  - apply (sp_assign_unrelated (fun a => a < next m) m' y x c t v m'' P); [| exact As]. eapply Forall_impl; [| exact H]. intros r. apply Forall_impl. intros b. lia.
Qed.

Theorem sp_view_consistent m (env : list object) (a : spectrum_action A R) m' (x : object) : sp_perform O conj junk m env a = Ok (m', x) -> forall i, sp_views env a i -> forall y, zth env i = Some y ->
  m' = m /\ forall later, sp_evaluate O conj junk (map (sp_values later) env) a = Ok (sp_values later x).
Proof.
  intros E i V y Y. destruct a as [j k | j len v | | | | | | | | mode l |]; cbn [sp_views] in V; try contradiction; cbn [sp_perform] in E.
  - subst j. unfold fetch in E. rewrite Y in E. cbn [bind] in E. destruct (spectrum_getitem (sp_frame y) k) as [s | e] eqn:S; [| discriminate]. injection E as <- <-. split; [reflexivity |].
    intros later. cbn [sp_evaluate]. rewrite fetch_map. unfold fetch. rewrite Y. cbn [rmap bind]. rewrite sp_values_lift, sp_getitem_lift, S. reflexivity.
  - destruct V as [-> V]. unfold fetch in E. rewrite Y in E. cbn [bind] in E. rewrite (V y Y), Z.eqb_refl in E. injection E as <- <-. split; [reflexivity |].
    intros later. cbn [sp_evaluate]. rewrite fetch_map. unfold fetch. rewrite Y. cbn [rmap bind]. unfold spectrum_pad. change (sp_length (sp_values later y)) with (cols (sp_locations y)).
    rewrite (V y Y), Z.eqb_refl. reflexivity.
  - subst l. unfold fetch_all, fetch in E. cbn [map sequence] in E. rewrite Y in E. cbn [bind] in E. injection E as <- <-. split; [reflexivity |].
    intros later. cbn [sp_evaluate]. rewrite fetch_all_map. unfold fetch_all, fetch. cbn [map sequence]. rewrite Y. reflexivity.
Qed.
End Programs.
