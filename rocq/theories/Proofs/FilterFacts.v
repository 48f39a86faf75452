(** Facts about filters. *)

From Coq Require Import String ZArith List Bool Lia Ring Field.
From Verif.Model Require Import Py Functions Signal Terms Filter.
From Verif.Spec Require Import TermsSpec FilterSpec.
From Verif.Proofs Require Import PyFacts SignalHelpers TermFacts TermOperators TermFuel.
Import ListNotations.
Open Scope Z_scope.

Section Facts.
Context {K X : Type}.
Variable A : arithmetic K X.
Hypothesis EA : exact_arithmetic A.
Notation O := (k_ops A).
Notation term := (term K X).
Notation filter := (filter K X).
Notation "0k" := (o_zero O).
Notation "1k" := (o_one O).
Infix "[+]" := (o_add O) (at level 50, left associativity).
Infix "[-]" := (o_sub O) (at level 50, left associativity).
Infix "[*]" := (o_mul O) (at level 40, left associativity).
Infix "[/]" := (o_div O) (at level 40, left associativity).
Notation value := (value A).
Variable junk : K.

Let FF := exact_field A EA.
Add Field KF : FF.

Definition flag (k : kind) : bool := match k with Untransformed => true | NoDifferences => false end.

Lemma regular_good k (t : term) : regular k t <-> every (good_node (flag k)) t.
Proof. destruct k; reflexivity. Qed.

Lemma allowed_okay k x : allowed k x <-> okay (flag k) x.
Proof. destruct k; reflexivity. Qed.

Lemma defined_nz k f : defined_at A k f <-> nz A (flag k) (s_of A f).
Proof. destruct k; cbn; unfold nz; split; auto; intros; try discriminate. Qed.

(** ** Calls *)

Lemma call_untransformed f t : every (@untransformed K X) t -> call A junk f t false false = (value f (s_of A f) t, false).
Proof.
  induction t as [v|c x|c x|xs ys i e|v x IHt|v x IHt|l x H|t1 t2 x IHt1 IHt2|l x H|t1 t2 x IHt1 IHt2] using term_induction;
    intros [U R]; unfold untransformed in U; cbn [transform] in U; subst; cbn [call TermsSpec.value transform xorb].
  - reflexivity.
  - cbn [get_s]. now rewrite (polyval_ok A EA).
  - reflexivity.
  - reflexivity.
  - rewrite IHt by auto. reflexivity.
  - rewrite IHt by auto. reflexivity.
  - apply every_list in R. destruct l as [|first rest]; [reflexivity|]. inversion_clear H as [|? ? H0 H1]. inversion_clear R as [|? ? R0 R1]. rewrite H0 by auto.
    assert (E : forall r, fold_left (fun acc a => let '(r, invalid) := acc in
        let '(z, invalid) := call A junk f a false invalid in (binary (o_add O) r z, invalid)) rest (r, false) =
        (fold_left (fun acc a => lift2 (o_add O) acc (value f (s_of A f) a)) rest r, false)).
    { clear H0 R0. induction H1 as [|a l Ha Hl IH]; intros r; cbn [fold_left]; [reflexivity|]. inversion_clear R1. rewrite Ha by auto. now apply IH. }
    rewrite E, (fold_values (o_add O) 0k); [reflexivity|intros; ring|intros; ring].
  - destruct R. rewrite IHt1, IHt2 by auto. reflexivity.
  - apply every_list in R. destruct l as [|first rest]; [reflexivity|]. inversion_clear H as [|? ? H0 H1]. inversion_clear R as [|? ? R0 R1]. rewrite H0 by auto.
    assert (E : forall r, fold_left (fun acc a => let '(r, invalid) := acc in
        let '(z, invalid) := call A junk f a false invalid in (binary (o_mul O) r z, invalid)) rest (r, false) =
        (fold_left (fun acc a => lift2 (o_mul O) acc (value f (s_of A f) a)) rest r, false)).
    { clear H0 R0. induction H1 as [|a l Ha Hl IH]; intros r; cbn [fold_left]; [reflexivity|]. inversion_clear R1. rewrite Ha by auto. now apply IH. }
    rewrite E, (fold_values (o_mul O) 1k); [reflexivity|intros; ring|intros; ring].
  - destruct R. rewrite IHt1, IHt2 by auto. reflexivity.
Qed.

Lemma every_impl (P Q : term -> Prop) : (forall t, P t -> Q t) -> forall t, every P t -> every Q t.
Proof.
  intros PQ t. induction t as [v|c x|c x|xs ys i e|v x IHt|v x IHt|l x H|t1 t2 x IHt1 IHt2|l x H|t1 t2 x IHt1 IHt2] using term_induction;
    intros [U R]; (split; [now apply PQ|]); try exact I; try tauto.
  - apply every_list in R. apply every_list. rewrite Forall_forall in *. auto.
  - apply every_list in R. apply every_list. rewrite Forall_forall in *. auto.
Qed.

(** Terms, that can be evaluated at all frequencies of the kind *)
Definition plain (k : kind) (t : term) : Prop := k = Untransformed -> every (@untransformed K X) t.

Lemma regular_plain k t : regular k t -> plain k t.
Proof. intros R ->. revert R. apply every_impl. tauto. Qed.

Lemma call_plain k f t : plain k t -> defined_at A k f -> call A junk f t false false = (value f (s_of A f) t, false).
Proof.
  intros R D. destruct k; cbn in D.
  - apply call_untransformed. now apply R.
  - apply (call_value A EA junk f D t false).
Qed.

Lemma evaluate_value k f t : plain k t -> defined_at A k f -> evaluate A junk t f = value f (s_of A f) t.
Proof. intros R D. unfold evaluate. now rewrite (call_plain k). Qed.

Lemma filter_call_values k F f : Forall (plain k) (transfer_functions F) -> defined_at A k f ->
  filter_call A junk F f = map (value f (s_of A f)) (transfer_functions F).
Proof.
  unfold filter_call. intros R D. induction R as [|t l Rt Rl IH]; [reflexivity|]. cbn [call_channels map].
  rewrite (call_plain k) by auto. now rewrite IH.
Qed.

Lemma response_value k F f c : Forall (plain k) (transfer_functions F) -> defined_at A k f ->
  response A junk F c f = match zth (transfer_functions F) c with Some t => value f (s_of A f) t | None => None end.
Proof. intros R D. unfold response. rewrite (filter_call_values k) by auto. rewrite zth_map. now destruct (zth _ c). Qed.

Lemma response_some k F f c a : Forall (plain k) (transfer_functions F) -> defined_at A k f ->
  response A junk F c f = Some a -> exists t, zth (transfer_functions F) c = Some t /\ value f (s_of A f) t = Some a.
Proof. intros R D. rewrite (response_value k) by auto. destruct (zth _ c); [eauto|discriminate]. Qed.

Lemma regular_plains k F : regular_filter k F -> Forall (plain k) (transfer_functions F).
Proof. intros R. eapply Forall_impl; [|exact R]. intros t. apply regular_plain. Qed.

(** ** Maps over the channels *)

Lemma sequence_zth {Y} (l : list (result Y)) m : sequence l = Ok m -> zlen m = zlen l /\ forall i y, zth m i = Some y -> zth l i = Some (Ok y).
Proof.
  revert m. induction l as [|r l IH]; intros m H; cbn in H.
  - injection H as <-. split; auto. intros i y. now rewrite zth_nil.
  - destruct r as [y|e]; [|discriminate]. cbn in H. destruct (sequence l) as [m'|]; [|discriminate]. cbn in H. injection H as <-.
    destruct (IH m' eq_refl) as [L Z]. split; [rewrite !zlen_cons; lia|]. intros i z. rewrite !zth_cons.
    destruct (i =? 0); [now intros [= ->]|apply Z].
Qed.

Lemma sequence_map_zth {Y W} (op : Y -> result W) l m : sequence (map op l) = Ok m ->
  zlen m = zlen l /\ forall i z, zth m i = Some z -> exists y, zth l i = Some y /\ op y = Ok z.
Proof.
  intros H. apply sequence_zth in H as [L H]. rewrite zlen_map in L. split; auto. intros i z E. apply H in E. rewrite zth_map in E.
  destruct (zth l i) as [y|]; [|discriminate]. injection E as E. eauto.
Qed.

Lemma sequence_total {Y W} (op : Y -> result W) l : (forall y, In y l -> exists z, op y = Ok z) -> exists m, sequence (map op l) = Ok m.
Proof.
  induction l as [|y l IH]; intros H; [now exists []|]. destruct (H y (or_introl eq_refl)) as [z E]. destruct IH as [m M]; [intros; apply H; now right|].
  exists (z :: m). cbn. now rewrite E, M.
Qed.

Lemma sequence_errors {Y W} (op : Y -> result W) (e : exn) l : (forall y, In y l -> (exists z, op y = Ok z) \/ op y = Err e) ->
  (exists m, sequence (map op l) = Ok m) \/ sequence (map op l) = Err e.
Proof.
  induction l as [|y l IH]; intros H; [left; now exists []|]. cbn [map sequence].
  destruct (H y (or_introl eq_refl)) as [[z E]|E]; rewrite E; cbn; [|now right].
  destruct IH as [[m M]|M]; [intros; apply H; now right|rewrite M|rewrite M]; cbn; eauto.
Qed.

Lemma f_count_mk (l : list term) labels : f_count (mk_filter l labels) = zlen l.
Proof. reflexivity. Qed.

Lemma labels_mk (l : list term) labels : zlen labels = zlen l -> f_labels (mk_filter l labels) = labels.
Proof. intros H. cbn. unfold sanitize_labels. rewrite <- H, Z.ltb_irrefl. reflexivity. Qed.

Lemma Forall_zth {Y} (P : Y -> Prop) l : Forall P l <-> forall i y, zth l i = Some y -> P y.
Proof.
  rewrite Forall_forall. split.
  - intros H i y E. apply H. eapply zth_In; eauto.
  - intros H y I. destruct (In_zth _ _ I) as [i E]. eauto.
Qed.

(** Operations on terms *)
Definition good1 (k : kind) (op : K -> K) (defined : K -> Prop) (g : term -> result term) : Prop :=
  forall t u, regular k t -> g t = Ok u ->
    plain k u /\ forall f a, defined_at A k f -> value f (s_of A f) t = Some a -> defined a -> value f (s_of A f) u = Some (op a).
Definition good2 (k : kind) (op : K -> K -> K) (defined : K -> Prop) (g : term -> term -> result term) : Prop :=
  forall t t' u, regular k t -> regular k t' -> g t t' = Ok u ->
    plain k u /\ forall f a b, defined_at A k f -> value f (s_of A f) t = Some a -> value f (s_of A f) t' = Some b -> defined b ->
                               value f (s_of A f) u = Some (op a b).
Definition closed1 (k : kind) (g : term -> result term) : Prop := forall t u, regular k t -> g t = Ok u -> regular k u.
Definition closed2 (k : kind) (g : term -> term -> result term) : Prop := forall t t' u, regular k t -> regular k t' -> g t t' = Ok u -> regular k u.

Lemma filter_map_ok (g : term -> result term) F H : filter_map g F = Ok H ->
  f_count H = f_count F /\ (labelled F -> f_labels H = f_labels F) /\
  forall c u, zth (transfer_functions H) c = Some u -> exists t, zth (transfer_functions F) c = Some t /\ g t = Ok u.
Proof.
  intros E. unfold filter_map in E. apply bind_ok in E as (l & E & [= <-]). apply sequence_map_zth in E as [L Z].
  split; [exact L|]. split; [|exact Z]. intros Q. apply labels_mk. unfold labelled, f_count in Q. lia.
Qed.

Lemma regular_map k g (F H : filter) : closed1 k g -> regular_filter k F -> filter_map g F = Ok H -> regular_filter k H.
Proof.
  intros C R E. apply filter_map_ok in E as (_ & _ & Z).
  apply Forall_zth. intros i u U. destruct (Z i u U) as (t & T & G). eapply C; eauto. eapply (proj1 (Forall_zth _ _) R); eauto.
Qed.

Lemma pointwise_map k op defined g F H : good1 k op defined g -> regular_filter k F -> filter_map g F = Ok H -> pointwise1 A junk k op defined F H.
Proof.
  intros C R E. apply filter_map_ok in E as (L & _ & Z). pose proof (proj1 (Forall_zth _ _) R) as R'.
  split; [exact L|]. intros c f a B D V N. apply (response_some k) in V as (t & T & V); auto using regular_plains.
  rewrite (response_value k); auto.
  - destruct (zth_in (transfer_functions H) c B) as [u U]. rewrite U. destruct (Z c u U) as (t' & T' & G). assert (t' = t) by congruence. subst.
    destruct (C t u (R' _ _ T) G) as [_ W]. auto.
  - apply Forall_zth. intros i u U. destruct (Z i u U) as (t' & T' & G). eapply C; eauto.
Qed.

(** What [filter_algebra] computes *)
Lemma filter_algebra_ok (g : term -> term -> result term) label F G H : filter_algebra g label F G = Ok H ->
  compatible (f_count F) (f_count G) /\ f_count H = combined (f_count F) (f_count G) /\ f_labels H = zrepeat label (f_count H) /\
  forall c u, zth (transfer_functions H) c = Some u ->
    exists t t', zth (transfer_functions F) (channel_of F c) = Some t /\ zth (transfer_functions G) (channel_of G c) = Some t' /\ g t t' = Ok u.
Proof.
  unfold filter_algebra, channel_of, combined, compatible, f_count.
  assert (Lr : forall n, 0 <= n -> zlen (zrepeat label n) = n) by (intros; now rewrite zlen_repeat, Z.max_r).
  intros E.
  assert (One : forall t, transfer_functions F = [t] -> (l <- sequence (map (fun u => g t u) (transfer_functions G)) ;;
      Ok (mk_filter l (zrepeat label (zlen (transfer_functions G))))) = Ok H -> 
    (zlen (transfer_functions H) = zlen (transfer_functions G) /\ f_labels H = zrepeat label (zlen (transfer_functions H)) /\
    forall c u, zth (transfer_functions H) c = Some u -> exists t', zth (transfer_functions G) c = Some t' /\ g t t' = Ok u)).
  { clear E. intros t T E. apply bind_ok in E as (l & E & [= <-]). apply sequence_map_zth in E as [L Z]. cbn [transfer_functions mk_filter].
    split; [exact L|]. split; [|exact Z]. rewrite L. apply labels_mk. rewrite Lr; [lia|apply zlen_nonneg]. }
  assert (Other : forall t', transfer_functions G = [t'] -> (l <- sequence (map (fun t => g t t') (transfer_functions F)) ;;
      Ok (mk_filter l (zrepeat label (zlen (transfer_functions F))))) = Ok H ->
    (zlen (transfer_functions H) = zlen (transfer_functions F) /\ f_labels H = zrepeat label (zlen (transfer_functions H)) /\
    forall c u, zth (transfer_functions H) c = Some u -> exists t, zth (transfer_functions F) c = Some t /\ g t t' = Ok u)).
  { clear E. intros t T E. apply bind_ok in E as (l & E & [= <-]). apply sequence_map_zth in E as [L Z]. cbn [transfer_functions mk_filter].
    split; [exact L|]. split; [|exact Z]. rewrite L. apply labels_mk. rewrite Lr; [lia|apply zlen_nonneg]. }
  assert (Both : zlen (transfer_functions F) = zlen (transfer_functions G) -> (l <- sequence (map2 g (transfer_functions F) (transfer_functions G)) ;;
      Ok (mk_filter l (zrepeat label (zlen (transfer_functions G))))) = Ok H ->
    (zlen (transfer_functions H) = zlen (transfer_functions F) /\ f_labels H = zrepeat label (zlen (transfer_functions H)) /\
    forall c u, zth (transfer_functions H) c = Some u -> exists t t', zth (transfer_functions F) c = Some t /\ zth (transfer_functions G) c = Some t' /\ g t t' = Ok u)).
  { clear E. intros N E. apply bind_ok in E as (l & E & [= <-]). apply sequence_zth in E as [L Z]. rewrite zlen_map2 in L. cbn [transfer_functions mk_filter].
    split; [lia|]. split; [replace (zlen l) with (zlen (transfer_functions G)) by lia; apply labels_mk; rewrite Lr; [lia|apply zlen_nonneg]|].
    intros c u U. apply Z in U. rewrite zth_map2 in U. destruct (zth (transfer_functions F) c) as [t|]; [|discriminate].
    destruct (zth (transfer_functions G) c) as [t'|]; [|discriminate]. injection U as U. eauto. }
  clear Lr. destruct (transfer_functions F) as [|t [|t2 ts]] eqn:EF.
  - cbn [zlen List.length] in *. destruct (transfer_functions G) as [|t' [|t2' ts']] eqn:EG.
    + destruct (Both eq_refl E) as (L & Q & Z). repeat split; auto.
    + destruct (Other t' eq_refl E) as (L & Q & Z). repeat split; auto. intros c u U. destruct (Z c u U) as (t & T & _). now rewrite zth_nil in T.
    + change (zlen []) with 0 in E. destruct (0 =? zlen (t' :: t2' :: ts')) eqn:Q; [|discriminate]. rewrite !zlen_cons in Q. pose proof (zlen_nonneg ts'). lia.
  - destruct (One t eq_refl E) as (L & Q & Z). change (zlen [t]) with 1. cbn [Z.eqb Pos.eqb]. repeat split; auto.
    intros c u U. destruct (Z c u U) as (t' & T' & R). exists t, t'. split; [reflexivity|]. split; [|exact R].
    destruct (zlen (transfer_functions G) =? 1) eqn:N; [|exact T']. replace 0 with c; auto. apply zth_range in T'. lia.
  - assert (NF : zlen (t :: t2 :: ts) <> 1) by (rewrite !zlen_cons; pose proof (zlen_nonneg ts); lia).
    destruct (zlen (t :: t2 :: ts) =? 1) eqn:NF'; [lia|].
    destruct (transfer_functions G) as [|t' [|t2' ts']] eqn:EG.
    + change (zlen []) with 0 in E |- *. destruct (zlen (t :: t2 :: ts) =? 0) eqn:Q; [|discriminate]. rewrite !zlen_cons in Q. pose proof (zlen_nonneg ts). lia.
    + destruct (Other t' eq_refl E) as (L & Q & Z). change (zlen [t']) with 1. cbn [Z.eqb Pos.eqb]. repeat split; auto.
      intros c u U. destruct (Z c u U) as (v & T & R). exists v, t'. auto.
    + destruct (zlen (t' :: t2' :: ts') =? 1) eqn:NG; [rewrite !zlen_cons in NG; pose proof (zlen_nonneg ts'); lia|].
      destruct (zlen (t :: t2 :: ts) =? zlen (t' :: t2' :: ts')) eqn:N; [|discriminate]. apply Z.eqb_eq in N.
      destruct (Both N E) as (L & Q & Z). repeat split; auto.
Qed.

Lemma pointwise_algebra k op defined g label F G H : good2 k op defined g -> regular_filter k F -> regular_filter k G ->
  filter_algebra g label F G = Ok H -> pointwise2 A junk k op defined F G H.
Proof.
  intros C RF RG E. apply filter_algebra_ok in E as (_ & L & _ & Z). pose proof (proj1 (Forall_zth _ _) RF) as RF'. pose proof (proj1 (Forall_zth _ _) RG) as RG'.
  split; [exact L|]. intros c f a b B D V W N.
  apply (response_some k) in V as (t & T & V); auto using regular_plains. apply (response_some k) in W as (t' & T' & W); auto using regular_plains.
  rewrite (response_value k); auto.
  - destruct (zth_in (transfer_functions H) c B) as [u U]. rewrite U. destruct (Z c u U) as (r & r' & R & R' & Q).
    assert (r = t) by congruence. assert (r' = t') by congruence. subst. destruct (C t t' u (RF' _ _ T) (RG' _ _ T') Q) as [_ Y]. auto.
  - apply Forall_zth. intros i u U. destruct (Z i u U) as (r & r' & R & R' & Q). eapply C; [| |exact Q]; eauto.
Qed.

Lemma regular_algebra k g label F G H : closed2 k g -> regular_filter k F -> regular_filter k G -> filter_algebra g label F G = Ok H -> regular_filter k H.
Proof.
  intros C RF RG E. apply filter_algebra_ok in E as (_ & _ & _ & Z). pose proof (proj1 (Forall_zth _ _) RF) as RF'. pose proof (proj1 (Forall_zth _ _) RG) as RG'.
  apply Forall_zth. intros i u U. destruct (Z i u U) as (r & r' & R & R' & Q). eapply C; [| |exact Q]; eauto.
Qed.

(** The exceptions of [filter_algebra] *)
Lemma sequence_map2_errors {Y1 Y2 Y3 : Type} (op : Y1 -> Y2 -> result Y3) (e : exn) l m : (forall x y, (exists z, op x y = Ok z) \/ op x y = Err e) ->
  (exists r, sequence (map2 op l m) = Ok r) \/ sequence (map2 op l m) = Err e.
Proof.
  intros H. revert m. induction l as [|x l IH]; intros [|y m]; try (left; now exists []). cbn [map2 sequence].
  destruct (H x y) as [[z E]|E]; rewrite E; cbn; [|now right]. destruct (IH m) as [[r R]|R]; rewrite R; cbn; eauto.
Qed.

Lemma filter_algebra_errors (g : term -> term -> result term) label e F G : (forall t t', (exists u, g t t' = Ok u) \/ g t t' = Err e) -> compatible (f_count F) (f_count G) ->
  (exists H, filter_algebra g label F G = Ok H) \/ filter_algebra g label F G = Err e.
Proof.
  intros T C. unfold filter_algebra.
  assert (M : forall (op : term -> result term) l, (forall t, (exists u, op t = Ok u) \/ op t = Err e) ->
      (exists m, sequence (map op l) = Ok m) \/ sequence (map op l) = Err e) by (intros; apply sequence_errors; auto).
  assert (B : forall (r : result (list term)) (k : list term -> filter), ((exists m, r = Ok m) \/ r = Err e) ->
      (exists H, (l <- r ;; Ok (k l)) = Ok H) \/ (l <- r ;; Ok (k l)) = Err e) by (intros r k [[m ->]| ->]; cbn; eauto).
  unfold compatible, f_count in C.
  destruct (transfer_functions F) as [|t [|t2 ts]] eqn:EF, (transfer_functions G) as [|t' [|t2' ts']] eqn:EG;
    try (apply B; first [apply M; auto | apply sequence_map2_errors; auto]).
  - exfalso. rewrite !zlen_cons in C. change (zlen (@nil term)) with 0 in C. pose proof (zlen_nonneg ts'). lia.
  - exfalso. rewrite !zlen_cons in C. change (zlen (@nil term)) with 0 in C. pose proof (zlen_nonneg ts). lia.
  - destruct (zlen (t :: t2 :: ts) =? zlen (t' :: t2' :: ts')) eqn:Q; [apply B, sequence_map2_errors; auto|].
    exfalso. rewrite !zlen_cons in *. pose proof (zlen_nonneg ts). pose proof (zlen_nonneg ts'). lia.
Qed.

Lemma filter_algebra_total (g : term -> term -> result term) label F G : (forall t t', exists u, g t t' = Ok u) -> compatible (f_count F) (f_count G) -> exists H, filter_algebra g label F G = Ok H.
Proof.
  intros T C. destruct (filter_algebra_errors g label ValueError F G) as [E|E]; auto. exfalso.
  destruct (filter_algebra_errors g label TypeError F G) as [[H E']|E']; auto; congruence.
Qed.

Lemma filter_algebra_incompatible (g : term -> term -> result term) label F G : ~ compatible (f_count F) (f_count G) -> filter_algebra g label F G = Err ValueError.
Proof.
  unfold compatible, f_count, filter_algebra. intros N.
  destruct (transfer_functions F) as [|t [|t2 ts]] eqn:EF, (transfer_functions G) as [|t' [|t2' ts']] eqn:EG; try (exfalso; apply N; cbn; tauto).
  - rewrite (proj2 (Z.eqb_neq _ _)); [reflexivity|tauto].
  - rewrite (proj2 (Z.eqb_neq _ _)); [reflexivity|tauto].
  - rewrite (proj2 (Z.eqb_neq _ _)); [reflexivity|tauto].
Qed.

Lemma filter_map_total (g : term -> result term) F : (forall t, exists u, g t = Ok u) -> exists H, filter_map g F = Ok H.
Proof. intros T. unfold filter_map. destruct (sequence_total g (transfer_functions F)) as [m ->]; cbn; eauto. Qed.

Lemma filter_map_errors (g : term -> result term) e F : (forall t, (exists u, g t = Ok u) \/ g t = Err e) -> (exists H, filter_map g F = Ok H) \/ filter_map g F = Err e.
Proof. intros T. unfold filter_map. destruct (sequence_errors g e (transfer_functions F)) as [[m ->]| ->]; cbn; eauto. Qed.

End Facts.
