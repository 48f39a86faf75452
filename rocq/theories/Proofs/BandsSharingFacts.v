(** Programs with bands filters, that share dictionaries with their users. *)

From Coq Require Import String ZArith List Bool Lia ZifyBool.
From Verif.Model Require Import Py Functions Signal Terms Filter Bands BandsSharing.
From Verif.Spec Require Import BandsSpec BandsSharingSpec.
From Verif.Proofs Require Import PyFacts FilterFacts BandsClass BandsCases.
Import ListNotations.
Open Scope Z_scope.

Section Sharing.
Context {K X : Type}.
Variable A : arithmetic K X.
Variables log10 exp10 : K -> K.
Notation memory := (memory (K := K) (X := X)).
Notation stored := (stored (K := K) (X := X)).
Notation reference := (reference (K := K) (X := X)).
Notation action := (action (K := K) (X := X)).
Notation run := (run A log10 exp10).
Notation step := (step A log10 exp10).

(** [used] are the numbers of the dictionaries, to which the filters refer. *)
Definition within (used : Z -> Prop) (m : memory) : Prop := forall s n, In s (filters m) -> In (Shared n) (st_bands s) -> used n.

Lemma deref_kept (m m' : memory) (refs : list reference) b : (forall n d, In (Shared n) refs -> zth (dictionaries m) n = Some d -> zth (dictionaries m') n = Some d) ->
  sequence (map (deref m) refs) = Ok b -> sequence (map (deref m') refs) = Ok b.
Proof.
  intros H. revert b. induction refs as [| r refs IH]; intros b E; [exact E |]. cbn [map sequence] in *.
  destruct (deref m r) as [d |] eqn:Er; [| discriminate]. cbn [bind] in E. destruct (sequence (map (deref m) refs)) as [ds |] eqn:Es; [| discriminate].
  rewrite (IH (fun n d I => H n d (or_intror I)) ds eq_refl).
  assert (Ed : deref m' r = Ok d).
  { destruct r as [n | d']; [| exact Er]. cbn [deref] in *. unfold item in *. destruct (zth (dictionaries m) n) as [d' |] eqn:En; [| discriminate].
    rewrite (H n d' (or_introl eq_refl) En). exact Er. }
  rewrite Ed. exact E.
Qed.

Lemma observed_kept (m m' : memory) (s : stored) B : (forall n d, In (Shared n) (st_bands s) -> zth (dictionaries m) n = Some d -> zth (dictionaries m') n = Some d) ->
  observed m s = Ok B -> observed m' s = Ok B.
Proof.
  intros H. unfold observed. destruct (sequence (map (deref m) (st_bands s))) as [b |] eqn:E; [| discriminate]. now rewrite (deref_kept m m' _ b H E).
Qed.

Lemma mk_bands_dictionaries b i e labels B : mk_bands A b i e labels = Ok B -> b_bands B = b.
Proof. unfold mk_bands. intros H. repeat (apply bind_ok in H as (? & _ & H)). injection H as <-. reflexivity. Qed.

Lemma deref_private (m : memory) b : sequence (map (deref m) (map Private b)) = Ok b.
Proof. induction b as [| d b IH]; [reflexivity |]. cbn [map sequence deref bind]. now rewrite IH. Qed.

Lemma deref_shared (m : memory) ns : map (deref m) (map Shared ns) = map (item (dictionaries m)) ns.
Proof. rewrite map_map. reflexivity. Qed.

Lemma bands_eta (B : bands (K := K) (X := X)) b : b_bands B = b -> MkBands (b_filter B) b (b_interpolations B) (b_extrapolations B) = B.
Proof. intros <-. now destruct B. Qed.

Lemma forall2_item {T U} (R : T -> U -> Prop) l m k : Forall2 R l m ->
  match zth l k, zth m k with Some x, Some y => R x y | None, None => True | _, _ => False end.
Proof.
  intros H. revert k. induction H as [| x y l m Hxy _ IH]; intros k; [now rewrite !zth_nil |]. rewrite !zth_cons. destruct (k =? 0); [exact Hxy | apply IH].
Qed.

Lemma added (m : memory) (fs : list (bands (K := K) (X := X))) (s : stored) B : Forall2 (fun s B => observed m s = Ok B) (filters m) fs -> observed m s = Ok B ->
  Forall2 (fun s B => observed (with_filter m s) s = Ok B) [s] [B] /\ same_values (with_filter m s) (dictionaries m, fs ++ [B]).
Proof.
  intros F O. split; [now constructor |]. split; [reflexivity |]. cbn [filters with_filter snd]. apply Forall2_app; [exact F | now constructor].
Qed.

Lemma assigned_others (l : list (dict (X := X) K)) n d k : 0 <= n < zlen l -> k <> n -> zth (ztake n l ++ d :: zdrop (n + 1) l) k = zth l k.
Proof.
  intros Hn Hk. rewrite zth_app, zlen_take, zth_take. replace (Z.max 0 (Z.min n (zlen l))) with n by lia. destruct (Z.ltb_spec k n); [reflexivity |].
  rewrite zth_cons. destruct (Z.eqb_spec (k - n) 0); [lia |]. rewrite zth_drop. zcases; try lia; f_equal; lia.
Qed.

Lemma forall2_impl {T U} (R R' : T -> U -> Prop) l m : (forall x y, R x y -> R' x y) -> Forall2 R l m -> Forall2 R' l m.
Proof. intros H F. induction F; constructor; auto. Qed.

(** What the next steps may assign to *)
Definition allowed (used : Z -> Prop) (a : action) : Prop := match a with Assign n _ _ => ~ used n | _ => True end.
Definition uses (used : Z -> Prop) (a : action) (n : Z) : Prop := used n \/ match a with Create ns _ _ _ => In n ns | _ => False end.

Definition agree (r : result memory) (v : result (list (dict K) * list bands)) : Prop :=
  match r, v with Ok m, Ok v => same_values m v | Err x, Err y => x = y | _, _ => False end.

Lemma convert_simulated used (m : memory) ds fs k conversion : within used m -> same_values m (ds, fs) ->
  agree (convert m k conversion) (match zth fs k with Some B => match conversion B with Ok D => Ok (ds, fs ++ [D]) | Err x => Err x end | None => Err IndexError end) /\
  forall m', convert m k conversion = Ok m' -> within used m'.
Proof.
  intros W [Ed F]. cbn [fst snd] in *. pose proof (forall2_item _ _ _ k F) as Fk. unfold convert, item.
  destruct (zth (filters m) k) as [s |], (zth fs k) as [B |]; cbn [bind]; try easy. rewrite Fk. cbn [bind].
  destruct (conversion B) as [D | x]; cbn [bind agree]; [| easy]. split.
  - rewrite <- Ed. apply added; [exact F |]. unfold observed. cbn [st_bands stored_as]. rewrite deref_private. cbn [bind]. f_equal. now apply bands_eta.
  - intros m' [= <-] s' n I R. cbn [filters with_filter] in I. apply in_app_or in I as [I | [<- | []]]; [exact (W s' n I R) |].
    cbn [st_bands stored_as] in R. apply in_map_iff in R as (d & Ed' & _). discriminate.
Qed.

Lemma step_simulated used (m : memory) v a : within used m -> same_values m v -> allowed used a ->
  agree (step m a) (performed A log10 exp10 v a) /\ forall m', step m a = Ok m' -> within (uses used a) m'.
Proof.
  destruct v as [ds fs]. intros W S Al. pose proof S as [Ed F]. cbn [fst snd] in Ed, F.
  assert (W' : within (uses used a) m) by (intros s n I R; left; exact (W s n I R)).
  destruct a as [d | n x y | ns i e labels | k r f | k r f]; cbn [BandsSharing.step performed fst snd allowed] in *.
  - split; [| intros m' [= <-]; exact W']. split; [cbn; now rewrite Ed |]. cbn [filters snd]. revert F. apply forall2_impl. intros s B. apply observed_kept.
    intros n d' _ E. cbn [dictionaries]. rewrite zth_app. pose proof (zth_range _ _ _ E). destruct (Z.ltb_spec n (zlen (dictionaries m))); [exact E | lia].
  - unfold item. rewrite Ed. destruct (zth ds n) as [d |] eqn:En; cbn [bind agree]; [| easy]. split; [| intros m' [= <-]; exact W'].
    split; [reflexivity |]. cbn [filters snd]. rewrite <- Ed in *. clear Ed. pose proof (zth_range _ _ _ En) as Hn.
    assert (G : forall s, In s (filters m) -> ~ In (Shared n) (st_bands s)) by (intros s I R; exact (Al (W s n I R))).
    clear W W' S. induction F as [| s B ss Bs O _ IH]; [constructor |]. constructor; [| apply IH; intros t I; apply G; now right].
    revert O. apply observed_kept. intros k d' I E. cbn [dictionaries]. rewrite assigned_others; [exact E | lia | intros ->; exact (G s (or_introl eq_refl) I)].
  - rewrite Ed. change (map (fun n => match zth ds n with Some d => Ok d | None => Err IndexError end) ns) with (map (item ds) ns).
    destruct (sequence (map (item ds) ns)) as [b | x] eqn:Eb; cbn [bind agree]; [| easy].
    destruct (mk_bands A b i e labels) as [B | x] eqn:EB; cbn [bind agree]; [| easy]. split.
    + rewrite <- Ed. apply added; [exact F |]. unfold observed. cbn [st_bands stored_as]. rewrite deref_shared, Ed, Eb. cbn [bind]. f_equal.
      apply bands_eta. exact (mk_bands_dictionaries _ _ _ _ _ EB).
    + intros m' [= <-] s' n I R. cbn [filters with_filter] in I. apply in_app_or in I as [I | [<- | []]]; [left; exact (W s' n I R) |].
      right. cbn [st_bands stored_as] in R. apply in_map_iff in R as (n' & [= ->] & I). exact I.
  - destruct (convert_simulated used m ds fs k (fun B => to_db A log10 B r f) W S) as [G1 G2]. split; [exact G1 |]. intros m' E s n I R. left. exact (G2 m' E s n I R).
  - destruct (convert_simulated used m ds fs k (fun B => from_db A exp10 B r f) W S) as [G1 G2]. split; [exact G1 |]. intros m' E s n I R. left. exact (G2 m' E s n I R).
Qed.

Lemma run_simulated program : forall used (m : memory) v, within used m -> same_values m v ->
  (forall before n x y after, program = before ++ Assign n x y :: after -> ~ (used n \/ exists ns i e labels, In (Create ns i e labels) before /\ In n ns)) ->
  agree (run m program) (performed_all A log10 exp10 v program).
Proof.
  induction program as [| a program IH]; intros used m v W S U; [exact S |]. cbn [BandsSharing.run performed_all].
  destruct (step_simulated used m v a W S) as [G1 G2].
  { destruct a; try exact I. cbn. intros H. apply (U [] n x y program eq_refl). now left. }
  destruct (step m a) as [m' | x], (performed A log10 exp10 v a) as [v' | x']; cbn [agree bind] in *; try easy.
  apply (IH (uses used a) m' v' (G2 m' eq_refl) G1). intros before n x y after E C. apply (U (a :: before) n x y after); [cbn; now rewrite E |].
  destruct C as [[C | C] | (ns & i & e & labels & I1 & I2)]; [now left | |].
  - right. destruct a; try easy. exists ns, interpolations, extrapolations, labels. split; [now left | exact C].
  - right. exists ns, i, e, labels. split; [now right | exact I2].
Qed.

Theorem shared_values program : undisturbed program ->
  match run (Memory [] []) program, performed_all A log10 exp10 ([], []) program with
  | Ok m, Ok v => same_values m v
  | Err x, Err y => x = y
  | _, _ => False
  end.
Proof.
  intros U. apply (run_simulated program (fun _ => False)); [now intros s n [] | split; [reflexivity | constructor] |].
  intros before n x y after E [[] | (ns & i & e & labels & I1 & I2)]. exact (U before n x y after ns i e labels E I1 I2).
Qed.

(** ** Programs, that change the dictionaries *)
Hypothesis OA : ordered A.

Lemma step_grows (m m' : memory) a : step m a = Ok m' -> (exists l, filters m' = filters m ++ l) /\ zlen (dictionaries m) <= zlen (dictionaries m') /\
  (Forall dictionary (dictionaries m) -> match a with NewDictionary d => dictionary d | _ => True end -> Forall dictionary (dictionaries m')).
Proof.
  assert (C : forall k conversion, convert m k conversion = Ok m' -> (exists l, filters m' = filters m ++ l) /\ dictionaries m' = dictionaries m).
  { intros k c H. unfold convert in H. repeat (apply bind_ok in H as (? & _ & H)). injection H as <-. split; [eexists; reflexivity | reflexivity]. }
  destruct a as [d | n x y | ns i e labels | k r f | k r f]; cbn [BandsSharing.step]; intros E.
  - injection E as <-. cbn [filters dictionaries]. split; [exists []; now rewrite app_nil_r |]. split; [rewrite zlen_app; pose proof (zlen_nonneg [d]); lia |].
    intros D Dd. apply Forall_app. split; [exact D | now constructor].
  - unfold item in E. destruct (zth (dictionaries m) n) as [d |] eqn:En; [| discriminate]. cbn [bind] in E. injection E as <-. cbn [filters dictionaries].
    split; [exists []; now rewrite app_nil_r |]. pose proof (zth_range _ _ _ En). split.
    + rewrite zlen_app, zlen_cons, zlen_take, zlen_drop. lia.
    + intros D _. apply Forall_app. split; [| constructor].
      * apply Forall_forall. intros z I. rewrite Forall_forall in D. apply D. rewrite <- (firstn_skipn (Z.to_nat n)). apply in_or_app. now left.
      * apply dict_set_dictionary; [exact OA |]. rewrite Forall_forall in D. apply D. exact (zth_In _ _ _ En).
      * apply Forall_forall. intros z I. rewrite Forall_forall in D. apply D. rewrite <- (firstn_skipn (Z.to_nat (n + 1))). apply in_or_app. now right.
  - repeat (apply bind_ok in E as (? & _ & E)). injection E as <-. split; [eexists; reflexivity |]. cbn [dictionaries with_filter]. split; [lia | auto].
  - apply C in E as [G ->]. split; [exact G | split; [lia | auto]].
  - apply C in E as [G ->]. split; [exact G | split; [lia | auto]].
Qed.

Lemma run_grows program : forall m m' : memory, run m program = Ok m' -> (exists l, filters m' = filters m ++ l) /\ zlen (dictionaries m) <= zlen (dictionaries m') /\
  (Forall dictionary (dictionaries m) -> (forall d, In (NewDictionary d) program -> dictionary d) -> Forall dictionary (dictionaries m')).
Proof.
  induction program as [| a program IH]; intros m m' E; cbn [BandsSharing.run] in E.
  - injection E as <-. split; [exists []; now rewrite app_nil_r | split; [lia | auto]].
  - apply bind_ok in E as (m1 & E1 & E). destruct (step_grows m m1 a E1) as ([l1 L1] & Z1 & D1). destruct (IH m1 m' E) as ([l2 L2] & Z2 & D2).
    split; [exists (l1 ++ l2); now rewrite L2, L1, app_assoc |]. split; [lia |]. intros D V. apply D2; [apply D1; [exact D |] | intros d I; apply V; now right].
    destruct a; try exact I. apply V. now left.
Qed.

Lemma run_app p q : forall m : memory, run m (p ++ q) = (m <- run m p ;; run m q).
Proof. induction p as [| a p IH]; intros m; [reflexivity |]. cbn [app BandsSharing.run]. destruct (step m a) as [m1 |]; cbn [bind]; [apply IH | reflexivity]. Qed.

Lemma items_total (ds : list (dict (X := X) K)) ns b : forall ds' : list (dict (X := X) K), zlen ds <= zlen ds' -> sequence (map (item ds) ns) = Ok b ->
  exists b', sequence (map (item ds') ns) = Ok b' /\ zlen b' = zlen b /\ (Forall dictionary ds' -> Forall dictionary b') /\ Forall2 (fun n d => zth ds' n = Some d) ns b'.
Proof.
  intros ds' L. revert b. induction ns as [| n ns IH]; intros b E; cbn [map sequence] in *.
  - injection E as <-. exists []. repeat split; auto.
  - unfold item in E at 1. destruct (zth ds n) as [d |] eqn:En; [| discriminate]. cbn [bind] in E. destruct (sequence (map (item ds) ns)) as [ds1 |] eqn:Es; [| discriminate].
    cbn [bind] in E. injection E as <-. destruct (IH ds1 eq_refl) as (b' & Eb & Lb & Db & Fb). pose proof (zth_range _ _ _ En).
    destruct (zth_in ds' n) as (d' & Ed); [lia |]. exists (d' :: b'). unfold item at 1. rewrite Ed, Eb. cbn [bind]. split; [reflexivity |].
    split; [rewrite !zlen_cons; lia |]. split; [| now constructor]. intros D. constructor; [| exact (Db D)]. rewrite Forall_forall in D. exact (D d' (zth_In _ _ _ Ed)).
Qed.

(** The flags and the labels of a filter are determined by the arguments and the number of the dictionaries. *)
Lemma mk_bands_flags (b b' : list (dict (X := X) K)) i e labels B B' : Forall dictionary b -> Forall dictionary b' -> zlen b = zlen b' ->
  mk_bands A b i e labels = Ok B -> mk_bands A b' i e labels = Ok B' ->
  b_interpolations B = b_interpolations B' /\ b_extrapolations B = b_extrapolations B' /\ f_labels (b_filter B) = f_labels (b_filter B').
Proof.
  intros D D' L E E'.
  destruct (mk_bands_inv A b i e labels B OA D E) as (t1 & il & el & ls & HB & _ & _ & _ & T).
  destruct (mk_bands_inv A b' i e labels B' OA D' E') as (t1' & il' & el' & ls' & HB' & _ & _ & _ & T'). subst B B'.
  unfold mk_bands in E, E'. rewrite <- L in E'. apply bind_ok in E as (il0 & Ei & E). rewrite Ei in E'. cbn [bind] in E'.
  apply bind_ok in E as (el0 & Ee & E). rewrite Ee in E'. cbn [bind] in E'. apply bind_ok in E as (t & Et & E). apply bind_ok in E' as (t' & Et' & E').
  assert (Lt : zlen t = zlen t').
  { apply sequence_zth in Et as [-> _]. apply sequence_zth in Et' as [-> _]. rewrite !zlen_map2. now rewrite L. }
  injection E as _ <- <- <-. injection E' as _ <- <- <-. cbn. rewrite Lt. now repeat split.
Qed.

Lemma current_attributes before ns i e labels after (m1 m : memory) :
  (forall d, In (NewDictionary d) (before ++ after) -> dictionary d) ->
  run (Memory [] []) before = Ok m1 -> run m1 (Create ns i e labels :: after) = Ok m ->
  exists s b1 B1 b B S,
    zth (filters m) (zlen (filters m1)) = Some s /\
    Forall2 (fun n d => zth (dictionaries m1) n = Some d) ns b1 /\ mk_bands A b1 i e labels = Ok B1 /\ st_filter s = b_filter B1 /\
    Forall2 (fun n d => zth (dictionaries m) n = Some d) ns b /\ mk_bands A b i e labels = Ok B /\ observed m s = Ok S /\
    Forall dictionary b /\ b_bands S = b_bands B /\ b_interpolations S = b_interpolations B /\ b_extrapolations S = b_extrapolations B /\
    f_labels (b_filter S) = f_labels (b_filter B).
Proof.
  intros V E1 E. cbn [BandsSharing.run] in E. apply bind_ok in E as (m2 & E2 & E). cbn [BandsSharing.step] in E2.
  apply bind_ok in E2 as (b1 & Eb1 & E2). apply bind_ok in E2 as (B1 & EB1 & E2). injection E2 as <-.
  destruct (run_grows before _ _ E1) as (_ & _ & D1). specialize (D1 (Forall_nil _) (fun d I => V d (in_or_app _ _ _ (or_introl I)))).
  destruct (run_grows after _ _ E) as ([l Ll] & Lz & D2). cbn [dictionaries filters with_filter] in *. specialize (D2 D1 (fun d I => V d (in_or_app _ _ _ (or_intror I)))).
  destruct (items_total _ ns b1 (dictionaries m1) (Z.le_refl _) Eb1) as (b1' & Eb1' & _ & Db1 & Fb1). rewrite Eb1 in Eb1'. injection Eb1' as <-. specialize (Db1 D1).
  destruct (items_total _ ns b1 (dictionaries m) Lz Eb1) as (b & Eb & Lb & Db & Fb). specialize (Db D2).
  assert (P : zlen b = 0 \/ some_flag i /\ some_flag e).
  { destruct (Z.eq_dec (zlen b) 0) as [N | N]; [now left | right]. pose proof (zlen_nonneg b). unfold mk_bands in EB1. apply bind_ok in EB1 as (il & Ei & EB1). apply bind_ok in EB1 as (el & Ee & _).
    assert (Q : forall f l, extended_flags f (zlen b1) = Ok l -> some_flag f); [| split; [exact (Q _ _ Ei) | exact (Q _ _ Ee)]].
    intros [j | [| j fl]] l' H'; cbn; try easy. cbn [extended_flags] in H'. rewrite zlen_nil in H'. destruct (Z.ltb_spec 0 (zlen b1)); [discriminate | lia]. }
  destruct (mk_bands_ok A OA b i e labels Db P) as (B & EB & _).
  exists (stored_as B1 (map Shared ns)), b1, B1, b, B, (MkBands (b_filter B1) b (b_interpolations B1) (b_extrapolations B1)).
  split; [rewrite Ll, <- app_assoc, zth_app, Z.ltb_irrefl, Z.sub_diag; reflexivity |]. split; [exact Fb1 |]. split; [exact EB1 |]. split; [reflexivity |].
  split; [exact Fb |]. split; [exact EB |]. split; [unfold observed; cbn [st_bands stored_as]; rewrite deref_shared, Eb; reflexivity |].
  destruct (mk_bands_flags b1 b i e labels B1 B Db1 Db (eq_sym Lb) EB1 EB) as (F1 & F2 & F3).
  split; [exact Db |]. cbn [b_bands b_interpolations b_extrapolations b_filter]. rewrite (mk_bands_dictionaries _ _ _ _ _ EB). now repeat split.
Qed.

Theorem current_values before ns i e labels after (m1 m : memory) :
  (forall d, In (NewDictionary d) (before ++ after) -> dictionary d) ->
  run (Memory [] []) before = Ok m1 -> run m1 (Create ns i e labels :: after) = Ok m ->
  exists s b1 B1 b B S,
    zth (filters m) (zlen (filters m1)) = Some s /\
    Forall2 (fun n d => zth (dictionaries m1) n = Some d) ns b1 /\ mk_bands A b1 i e labels = Ok B1 /\ st_filter s = b_filter B1 /\
    Forall2 (fun n d => zth (dictionaries m) n = Some d) ns b /\ mk_bands A b i e labels = Ok B /\ observed m s = Ok S /\
    forall reference factor, to_db A log10 S reference factor = to_db A log10 B reference factor /\
      from_db A exp10 S reference factor = from_db A exp10 B reference factor.
Proof.
  intros V E1 E. destruct (current_attributes before ns i e labels after m1 m V E1 E) as (s & b1 & B1 & b & B & S & H1 & H2 & H3 & H4 & H5 & H6 & H7 & _ & F0 & F1 & F2 & F3).
  exists s, b1, B1, b, B, S. repeat (split; [assumption |]). intros r f. unfold to_db, from_db. rewrite F0, F1, F2, F3. now split.
Qed.
End Sharing.
