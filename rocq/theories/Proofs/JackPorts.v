(** Proofs about the names of the ports, the reports of xruns and the stored connections of a JACK client. *)

From Coq Require Import String ZArith QArith List Bool FinFun Lia ZifyBool.
From Verif.Model Require Import Py Numpy Functions Signal Text Jack.
From Verif.Spec Require Import JackSpec.
From Verif.Proofs Require Import PyFacts TextFacts.
Import ListNotations.
Open Scope list_scope.
Open Scope Z_scope.

(** ** The names of the output ports *)

Lemma contains_iff l s : contains l s = true <-> In s l.
Proof.
  unfold contains. rewrite existsb_exists. split.
  - intros (x & X & E). apply String.eqb_eq in E. now subst.
  - intros H. exists s. split; auto. apply String.eqb_refl.
Qed.

Lemma contains_false l s : contains l s = false <-> ~ In s l.
Proof. rewrite <- contains_iff. destruct (contains l s); split; intros; congruence. Qed.

Lemma underscore_step name k : ((name ++ "_") ++ underscores k)%string = (name ++ underscores (S k))%string.
Proof. rewrite append_assoc. reflexivity. Qed.

Lemma append_underscores_ok checked fuel : forall name,
  (exists k, (k <= fuel)%nat /\ ~ In (name ++ underscores k)%string checked) ->
  exists k, append_underscores fuel name checked = Ok (name ++ underscores k)%string /\ ~ In (name ++ underscores k)%string checked /\
    forall j, (j < k)%nat -> In (name ++ underscores j)%string checked.
Proof.
  induction fuel as [|fuel IH]; intros name (k & K & N); cbn [append_underscores].
  - assert (k = O) by lia. subst. exists O. cbn [underscores] in *. rewrite append_nil in *.
    destruct (contains checked name) eqn:C; [apply contains_iff in C; now elim N|]. repeat split; auto. lia.
  - destruct (contains checked name) eqn:C.
    + apply contains_iff in C. destruct k as [|k]; [cbn in N; rewrite append_nil in N; now elim N|].
      destruct (IH (name ++ "_")%string) as (j & E & NJ & J).
      { exists k. split; [lia|]. now rewrite underscore_step. }
      rewrite underscore_step in *. exists (S j). split; [exact E|]. split; auto.
      intros [|i] I; [cbn; now rewrite append_nil|]. rewrite <- underscore_step. apply J. lia.
    + apply contains_false in C. exists O. cbn [underscores]. rewrite append_nil. repeat split; auto. lia.
Qed.

Lemma underscores_inj name j k : (name ++ underscores j)%string = (name ++ underscores k)%string -> j = k.
Proof.
  intros H. apply (f_equal String.length) in H. rewrite !length_append in H.
  assert (L : forall k, String.length (underscores k) = k) by (intros i; induction i; cbn; congruence). rewrite !L in H. lia.
Qed.

(** Among the names with at most as many underscores as there are names, one is free. *)
Lemma free_name name checked : exists k, (k <= List.length checked)%nat /\ ~ In (name ++ underscores k)%string checked.
Proof.
  destruct (existsb (fun k => negb (contains checked (name ++ underscores k)%string)) (seq 0 (S (List.length checked)))) eqn:E.
  - apply existsb_exists in E. destruct E as (k & K & C). apply in_seq in K. exists k. split; [lia|].
    apply contains_false. now destruct (contains _ _).
  - exfalso. assert (H : forall k, In k (seq 0 (S (List.length checked))) -> In (name ++ underscores k)%string checked).
    { intros k K. apply contains_iff. destruct (contains checked (name ++ underscores k)) eqn:C; auto.
      assert (existsb (fun k => negb (contains checked (name ++ underscores k)%string)) (seq 0 (S (List.length checked))) = true).
      { apply existsb_exists. exists k. split; auto. now rewrite C. } congruence. }
    assert (ND : NoDup (map (fun k => (name ++ underscores k)%string) (seq 0 (S (List.length checked))))).
    { apply FinFun.Injective_map_NoDup; [intros x y; apply underscores_inj|apply seq_NoDup]. }
    assert (I : incl (map (fun k => (name ++ underscores k)%string) (seq 0 (S (List.length checked)))) checked).
    { intros x X. apply in_map_iff in X. destruct X as (k & <- & K). auto. }
    apply NoDup_incl_length in I; auto. rewrite map_length, seq_length in I. lia.
Qed.

(** What is said about the name number [i], when [earlier] are the names before it. *)
Definition named (i : Z) (earlier : list string) (label name : string) : Prop :=
  (label <> ""%string -> ~ In label earlier -> name = label) /\
  (label = ""%string \/ In label earlier ->
   exists k, name = ("output_" ++ py_str (i + 1) ++ underscores k)%string /\
     forall j, (j < k)%nat -> In ("output_" ++ py_str (i + 1) ++ underscores j)%string earlier).

Lemma named_perm i earlier earlier' label name : (forall x, In x earlier <-> In x earlier') -> named i earlier label name -> named i earlier' label name.
Proof.
  intros P [N1 N2]. split.
  - intros L I. apply N1; auto. now rewrite P.
  - rewrite <- P. intros H. destruct (N2 H) as (k & E & J). exists k. split; auto. intros j Jk. rewrite <- P. auto.
Qed.

Lemma check_labels_ok labels : forall i checked, NoDup checked -> ~ In ""%string checked ->
  exists names, check_labels i labels checked = Ok names /\ zlen names = zlen labels /\ NoDup (rev names ++ checked) /\
    ~ In ""%string names /\
    forall n label, zth labels n = Some label -> exists name, zth names n = Some name /\
      named (i + n) (rev (ztake n names) ++ checked) label name.
Proof.
  induction labels as [|label labels IH]; intros i checked ND NE; cbn [check_labels].
  - exists []. repeat split; auto. intros n l. rewrite zth_nil. discriminate.
  - assert (S : exists name, (if String.eqb label "" || contains checked label then
        append_underscores (List.length checked) ("output_" ++ py_str (i + 1))%string checked else Ok label) = Ok name /\
        ~ In name checked /\ name <> ""%string /\ named i checked label name).
    { destruct (String.eqb label "" || contains checked label) eqn:C.
      - destruct (append_underscores_ok checked (List.length checked) ("output_" ++ py_str (i + 1))%string) as (k & E & N & J).
        { apply free_name. }
        rewrite E. rewrite append_assoc in N. eexists. split; [reflexivity|]. rewrite append_assoc. split; [exact N|]. split; [discriminate|].
        split.
        + intros L I. apply orb_prop in C. destruct C as [C|C]; [apply String.eqb_eq in C; congruence|apply contains_iff in C; contradiction].
        + intros _. exists k. split; auto.
      - apply orb_false_elim in C. destruct C as [C1 C2]. apply contains_false in C2. apply String.eqb_neq in C1.
        exists label. split; [reflexivity|]. split; [exact C2|]. split; [exact C1|]. split; auto. intros [H|H]; [congruence|contradiction]. }
    destruct S as (name & E & N & NE' & Nm).
    destruct (IH (i + 1) (name :: checked)) as (names & E' & L & ND' & NE'' & H).
    { now constructor. } { cbn. intros [X|X]; congruence. }
    exists (name :: names). split; [|split; [|split; [|split]]].
    + destruct (String.eqb label "" || contains checked label).
      * rewrite E. cbn [bind]. rewrite E'. reflexivity.
      * injection E as ->. rewrite E'. reflexivity.
    + rewrite !zlen_cons. lia.
    + cbn [rev]. rewrite <- app_assoc. exact ND'.
    + cbn. intros [X|X]; congruence.
    + intros n l Z. rewrite zth_cons in *. destruct (Z.eqb_spec n 0) as [->|Z0].
      * injection Z as ->. exists name. split; auto. rewrite Z.add_0_r. exact Nm.
      * pose proof (zth_range _ _ _ Z). destruct (H _ _ Z) as (name' & Z' & Nm'). exists name'. split; auto.
        replace (i + n) with (i + 1 + (n - 1)) by lia. eapply named_perm; [|exact Nm'].
        assert (T : ztake n (name :: names) = name :: ztake (n - 1) names).
        { unfold ztake. replace (Z.to_nat n) with (S (Z.to_nat (n - 1))) by lia. reflexivity. }
        rewrite T. cbn [rev]. intros x. rewrite !in_app_iff. cbn. tauto.
Qed.

Lemma port_names {A} (s : signal A) : wf_signal s ->
  exists names, output_port_names s = Ok names /\ zlen names = count s /\ NoDup names /\ ~ In ""%string names /\
    forall i label, zth (labels s) i = Some label -> exists name, zth names i = Some name /\
      (label <> ""%string -> ~ In label (ztake i names) -> name = label) /\
      (label = ""%string \/ In label (ztake i names) ->
       exists k, name = ("output_" ++ py_str (i + 1) ++ underscores k)%string /\
         forall j, (j < k)%nat -> In ("output_" ++ py_str (i + 1) ++ underscores j)%string (ztake i names)).
Proof.
  intros [_ L]. change (zlen (labels s) = count s) in L. unfold output_port_names.
  assert (S : subseq (between 0 (count s)) (labels s) = labels s).
  { pose proof (zlen_nonneg (labels s)). apply zth_ext. intros i. rewrite zth_subseq, lower_between, upper_between by lia.
    destruct (_ && _) eqn:E; [f_equal; lia|]. symmetry. apply zth_out. lia. }
  rewrite S. destruct (check_labels_ok (labels s) 0 []) as (names & E & Ln & ND & NE & H); [constructor|auto|].
  rewrite E. cbn [bind]. replace (_ <? _) with false by lia. rewrite app_nil_r in ND.
  exists names. split; [reflexivity|]. split; [lia|]. split; [rewrite <- (rev_involutive names); now apply NoDup_rev|]. split; auto.
  intros i label Z. destruct (H _ _ Z) as (name & Z' & Nm). exists name. split; auto.
  apply (named_perm _ _ (ztake i names)) in Nm; [exact Nm|]. intros x. rewrite app_nil_r. symmetry. apply in_rev.
Qed.

(** ** Reports of xruns *)

Lemma xruns_count {T} (mul : T -> T -> T) million blocksize (l : list (T * Z)) : forall old,
  fst (fold_left (fun old r => on_xrun mul million blocksize (fst r) (snd r) old) l old) = fst old + zlen l.
Proof.
  induction l as [|r l IH]; intros old; cbn [fold_left]; [change (zlen (@nil (T * Z))) with 0; lia|]. rewrite IH, zlen_cons. unfold on_xrun. cbn [fst]. lia.
Qed.

(** ** Stored connections *)

Lemma position_of_ok p ports : forall i k, position_of p ports i = Some k ->
  exists l m, ports = l ++ p :: m /\ k = i + zlen l /\ ~ In p l.
Proof.
  induction ports as [|q ports IH]; intros i k H; cbn in H; [discriminate|].
  destruct (String.eqb_spec q p) as [->|N].
  - injection H as <-. exists [], ports. repeat split; auto. change (zlen (@nil string)) with 0. lia.
  - destruct (IH _ _ H) as (l & m & -> & -> & I). exists (q :: l), m. repeat split; [rewrite zlen_cons; lia|]. cbn. tauto.
Qed.

Lemma position_of_in p ports : forall i, In p ports -> exists k, position_of p ports i = Some k.
Proof.
  induction ports as [|q ports IH]; intros i H; [contradiction|]. cbn. destruct (String.eqb_spec q p); eauto.
  destruct H; [contradiction|auto].
Qed.

Lemma filter_other p (l : list string) : ~ In p l -> filter (fun q => negb (String.eqb q p)) l = l.
Proof.
  induction l as [|q l IH]; intros H; cbn; auto. destruct (String.eqb_spec q p) as [->|]; [elim H; now left|].
  cbn. f_equal. apply IH. intros I. apply H. now right.
Qed.

Lemma getitem_nonneg {X} (l : list X) i : 0 <= i -> getitem l i = match zth l i with Some x => Ok x | None => Err IndexError end.
Proof. intros I. unfold getitem. replace (i <? 0) with false by lia. reflexivity. Qed.

Lemma find_other (f : string -> bool) l p m : f p = false -> find f (l ++ p :: m) = find f (l ++ m).
Proof. intros H. induction l as [|x l IH]; cbn; [now rewrite H|]. destruct (f x); auto. Qed.

Lemma adapt_ok client ports p index t : NoDup ports -> position_of p ports 0 = Some index ->
  (forall q r, In q ports -> In r ports -> q <> full_name client r) -> plain_target t ->
  match adapt_connection client p index t with
  | None => find_port client ports t = Ok p
  | Some t' => find_port client ports t <> Ok p /\
      find_port client (filter (fun q => negb (String.eqb q p)) ports) t' = find_port client ports t
  end.
Proof.
  intros ND Hp Q T. destruct (position_of_ok _ _ _ _ Hp) as (l & m & -> & -> & Nl).
  assert (Nm : ~ In p m). { apply NoDup_remove_2 in ND. intros H. apply ND. apply in_or_app. auto. }
  assert (F : filter (fun q => negb (String.eqb q p)) (l ++ p :: m) = l ++ m).
  { rewrite filter_app. cbn. rewrite String.eqb_refl. cbn. now rewrite !filter_other. }
  rewrite F. pose proof (zlen_nonneg l) as Zl. destruct t as [q|n|i]; cbn [adapt_connection find_port plain_target] in *.
  - destruct (String.eqb_spec q p) as [->|N]; [reflexivity|]. split; [congruence|reflexivity].
  - destruct (String.eqb n p || String.eqb n (full_name client p)) eqn:E.
    + (* the name belongs to the port *)
      assert (X : find (fun q => String.eqb n q || String.eqb n (full_name client q)) (l ++ p :: m) = Some p); [|now rewrite X].
      assert (O : forall r, In r (l ++ p :: m) -> String.eqb n r || String.eqb n (full_name client r) = true -> r = p).
      { intros r R H. rewrite orb_true_iff, !String.eqb_eq in E, H.
        assert (P : In p (l ++ p :: m)) by (apply in_or_app; right; now left).
        destruct E as [-> | ->], H as [H|H]; auto.
        - now elim (Q _ _ P R).
        - symmetry in H. now elim (Q _ _ R P).
        - unfold full_name in H. apply append_inj_l in H. cbn in H. now injection H. }
      destruct (find _ (l ++ p :: m)) as [r|] eqn:Fi.
      * apply find_some in Fi. destruct Fi as [R H]. f_equal. auto.
      * eapply find_none in Fi; [|apply in_or_app; right; left; reflexivity]. cbn in Fi. congruence.
    + rewrite find_other by exact E. split; [|reflexivity].
      destruct (find _ (l ++ m)) as [r|] eqn:Fi; [|discriminate]. apply find_some in Fi. destruct Fi as [R _].
      intros H. injection H as ->. apply in_app_or in R. tauto.
  - rewrite getitem_nonneg by auto. destruct (i =? 0 + zlen l) eqn:E.
    + replace i with (zlen l) by lia. rewrite zth_app, Z.ltb_irrefl, Z.sub_diag. reflexivity.
    + cbn [find_port]. rewrite (getitem_nonneg (l ++ m)) by (destruct (_ <? _) eqn:B; lia). rewrite !zth_app, zth_cons. split.
      * destruct (i <? zlen l) eqn:B.
        -- destruct (zth l i) as [x|] eqn:Z; [|discriminate]. intros H. injection H as ->. apply zth_In in Z. contradiction.
        -- replace (i - zlen l =? 0) with false by lia. destruct (zth m _) as [x|] eqn:Z; [|discriminate].
           intros H. injection H as ->. apply zth_In in Z. contradiction.
      * destruct (i <? 0 + zlen l) eqn:B.
        -- replace (i <? zlen l) with true by lia. reflexivity.
        -- replace (i - 1 <? zlen l) with false by lia. replace (i <? zlen l) with false by lia.
           replace (i - zlen l =? 0) with false by lia. replace (i - 1 - zlen l) with (i - zlen l - 1) by lia. reflexivity.
Qed.

Lemma targets_iff client ports p t : targets client ports p t = true <-> find_port client ports t = Ok p.
Proof.
  unfold targets. destruct (find_port client ports t) as [q|e]; split; intros H; try discriminate.
  - apply String.eqb_eq in H. now subst.
  - injection H as ->. apply String.eqb_refl.
Qed.

Lemma remove_port {S} client spec p ports (connections : list (S * port_spec)) : NoDup ports ->
  (forall q r, In q ports -> In r ports -> q <> full_name client r) ->
  find_port client ports spec = Ok p -> In p ports -> Forall (fun c => plain_target (snd c)) connections ->
  exists ports' connections', remove_input_port client spec ports connections = Ok (ports', connections') /\
    (exists l m, ports = l ++ p :: m /\ ports' = l ++ m) /\
    Forall2 (fun c c' => fst c' = fst c /\ find_port client ports' (snd c') = find_port client ports (snd c))
      (filter (fun c => negb (targets client ports p (snd c))) connections) connections'.
Proof.
  intros ND Q E I T. unfold remove_input_port. rewrite E. cbn [bind]. destruct (position_of_in p ports 0 I) as [index Hp]. rewrite Hp.
  do 2 eexists. split; [reflexivity|]. split.
  - destruct (position_of_ok _ _ _ _ Hp) as (l & m & -> & _ & Nl). exists l, m. split; auto.
    rewrite filter_app. cbn. rewrite String.eqb_refl. cbn. apply NoDup_remove_2 in ND. rewrite !filter_other; auto.
    intros H. apply ND. apply in_or_app. auto.
  - induction T as [|[o t] connections Tt _ IH]; cbn [filter filter_map fst snd]; [constructor|].
    pose proof (adapt_ok client ports p index t ND Hp Q Tt) as A. cbn [snd] in *.
    destruct (adapt_connection client p index t) as [t'|].
    + destruct A as [A1 A2]. replace (targets client ports p t) with false.
      * cbn [negb]. constructor; auto.
      * symmetry. apply not_true_iff_false. now rewrite targets_iff.
    + apply targets_iff in A. rewrite A. exact IH.
Qed.

(** A negative index is not adapted. *)
Lemma remove_last_port {S} client p ports q (o : S) :
  find_port client ((ports ++ [q]) ++ [p]) (PIndex (-1)) = Ok p /\
  (~ In p (ports ++ [q]) -> remove_input_port client (PIndex (-1)) ((ports ++ [q]) ++ [p]) [(o, PIndex (-1))] =
   Ok (ports ++ [q], [(o, PIndex (-1))]) /\ find_port client (ports ++ [q]) (PIndex (-1)) = Ok q).
Proof.
  assert (G : forall l (x : string), getitem (l ++ [x]) (-1) = Ok x).
  { intros l x. unfold getitem. cbn [Z.ltb Z.compare]. rewrite zlen_app, zth_app. change (zlen [x]) with 1. pose proof (zlen_nonneg l).
    replace (-1 + (zlen l + 1) <? zlen l) with false by lia. replace (-1 + (zlen l + 1) - zlen l) with 0 by lia. reflexivity. }
  cbn [find_port]. rewrite !G. split; [reflexivity|]. intros N. split; [|reflexivity].
  unfold remove_input_port. cbn [find_port]. rewrite G. cbn [bind].
  destruct (position_of_in p ((ports ++ [q]) ++ [p]) 0) as [k K]; [apply in_or_app; right; now left|]. rewrite K.
  destruct (position_of_ok _ _ _ _ K) as (l & m & _ & -> & _). pose proof (zlen_nonneg l).
  cbn [filter_map adapt_connection snd fst]. replace (-1 =? _) with false by lia. replace (-1 <? _) with true by lia.
  rewrite filter_app, filter_other by auto. cbn. rewrite String.eqb_refl. cbn. now rewrite app_nil_r.
Qed.

Lemma xruns_latest blocksize (reports : list (Q * Z)) delay index :
  let report old r := on_xrun Qmult (1000000 # 1)%Q blocksize (fst r) (snd r) old in
  exists x, fold_left report (reports ++ [(delay, index)]) (0, None) = (zlen reports + 1, Some x) /\
    x_start x = index /\ x_stop x = index + blocksize.
Proof.
  intros report. rewrite fold_left_app. pose proof (xruns_count Qmult (1000000 # 1)%Q blocksize reports (0, None)) as C. fold report in C.
  cbn [fold_left]. unfold report at 1, on_xrun. rewrite C. cbn [fst snd].
  eexists. split; [reflexivity|]. split; reflexivity.
Qed.

Lemma xrun_delay blocksize delay index old : ~ (delay == 0)%Q ->
  exists x, snd (on_xrun Qmult (1000000 # 1)%Q blocksize delay index old) = Some x /\ ~ (x_delay x == delay / (1000000 # 1))%Q.
Proof.
  intros H. eexists. split; [reflexivity|]. cbn [x_delay]. intros E. apply H.
  assert (E' : (delay * (1000000 # 1) * (1000000 # 1) == delay)%Q).
  { rewrite E. field. }
  assert (Z : (delay * ((1000000 # 1) * (1000000 # 1) - 1) == 0)%Q).
  { setoid_replace (delay * ((1000000 # 1) * (1000000 # 1) - 1))%Q with (delay * (1000000 # 1) * (1000000 # 1) - delay)%Q by ring.
    rewrite E'. ring. }
  apply Qmult_integral in Z. destruct Z as [Z|Z]; auto. discriminate Z.
Qed.
