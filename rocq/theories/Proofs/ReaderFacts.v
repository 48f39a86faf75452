(** The order, in which the readers are tried. *)

From Coq Require Import String ZArith List Bool Lia.
From Verif.Model Require Import Py Persistence.
From Verif.Spec Require Import PersistenceSpec.
Import ListNotations.
Open Scope list_scope.

Section Readers.
Context {W D : Type}.
Variables (w : W) (path : string).
Notation reader := (reader_class W D).

(** The search for the first success *)
Fixpoint go (l : list reader) (cause : option exn) : option (reading D) * option exn :=
  match l with
  | [] => (None, cause)
  | c :: t => match r_call c w path with
              | Ok d => (Some (Loaded d), cause)
              | Err e => go t (first_exception cause e)
              end
  end.

Lemma caught_true (c : reader) e : returns w path c -> r_call c w path = Err e -> caught e = true.
Proof. intros R E. destruct e; auto. Qed.

Lemma go_app l : forall m cause,
  go (l ++ m) cause = match go l cause with (Some r, c) => (Some r, c) | (None, c) => go m c end.
Proof.
  induction l as [| c t IH]; intros m cause; cbn; auto.
  destruct (r_call c w path); auto.
Qed.

Lemma go_spec l : forall cause,
  match go l cause with
  | (Some (Loaded d), _) => first_success w path l d
  | (Some _, _) => False
  | (None, cause') =>
      (forall c, In c l -> fails w path c)
      /\ match cause with Some e => cause' = Some e | None => exception_of_first w path l cause' end
  end.
Proof.
  induction l as [| c t IH]; intros cause; cbn.
  - split; [intros c [] |]. destruct cause; auto.
  - destruct (r_call c w path) as [d | e] eqn:E.
    + exists [], c, t. repeat split; auto. intros b [].
    + specialize (IH (first_exception cause e)). destruct (go t (first_exception cause e)) as [[[d | | ] |] cause'].
      * destruct IH as (b & x & a & -> & Ex & Hb). exists (c :: b), x, a. repeat split; auto.
        intros y [<- | I]; [exists e; auto | auto].
      * auto.
      * auto.
      * destruct IH as [Hf Hc]. split.
        -- intros x [<- | I]; [exists e; auto | auto].
        -- destruct cause as [e' |]; cbn in Hc; subst cause'; cbn; auto.
Qed.

Lemma instances_go l : (forall c, In c l -> returns w path c) -> forall cause rl,
  try_instances w path l cause rl = (fst (go l cause), snd (go l cause), rl).
Proof.
  induction l as [| c t IH]; intros Ret cause rl; cbn; auto.
  destruct (r_call c w path) as [d | e] eqn:E; auto. rewrite (caught_true c e (Ret c (or_introl eq_refl)) E).
  apply IH. intros y I. apply Ret. now right.
Qed.

Lemma is_instance_name (c r : reader) : is_instance c r = true <-> r_name r = r_name c.
Proof. unfold is_instance. apply String.eqb_eq. Qed.

Lemma instance_used c (l : list reader) : existsb (is_instance c) l = used_before l c.
Proof.
  unfold used_before. destruct (in_dec string_dec (r_name c) (map r_name l)) as [I | N].
  - apply existsb_exists. apply in_map_iff in I. destruct I as (r & E & I). exists r. split; auto. now apply is_instance_name.
  - destruct (existsb (is_instance c) l) eqn:E; auto. destruct N.
    apply existsb_exists in E. destruct E as (r & I & E). apply is_instance_name in E. rewrite <- E. now apply in_map.
Qed.

Lemma claims_associated x (c : reader) : claims x c = associated x c.
Proof.
  unfold claims, associated. destruct (in_dec string_dec x (r_extensions c)) as [I | N].
  - apply existsb_exists. exists x. split; auto. apply String.eqb_refl.
  - destruct (existsb (String.eqb x) (r_extensions c)) eqn:E; auto. destruct N.
    apply existsb_exists in E. destruct E as (y & I & E). apply String.eqb_eq in E. now subst y.
Qed.

Lemma used_app c (l m : list reader) : used_before (l ++ m) c = used_before l c || used_before m c.
Proof. rewrite <- !instance_used. apply existsb_app. Qed.

Lemma used_not c (l : list reader) : ~ In (r_name c) (map r_name l) -> used_before l c = false.
Proof. intros N. unfold used_before. destruct (in_dec _ _ _); tauto. Qed.

Definition selected x (known : list reader) := filter (fun c => available w c && associated x c && negb (used_before known c)).
Definition remaining x (known : list reader) := filter (fun c => available w c && negb (associated x c) && negb (used_before known c)).

Lemma filter_eq {A} (f g : A -> bool) l : (forall x, In x l -> f x = g x) -> filter f l = filter g l.
Proof.
  induction l as [| a t IH]; intros H; cbn; auto.
  rewrite (H a (or_introl eq_refl)), IH; auto. intros x I. apply H. now right.
Qed.

Lemma associated_go x l : forall cause rl,
  NoDup (map r_name l) -> (forall c, In c l -> regular_init w c) -> (forall c, In c l -> returns w path c) ->
  exists rest,
    try_associated w path x l cause rl = (fst (go (selected x rl l) cause), snd (go (selected x rl l) cause), rest)
    /\ (fst (go (selected x rl l) cause) = None -> rest = rl ++ selected x rl l)
    /\ (exists tried, rest = rl ++ tried /\ incl tried (selected x rl l)).
Proof.
  induction l as [| c t IH]; intros cause rl N R Ret.
  - exists rl. cbn. rewrite app_nil_r. repeat split; auto. exists []. rewrite app_nil_r. split; auto. intros ? [].
  - cbn [map] in N. inversion N as [| ? ? Nc Nt]; subst.
    assert (Rt : forall c, In c t -> regular_init w c) by (intros; apply R; now right).
    assert (Rett : forall c, In c t -> returns w path c) by (intros; apply Ret; now right).
    cbn [try_associated]. rewrite claims_associated, instance_used.
    unfold selected. cbn [filter]. fold (selected x rl t).
    destruct (associated x c) eqn:A; cbn [andb].
    2: { rewrite andb_false_r. cbn [andb]. apply IH; auto. }
    destruct (used_before rl c) eqn:U; cbn [negb].
    { rewrite andb_false_r. apply IH; auto. }
    rewrite !andb_true_r.
    destruct (R c (or_introl eq_refl)) as [E | E].
    2: { assert (Av : available w c = false) by (unfold available; now rewrite E). rewrite !Av, !E. apply IH; auto. }
    assert (Av : available w c = true) by (unfold available; now rewrite E). rewrite !Av, !E.
    assert (S : selected x (rl ++ [c]) t = selected x rl t).
    { apply filter_eq. intros y I. rewrite used_app. f_equal. f_equal.
      rewrite (used_not y [c]); [apply orb_false_r |]. cbn. intros [Ey | []]. apply Nc. rewrite Ey. now apply in_map. }
    cbn [go]. destruct (r_call c w path) as [d | e] eqn:Ec.
    + exists (rl ++ [c]). cbn. repeat split; auto; try discriminate. exists [c]. split; auto. intros y [<- | []]. now left.
    + rewrite (caught_true c e (Ret c (or_introl eq_refl)) Ec).
      destruct (IH (first_exception cause e) (rl ++ [c]) Nt Rt Rett) as (rest & E1 & E2 & tried & E3 & I3).
      rewrite S in *. exists rest. split; [exact E1 |]. split.
      * intros H. rewrite (E2 H), <- app_assoc. reflexivity.
      * exists (c :: tried). rewrite E3, <- app_assoc. split; auto.
        intros y [<- | I]; [now left | right; auto].
Qed.

Lemma others_go x l : forall cause rl,
  NoDup (map r_name l) -> (forall c, In c l -> regular_init w c) -> (forall c, In c l -> returns w path c) ->
  exists rest,
    try_others w path x l cause rl = (fst (go (remaining x rl l) cause), snd (go (remaining x rl l) cause), rest)
    /\ (exists tried, rest = rl ++ tried /\ incl tried (remaining x rl l)).
Proof.
  induction l as [| c t IH]; intros cause rl N R Ret.
  - exists rl. cbn. split; auto. exists []. rewrite app_nil_r. split; auto. intros ? [].
  - cbn [map] in N. inversion N as [| ? ? Nc Nt]; subst.
    assert (Rt : forall c, In c t -> regular_init w c) by (intros; apply R; now right).
    assert (Rett : forall c, In c t -> returns w path c) by (intros; apply Ret; now right).
    cbn [try_others]. rewrite claims_associated, instance_used.
    unfold remaining. cbn [filter]. fold (remaining x rl t).
    destruct (associated x c) eqn:A; cbn [andb negb].
    { rewrite andb_false_r. cbn [andb]. apply IH; auto. }
    destruct (used_before rl c) eqn:U; cbn [negb].
    { rewrite andb_false_r. apply IH; auto. }
    rewrite !andb_true_r.
    destruct (R c (or_introl eq_refl)) as [E | E].
    2: { assert (Av : available w c = false) by (unfold available; now rewrite E). rewrite !Av, !E. apply IH; auto. }
    assert (Av : available w c = true) by (unfold available; now rewrite E). rewrite !Av, !E.
    cbn [go]. destruct (r_call c w path) as [d | e] eqn:Ec.
    + exists (rl ++ [c]). cbn. split; auto. exists [c]. split; auto. intros y [<- | []]. now left.
    + rewrite (caught_true c e (Ret c (or_introl eq_refl)) Ec).
      destruct (IH (first_exception cause e) rl Nt Rt Rett) as (rest & E1 & tried & E3 & I3).
      exists rest. split; [exact E1 |]. exists tried. split; auto. intros y I. right; auto.
Qed.

End Readers.
