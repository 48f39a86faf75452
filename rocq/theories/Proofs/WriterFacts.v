(** Saving data sets. *)

From Coq Require Import String ZArith List Bool Lia.
From Verif.Model Require Import Py Persistence.
From Verif.Spec Require Import PersistenceSpec.
From Verif.Proofs Require Import ExtensionFacts ReaderResults.
Import ListNotations.
Open Scope list_scope.

Lemma lookup_In {K V} (eqb : K -> K -> bool) (sound : forall a b, eqb a b = true -> a = b) k (v : V) d :
  lookup eqb k d = Some v -> In (k, v) d.
Proof.
  induction d as [| [k' v'] t IH]; cbn; [discriminate |].
  destruct (eqb k k') eqn:E; intros H; [| right; auto].
  injection H as ->. apply sound in E. subst k'. now left.
Qed.

Lemma lookup_none {K V} (eqb : K -> K -> bool) (complete : forall a, eqb a a = true) k (d : list (K * V)) :
  lookup eqb k d = None -> ~ exists v, In (k, v) d.
Proof.
  induction d as [| [k' v'] t IH]; cbn; intros H [v I]; [exact I |].
  destruct (eqb k k') eqn:E; [discriminate |].
  destruct I as [I | I]; [injection I as -> ->; rewrite complete in E; discriminate |].
  apply IH; eauto.
Qed.

Lemma lookup_other {K V} (eqb : K -> K -> bool) (eq : forall a b, eqb a b = true <-> a = b) k k' (v : V) d :
  k' <> k -> lookup eqb k' (store eqb k v d) = lookup eqb k' d.
Proof.
  intros N. induction d as [| [a b] t IH]; cbn.
  - destruct (eqb k' k) eqn:E; auto. apply eq in E. contradiction.
  - destruct (eqb k a) eqn:E; cbn.
    + apply eq in E. subst a. destruct (eqb k' k) eqn:E'; auto. apply eq in E'. contradiction.
    + destruct (eqb k' a); auto.
Qed.

Section Writers.
Context {W D F : Type}.
Variable format_eqb : F -> F -> bool.
Hypothesis Feq : forall a b, format_eqb a b = true <-> a = b.
Variable classes : list (writer_class W D F).
Variable mapping : list (string * list F).
Hypothesis Regular : forall c, In c classes -> regular_writer c.

Notation get := (get_writer format_eqb classes).
Notation wfor := (writer_for classes).
Notation fof := (format_of mapping).
Notation tries := (attempts classes mapping).

Let Frefl a : format_eqb a a = true.
Proof. now apply Feq. Qed.
Let Fsound a b : format_eqb a b = true -> a = b.
Proof. apply Feq. Qed.

Lemma supported_in f (c : writer_class W D F) : existsb (format_eqb f) (w_formats c) = true <-> In f (w_formats c).
Proof.
  rewrite existsb_exists. split.
  - intros (x & I & E). apply Fsound in E. now subst x.
  - intros I. exists f. auto.
Qed.

Definition good_writers (ws : list (F * writer W D F)) : Prop :=
  forall f i, lookup format_eqb f ws = Some i -> wfor f i.

Definition good_extensions (xs : list (string * list (writer W D F))) : Prop :=
  forall x l, lookup String.eqb x xs = Some l -> forall i, In i l -> exists f, fof x f /\ wfor f i.

Definition good (st : state W D F) : Prop := good_writers (writers st) /\ good_extensions (extensions st).

Lemma new_writer_spec (w : W) (f : F) (l : list (writer_class W D F)) : (forall c, In c l -> regular_writer c) ->
  match new_writer format_eqb w f l with
  | Ok i => exists before after, l = before ++ w_class i :: after /\ w_format i = f /\ In f (w_formats (w_class i))
            /\ w_init (w_class i) w f = Ok tt /\ forall b, In b before -> In f (w_formats b) -> w_init b w f = Err ImportError
  | Err e => e = ValueError /\ forall c, In c l -> In f (w_formats c) -> w_init c w f = Err ImportError
  end.
Proof.
  induction l as [| c t IH]; intros R; cbn [new_writer].
  - split; auto. intros c [].
  - assert (Rt : forall c, In c t -> regular_writer c) by (intros; apply R; now right). specialize (IH Rt).
    assert (Skip : (In f (w_formats c) -> w_init c w f = Err ImportError) ->
      match new_writer format_eqb w f t with
      | Ok i => exists before after, c :: t = before ++ w_class i :: after /\ w_format i = f /\ In f (w_formats (w_class i))
                /\ w_init (w_class i) w f = Ok tt /\ forall b, In b before -> In f (w_formats b) -> w_init b w f = Err ImportError
      | Err e => e = ValueError /\ forall c', In c' (c :: t) -> In f (w_formats c') -> w_init c' w f = Err ImportError
      end).
    { intros Hc. destruct (new_writer format_eqb w f t) as [i | e].
      - destruct IH as (b & a & -> & H1 & H2 & H3 & H4). exists (c :: b), a. repeat split; auto.
        intros y [<- | I]; auto.
      - destruct IH as [-> H]. split; auto. intros y [<- | I]; auto. }
    destruct (existsb (format_eqb f) (w_formats c)) eqn:S.
    + apply supported_in in S. destruct (R c (or_introl eq_refl) w f) as [E | E]; rewrite E.
      * exists [], t. cbn. repeat split; auto. intros b [].
      * apply Skip. auto.
    + apply Skip. intros I. apply supported_in in I. congruence.
Qed.

Lemma get_writer_spec w f ws r ws' : good_writers ws -> get w f ws = (r, ws') ->
  good_writers ws'
  /\ (forall f' i, lookup format_eqb f' ws = Some i -> lookup format_eqb f' ws' = Some i)
  /\ match r with
     | Ok i => wfor f i /\ lookup format_eqb f ws' = Some i
               /\ (lookup format_eqb f ws = Some i \/ first_available classes w f (w_class i))
     | Err e => e = ValueError /\ unavailable classes w f
     end.
Proof.
  intros G E. unfold get_writer in E. destruct (lookup format_eqb f ws) as [i |] eqn:L.
  - injection E as <- <-. split; [auto |]. split; [auto |]. repeat split; auto; apply (G f i L).
  - pose proof (new_writer_spec w f classes Regular) as S.
    destruct (new_writer format_eqb w f classes) as [i | e].
    + injection E as <- <-. destruct S as (b & a & Ec & Ef & If & Ei & Hb).
      assert (Wi : wfor f i) by (split; [auto |]; split; [rewrite Ec; apply in_app_iff; right; now left | auto]).
      split; [| split; [| split; [auto | split]]].
      * intros f' i' H. destruct (format_eqb f' f) eqn:E.
        -- apply Fsound in E. subst f'. rewrite lookup_store in H by auto. injection H as <-. auto.
        -- rewrite lookup_other in H; auto. intros ->. rewrite Frefl in E. discriminate.
      * intros f' i' H. rewrite lookup_other; auto. intros ->. congruence.
      * now apply lookup_store.
      * right. exists b, a. repeat split; auto.
    + injection E as <- <-. destruct S as [-> S]. split; [exact G |]. split; [auto |]. split; [reflexivity | exact S].
Qed.

Variable data : D.
Variable path : string.

Lemma attempts_app x u v w : tries x data path u v -> tries x data path v w -> tries x data path u w.
Proof. induction 1; intros H'; auto. eapply one_attempt; eauto. Qed.

Lemma attempts_one x f i e u v : fof x f -> wfor f i -> run i data path u = (Err e, v) -> e = ValueError \/ e = ImportError ->
  tries x data path u v.
Proof. intros. eapply one_attempt; eauto. constructor. Qed.

(** How the loops end: by a success, by an exception, that is not caught, or by running to the end. *)
Definition ends x (w : W) (r : option (result unit)) (w' : W) : Prop :=
  match r with
  | None => tries x data path w w'
  | Some (Ok _) => exists f i w1, fof x f /\ wfor f i /\ tries x data path w w1 /\ run i data path w1 = (Ok tt, w')
  | Some (Err e) => e <> ValueError /\ exists f i w1, fof x f /\ wfor f i /\ tries x data path w w1 /\ run i data path w1 = (Err e, w')
  end.

Lemma ends_after x w1 r w' w : tries x data path w w1 -> ends x w1 r w' -> ends x w r w'.
Proof.
  intros T. destruct r as [[u | e] |]; cbn.
  - intros (f & i & w2 & H1 & H2 & H3 & H4). exists f, i, w2. repeat split; auto; try apply H2. eapply attempts_app; eauto.
  - intros (Ne & f & i & w2 & H1 & H2 & H3 & H4). split; auto. exists f, i, w2. repeat split; auto; try apply H2. eapply attempts_app; eauto.
  - apply attempts_app; auto.
Qed.

Lemma try_writers_spec x l : forall before w r l' w',
  (forall i, In i (before ++ l) -> exists f, fof x f /\ wfor f i) ->
  try_writers data path before l w = (r, l', w') ->
  (forall i, In i l' <-> In i (before ++ l)) /\ ends x w r w'
  /\ (r = None -> forall i, In i l -> exists u v, tries x data path w u /\ run i data path u = (Err ValueError, v) /\ tries x data path v w').
Proof.
  induction l as [| i t IH]; intros before w r l' w' G E; cbn [try_writers] in E.
  - injection E as <- <- <-. split; [intros; rewrite app_nil_r; tauto |]. split; [constructor |]. intros _ i [].
  - destruct (run i data path w) as [ri w1] eqn:Ei.
    destruct (G i) as (f & Ff & Fi); [apply in_app_iff; right; now left |].
    destruct ri as [u | e].
    + destruct u. injection E as <- <- <-. split; [| split; [| discriminate]].
      * intros j. cbn. rewrite !in_app_iff. cbn. tauto.
      * exists f, i, w. repeat split; auto; try apply Fi. constructor.
    + assert (Stop : e <> ValueError -> (Some (Err e), before ++ i :: t, w1) = (r, l', w') ->
        (forall j, In j l' <-> In j (before ++ i :: t)) /\ ends x w r w'
        /\ (r = None -> forall j, In j (i :: t) -> exists u v, tries x data path w u /\ run j data path u = (Err ValueError, v) /\ tries x data path v w')).
      { intros Ne E'. injection E' as <- <- <-. split; [tauto |]. split; [| discriminate].
        split; auto. exists f, i, w. repeat split; auto; try apply Fi. constructor. }
      destruct e; try (apply Stop; [discriminate | exact E]). clear Stop.
      apply IH in E; [| intros j; rewrite <- app_assoc; apply G].
      destruct E as (E1 & E2 & E3).
      assert (T1 : tries x data path w w1) by (eapply attempts_one; eauto).
      split; [| split].
      * intros j. rewrite E1, <- app_assoc. cbn. tauto.
      * eapply ends_after; eauto.
      * intros -> j [<- | I].
        -- exists w, w1. repeat split; auto. constructor.
        -- destruct (E3 eq_refl j I) as (u & v & H1 & H2 & H3). exists u, v. repeat split; auto. eapply attempts_app; eauto.
Qed.

Notation tried := (tried classes mapping data path).

Lemma tried_before x f u v w : tries x data path u v -> tried x f v w -> tried x f u w.
Proof.
  intros T (z & H1 & H2). exists z. split; [eapply attempts_app; eauto |]. exact H2.
Qed.

Lemma good_add x f i known xs : good_extensions xs -> fof x f -> wfor f i ->
  known = match lookup String.eqb x xs with Some k => k | None => [] end ->
  good_extensions (store String.eqb x (known ++ [i]) xs).
Proof.
  intros G Ff Fi -> y l L j I. destruct (string_dec y x) as [-> | N].
  - rewrite lookup_store in L by apply String.eqb_refl. injection L as <-.
    apply in_app_iff in I. destruct I as [I | [<- | []]]; [| eauto].
    destruct (lookup String.eqb x xs) as [k |] eqn:K; [| destruct I]. eapply G; eauto.
  - rewrite lookup_other in L; auto using String.eqb_eq. eapply G; eauto.
Qed.

Lemma try_formats_spec x l : forall st w r st' w',
  (forall f, In f l -> fof x f) -> good st ->
  try_formats format_eqb classes data path x l st w = (r, st', w') ->
  good st' /\ (forall f i, lookup format_eqb f (writers st) = Some i -> lookup format_eqb f (writers st') = Some i)
  /\ ends x w r w' /\ (r = None -> forall f, In f l -> tried x f w w').
Proof.
  induction l as [| f t IH]; intros st w r st' w' Fl G E; cbn [try_formats] in E.
  - injection E as <- <- <-. split; auto. split; auto. split; [constructor |]. intros _ f [].
  - destruct (get w f (writers st)) as [rw ws] eqn:Eg.
    destruct (get_writer_spec w f (writers st) rw ws (proj1 G) Eg) as (Gw & Keep & Sp).
    assert (Ff : fof x f) by (apply Fl; now left).
    assert (Flt : forall f, In f t -> fof x f) by (intros; apply Fl; now right).
    assert (G1 : good (State ws (extensions st))) by (split; [exact Gw | exact (proj2 G)]).
    destruct rw as [i | e].
    + destruct Sp as (Wi & _ & _). destruct (run i data path w) as [ri w1] eqn:Ei. destruct ri as [u | e].
      * destruct u. injection E as <- <- <-. split; [| split; [| split; [| discriminate]]].
        -- split; [exact Gw |]. cbn [extensions]. eapply good_add; eauto. apply G.
        -- cbn [writers]. auto.
        -- exists f, i, w. repeat split; auto; try apply Wi. constructor.
      * assert (Next : (e = ValueError \/ e = ImportError) ->
          try_formats format_eqb classes data path x t (State ws (extensions st)) w1 = (r, st', w') ->
          good st' /\ (forall f i, lookup format_eqb f (writers st) = Some i -> lookup format_eqb f (writers st') = Some i)
          /\ ends x w r w' /\ (r = None -> forall f', In f' (f :: t) -> tried x f' w w')).
        { intros He E'. apply IH in E'; auto. destruct E' as (H1 & H2 & H3 & H4).
          assert (T1 : tries x data path w w1) by (eapply attempts_one; eauto).
          split; [auto |]. split; [intros; apply H2; cbn [writers]; auto |]. split; [eapply ends_after; eauto |].
          intros -> f' [<- | I]; [| eapply tried_before; eauto].
          exists w. split; [constructor |]. right. exists i, e, w1. repeat split; auto; try apply Wi. }
        assert (Stop : e <> ValueError -> (Some (Err e), State ws (extensions st), w1) = (r, st', w') ->
          good st' /\ (forall f i, lookup format_eqb f (writers st) = Some i -> lookup format_eqb f (writers st') = Some i)
          /\ ends x w r w' /\ (r = None -> forall f', In f' (f :: t) -> tried x f' w w')).
        { intros Ne E'. injection E' as <- <- <-. split; [auto |]. split; [cbn; auto |]. split; [| discriminate].
          split; auto. exists f, i, w. repeat split; auto; try apply Wi. constructor. }
        destruct e; try (apply Stop; [discriminate | exact E]); apply Next; auto.
    + destruct Sp as [-> Un]. apply IH in E; auto. destruct E as (H1 & H2 & H3 & H4).
      split; [auto |]. split; [intros; apply H2; cbn [writers]; auto |]. split; [auto |].
      intros -> f' [<- | I]; [| auto]. exists w. split; [constructor |]. left. split; auto.
Qed.

Lemma auto_write_spec x st w r st' w' : is_extension path x -> good st ->
  auto_write format_eqb classes mapping data path st w = (r, st', w') ->
  good st' /\ (forall f i, lookup format_eqb f (writers st) = Some i -> lookup format_eqb f (writers st') = Some i)
  /\ (ends x w (Some r) w'
      \/ ((forall formats, ~ In (x, formats) mapping) /\ r = Err ValueError /\ w' = w)
      \/ ((exists formats, In (x, formats) mapping /\ forall f, In f formats -> tried x f w w') /\ r = Err ImportError /\ tries x data path w w')).
Proof.
  intros X G E. apply extension_iff in X. unfold auto_write in E. rewrite X in E.
  set (first := match lookup String.eqb x (extensions st) with
                | Some l => let '(r, l', world') := try_writers data path [] l w in
                            (r, State (writers st) (store String.eqb x l' (extensions st)), world')
                | None => (None, st, w)
                end) in E.
  assert (P : match first with
              | (r1, st1, w1) =>
                  good st1 /\ writers st1 = writers st /\ ends x w r1 w1
                  /\ (lookup String.eqb x (extensions st) = None -> w1 = w /\ r1 = None)
                  /\ (forall l, lookup String.eqb x (extensions st) = Some l -> l = [] -> w1 = w)
              end).
  { unfold first. destruct (lookup String.eqb x (extensions st)) as [l |] eqn:L.
    - destruct (try_writers data path [] l w) as [[r1 l'] w1] eqn:T.
      pose proof T as T'. apply try_writers_spec with (x := x) in T; [| cbn; intros i I; exact (proj2 G x l L i I)].
      destruct T as (H1 & H2 & _). split; [| split; [reflexivity | split; [auto | split]]].
      + split; [exact (proj1 G) |]. cbn [extensions]. intros y l2 L2 j J. destruct (string_dec y x) as [-> | N].
        * rewrite lookup_store in L2 by apply String.eqb_refl. injection L2 as <-. apply H1 in J. exact (proj2 G x l L j J).
        * rewrite lookup_other in L2; auto using String.eqb_eq. exact (proj2 G y l2 L2 j J).
      + discriminate.
      + intros k Hk ->. injection Hk as ->. cbn in T'. congruence.
    - split; [auto |]. split; [auto |]. split; [constructor |]. split; [auto | discriminate]. }
  destruct first as [[r1 st1] w1]. destruct P as (G1 & Ew & E1 & None1 & Some1).
  destruct r1 as [r1 |].
  { injection E as <- <- <-. split; auto. rewrite Ew. split; auto. }
  destruct (lookup String.eqb x mapping) as [formats |] eqn:M.
  - assert (Im : In (x, formats) mapping) by (eapply lookup_In; eauto; intros ? ?; apply String.eqb_eq).
    destruct (try_formats format_eqb classes data path x formats st1 w1) as [[r2 st2] w2] eqn:T.
    apply try_formats_spec in T; auto; [| intros f If; exists formats; auto].
    destruct T as (H1 & H2 & H3 & H4). rewrite Ew in H2.
    destruct r2 as [r2 |].
    + injection E as <- <- <-. split; auto. split; auto. left. eapply ends_after; eauto.
    + injection E as <- <- <-. split; auto. split; auto. right. right. cbn in H3, E1.
      assert (tries x data path w w2) by (eapply attempts_app; eauto). split; [| auto].
      exists formats. split; auto. intros f If. exact (tried_before x f w w1 w2 E1 (H4 eq_refl f If)).
  - injection E as <- <- <-. split; auto. rewrite Ew. split; auto. right. left.
    assert (Nm : forall formats, ~ In (x, formats) mapping).
    { intros fs I. eapply (lookup_none String.eqb); eauto using String.eqb_refl. }
    split; auto. split; auto.
    destruct (lookup String.eqb x (extensions st)) as [l |] eqn:L; [| apply None1; auto].
    apply (Some1 l eq_refl). destruct l as [| i l]; auto. exfalso.
    destruct (proj2 G x _ L i (or_introl eq_refl)) as (f & (fs & If & _) & _). exact (Nm fs If).
Qed.

End Writers.
