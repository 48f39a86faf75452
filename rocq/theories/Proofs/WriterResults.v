(** Saving data sets: histories of calls, and the tables of the library. *)

From Coq Require Import String ZArith List Bool Lia.
From Verif.Model Require Import Py Persistence FileFormats.
From Verif.Spec Require Import PersistenceSpec.
From Verif.Proofs Require Import ExtensionFacts ReaderResults WriterFacts.
Import ListNotations.
Open Scope list_scope.

Section Results.
Context {W D F : Type}.
Variable format_eqb : F -> F -> bool.
Hypothesis Feq : forall a b, format_eqb a b = true <-> a = b.
Variable classes : list (writer_class W D F).
Variable mapping : list (string * list F).
Hypothesis Regular : forall c, In c classes -> regular_writer c.

Notation saves := (save format_eqb classes mapping).

Lemma save_good data path ff st w r st' w' : good format_eqb classes mapping st ->
  saves data path ff st w = (r, st', w') ->
  good format_eqb classes mapping st'
  /\ (forall f i, lookup format_eqb f (writers st) = Some i -> lookup format_eqb f (writers st') = Some i).
Proof.
  intros G E. destruct ff as [f |]; cbn [save] in E.
  - destruct (get_writer format_eqb classes w f (writers st)) as [rw ws] eqn:Eg.
    destruct (get_writer_spec format_eqb Feq classes Regular w f _ _ _ (proj1 G) Eg) as (Gw & Keep & _).
    assert (st' = State ws (extensions st)) as ->.
    { destruct rw as [i | e]; [destruct (run i data path w) |]; congruence. }
    split; [split; [exact Gw | exact (proj2 G)] | exact Keep].
  - destruct (auto_write_spec format_eqb Feq classes mapping Regular data path _ st w r st' w' (proj1 (splitext_extension path)) G E)
      as (H1 & H2 & _). auto.
Qed.

Lemma reachable_good st : reachable format_eqb classes mapping st -> good format_eqb classes mapping st.
Proof.
  induction 1 as [| st data path ff w r st' w' R IH E].
  - split; [intros f i H | intros x l H]; discriminate.
  - eapply save_good in E; eauto. tauto.
Qed.

Lemma later_reachable st st' : reachable format_eqb classes mapping st -> later format_eqb classes mapping st st' ->
  reachable format_eqb classes mapping st'.
Proof. intros R. induction 1; auto. eapply after_save; eauto. Qed.

Theorem save_with_format data path f st w r st' w' : reachable format_eqb classes mapping st ->
  saves data path (Some f) st w = (r, st', w') ->
  (exists i, writer_for classes f i /\ run i data path w = (r, w')
             /\ (lookup format_eqb f (writers st) = Some i \/ first_available classes w f (w_class i)))
  \/ (unavailable classes w f /\ r = Err ValueError /\ w' = w).
Proof.
  intros R E. apply reachable_good in R. cbn [save] in E.
  destruct (get_writer format_eqb classes w f (writers st)) as [rw ws] eqn:Eg.
  destruct (get_writer_spec format_eqb Feq classes Regular w f _ _ _ (proj1 R) Eg) as (_ & _ & Sp).
  destruct rw as [i | e].
  - destruct Sp as (H1 & H2 & H3). left. exists i. destruct (run i data path w) as [r1 w1]. injection E as <- <- <-. auto.
  - destruct Sp as [-> Un]. injection E as <- <- <-. auto.
Qed.

Theorem same_writer_again data path f st w i w1 r st1 st2 : reachable format_eqb classes mapping st ->
  saves data path (Some f) st w = (r, st1, w1) ->
  lookup format_eqb f (writers st1) = Some i -> later format_eqb classes mapping st1 st2 ->
  forall data' path' u, let '(r', _, u') := saves data' path' (Some f) st2 u in run i data' path' u = (r', u').
Proof.
  intros R E L Lt data' path' u.
  assert (R1 : reachable format_eqb classes mapping st1) by (eapply after_save; eauto).
  assert (L2 : lookup format_eqb f (writers st2) = Some i).
  { clear E. induction Lt as [| st' data0 path0 ff w0 r0 st'' w0' Lt IH E0]; auto.
    eapply save_good in E0; [| apply reachable_good; eapply later_reachable; eauto]. apply E0, IH. }
  cbn [save]. unfold get_writer. rewrite L2. destruct (run i data' path' u) as [r' u']. reflexivity.
Qed.

Theorem save_guessing data path x st w st' w' : reachable format_eqb classes mapping st -> is_extension path x ->
  saves data path None st w = (Ok tt, st', w') ->
  exists f i w1, format_of mapping x f /\ writer_for classes f i
                 /\ attempts classes mapping x data path w w1 /\ run i data path w1 = (Ok tt, w').
Proof.
  intros R X E. apply reachable_good in R. cbn [save] in E.
  destruct (auto_write_spec format_eqb Feq classes mapping Regular data path x st w _ st' w' X R E)
    as (_ & _ & [H | [(_ & H & _) | (_ & H & _)]]); try discriminate. exact H.
Qed.

Theorem save_guessing_fails data path x st w st' w' e : reachable format_eqb classes mapping st -> is_extension path x ->
  saves data path None st w = (Err e, st', w') ->
  ((forall formats, ~ In (x, formats) mapping) /\ e = ValueError /\ w' = w)
  \/ ((exists formats, In (x, formats) mapping /\ forall f, In f formats -> tried classes mapping data path x f w w')
      /\ e = ImportError /\ attempts classes mapping x data path w w')
  \/ (e <> ValueError
      /\ exists f i w1, format_of mapping x f /\ writer_for classes f i
                        /\ attempts classes mapping x data path w w1 /\ run i data path w1 = (Err e, w')).
Proof.
  intros R X E. apply reachable_good in R. cbn [save] in E.
  destruct (auto_write_spec format_eqb Feq classes mapping Regular data path x st w _ st' w' X R E)
    as (_ & _ & [H | [(H1 & H2 & H3) | (H1 & H2 & H3)]]).
  - right. right. exact H.
  - injection H2 as ->. left. auto.
  - injection H2 as ->. right. left. auto.
Qed.

Lemma mapping_unique x a b : NoDup (map fst mapping) -> In (x, a) mapping -> In (x, b) mapping -> a = b.
Proof.
  induction mapping as [| [k v] t IH]; intros N Ia Ib; [destruct Ia |].
  cbn in N. inversion N as [| ? ? Nk Nt]; subst.
  destruct Ia as [Ia | Ia], Ib as [Ib | Ib].
  - congruence.
  - injection Ia as -> ->. destruct Nk. now apply in_map with (f := fst) in Ib.
  - injection Ib as -> ->. destruct Nk. now apply in_map with (f := fst) in Ia.
  - auto.
Qed.

Theorem save_guessing_succeeds data path x formats f st w :
  reachable format_eqb classes mapping st -> is_extension path x ->
  NoDup (map fst mapping) -> In (x, formats) mapping -> In f formats ->
  (forall c g u e, In c classes -> fst (w_call c g data path u) = Err e -> e = ValueError) ->
  (forall u, ~ unavailable classes u f) ->
  (forall i u, writer_for classes f i -> fst (run i data path u) = Ok tt) ->
  fst (fst (saves data path None st w)) = Ok tt.
Proof.
  intros R X N Im If Only Avail Works.
  destruct (saves data path None st w) as [[r st'] w'] eqn:E. cbn. destruct r as [[] | e]; [reflexivity | exfalso].
  destruct (save_guessing_fails data path x st w st' w' e R X E) as [(H & _) | [((fs & Ifs & H) & _ & _) | (Ne & g & i & w1 & _ & Wi & _ & H)]].
  - exact (H formats Im).
  - rewrite (mapping_unique x fs formats N Ifs Im) in H.
    destruct (H f If) as (u & _ & [(Un & _) | (i & e' & v & Wi & Ei & _)]).
    + exact (Avail u Un).
    + pose proof (Works i u Wi) as Ok1. rewrite Ei in Ok1. discriminate.
  - apply Ne. eapply (Only (w_class i)); [apply Wi |]. unfold run in H. now rewrite H.
Qed.

End Results.

(** ** The tables *)

Section Tables.
Context {W D : Type}.
Variable soundfile : W -> bool.
Variable behaviour : string -> string -> D -> string -> W -> result unit * W.

Lemma table_regular table c : In c (map (writer_of soundfile behaviour) table) -> regular_writer c.
Proof.
  rewrite in_map_iff. intros (e & <- & _) w f. cbn. unfold constructor.
  destruct (e_soundfile e && negb (soundfile w)); auto.
Qed.

(** The formats, that do not need the library [soundfile] *)
Definition plain (table : list class_entry) (f : string) : bool :=
  existsb (fun e => negb (e_soundfile e) && existsb (String.eqb f) (e_supported e)) table.
Definition any_class (table : list class_entry) (f : string) : bool :=
  existsb (fun e => existsb (String.eqb f) (e_supported e)) table.

Lemma table_available table f w :
  unavailable (map (writer_of soundfile behaviour) table) w f
  <-> (if soundfile w then any_class table f else plain table f) = false.
Proof.
  unfold unavailable. split.
  - intros H. destruct (soundfile w) eqn:S.
    + unfold any_class. destruct (existsb _ table) eqn:E; auto. exfalso.
      apply existsb_exists in E. destruct E as (e & Ie & E). apply existsb_exists in E. destruct E as (g & Ig & E).
      apply String.eqb_eq in E. subst g.
      specialize (H (writer_of soundfile behaviour e) (in_map _ _ _ Ie) Ig). cbn in H. unfold constructor in H.
      rewrite S, andb_false_r in H. discriminate.
    + unfold plain. destruct (existsb _ table) eqn:E; auto. exfalso.
      apply existsb_exists in E. destruct E as (e & Ie & E). apply andb_true_iff in E. destruct E as [Es E].
      apply existsb_exists in E. destruct E as (g & Ig & E). apply String.eqb_eq in E. subst g.
      specialize (H (writer_of soundfile behaviour e) (in_map _ _ _ Ie) Ig). cbn in H. unfold constructor in H.
      destruct (e_soundfile e); discriminate.
  - intros H c Ic If. apply in_map_iff in Ic. destruct Ic as (e & <- & Ie). cbn in If |- *. unfold constructor.
    assert (existsb (String.eqb f) (e_supported e) = true) as B.
    { apply existsb_exists. exists f. split; auto. apply String.eqb_refl. }
    destruct (soundfile w).
    + exfalso. unfold any_class in H. assert (existsb (fun e => existsb (String.eqb f) (e_supported e)) table = true); [| congruence].
      apply existsb_exists. exists e. auto.
    + destruct (e_soundfile e) eqn:Es; [reflexivity | exfalso].
      unfold plain in H. assert (existsb (fun e => negb (e_soundfile e) && existsb (String.eqb f) (e_supported e)) table = true); [| congruence].
      apply existsb_exists. exists e. rewrite Es. auto.
Qed.

(** Every format has a writer, and those, that are listed, do so without the library. *)
Lemma all_available table formats w :
  forallb (any_class table) formats = true -> soundfile w = true ->
  forall f, In f formats -> ~ unavailable (map (writer_of soundfile behaviour) table) w f.
Proof.
  intros H S f If Un. apply table_available in Un. rewrite S in Un. rewrite forallb_forall in H. rewrite (H f If) in Un. discriminate.
Qed.

End Tables.

Section SignalTables.
Context {W D : Type}.
Variable soundfile : W -> bool.
Variable behaviour : string -> string -> D -> string -> W -> result unit * W.
Notation classes := (map (writer_of soundfile behaviour)).

Definition without_soundfile : list string :=
  ["TEXT_CSV"; "TEXT_JSON"; "NUMPY_NPZ"; "NUMPY_NPY"; "PYTHON_PICKLE";
   "WAV_UINT8"; "WAV_INT16"; "WAV_INT32"; "AIFF_INT8"; "AIFF_INT16"; "AIFF_INT32"]%string.

Lemma in_list_dec (f : string) l : existsb (String.eqb f) l = true <-> In f l.
Proof.
  rewrite existsb_exists. split.
  - intros (x & I & E). apply String.eqb_eq in E. now subst x.
  - intros I. exists f. split; auto. apply String.eqb_refl.
Qed.

Theorem signal_formats_available w f : In f signal_formats ->
  (unavailable (classes signal_writers) w f <-> soundfile w = false /\ ~ In f without_soundfile).
Proof.
  intros I. rewrite table_available. rewrite <- in_list_dec.
  assert (H : forall g, In g signal_formats ->
    any_class signal_writers g = true /\ plain signal_writers g = existsb (String.eqb g) without_soundfile).
  { intros g Ig.
    assert (C : forallb (fun g => any_class signal_writers g && Bool.eqb (plain signal_writers g) (existsb (String.eqb g) without_soundfile)) signal_formats = true)
      by (vm_compute; reflexivity).
    rewrite forallb_forall in C. apply C, andb_true_iff in Ig. destruct Ig as [H1 H2]. apply eqb_prop in H2. auto. }
  destruct (H f I) as [H1 H2]. rewrite H1, H2. destruct (soundfile w).
  - split; [discriminate | intros [X _]; discriminate].
  - destruct (existsb (String.eqb f) without_soundfile); intuition congruence.
Qed.

Theorem other_formats_available w :
  (forall f, In f spectrum_formats -> ~ unavailable (classes spectrum_writers) w f)
  /\ (forall f, In f spectrogram_formats -> ~ unavailable (classes spectrogram_writers) w f)
  /\ (forall f, In f filter_formats -> ~ unavailable (classes filter_writers) w f)
  /\ (forall f, In f bands_formats -> ~ unavailable (classes filter_writers) w f).
Proof.
  assert (G : forall table formats, forallb (fun f => any_class table f && plain table f) formats = true ->
    forall f, In f formats -> ~ unavailable (classes table) w f).
  { intros table formats C f If Un. apply table_available in Un. rewrite forallb_forall in C. apply C, andb_true_iff in If.
    destruct If as [H1 H2]. rewrite H1, H2 in Un. destruct (soundfile w); discriminate. }
  repeat split; apply G; vm_compute; reflexivity.
Qed.

(** Each extension stands for at least one format of the respective enumeration. *)
Theorem extensions_known :
  (forall x l, In (x, l) signal_mapping -> l <> [] /\ incl l signal_formats)
  /\ (forall x l, In (x, l) spectrum_mapping -> l <> [] /\ incl l spectrum_formats)
  /\ (forall x l, In (x, l) spectrogram_mapping -> l <> [] /\ incl l spectrogram_formats)
  /\ (forall x l, In (x, l) filter_mapping -> l <> [] /\ incl l filter_formats)
  /\ (forall x l, In (x, l) bands_mapping -> l <> [] /\ incl l bands_formats).
Proof.
  assert (G : forall (m : list (string * list string)) fs,
    forallb (fun p => negb (match snd p with [] => true | _ => false end) && forallb (fun f => existsb (String.eqb f) fs) (snd p)) m = true ->
    forall x l, In (x, l) m -> l <> [] /\ incl l fs).
  { intros m fs C x l I. rewrite forallb_forall in C. apply C, andb_true_iff in I. cbn in I. destruct I as [H1 H2]. split.
    - intros ->. discriminate.
    - intros f If. rewrite forallb_forall in H2. apply in_list_dec, H2, If. }
  repeat match goal with |- _ /\ _ => split end; apply G; vm_compute; reflexivity.
Qed.

(** Without the library, the format [FLAC] cannot be guessed from the extension. *)
Theorem flac_import_error data path st w st' w' r :
  reachable String.eqb (classes signal_writers) signal_mapping st ->
  (forall w, soundfile w = false) -> is_extension path ".flac" ->
  save String.eqb (classes signal_writers) signal_mapping data path None st w = (r, st', w') ->
  r = Err ImportError /\ w' = w.
Proof.
  intros R S X E.
  assert (NoWriter : forall f i, format_of signal_mapping ".flac" f -> writer_for (classes signal_writers) f i -> In f ["FLAC_INT24"; "FLAC_INT16"; "FLAC_INT8"]%string).
  { intros f i (fs & Im & If) _. cbn in Im.
    repeat (destruct Im as [Im | Im]; [injection Im; intros; subst; try discriminate; exact If |]). destruct Im. }
  (* without the library, no writer for such a format is ever created *)
  assert (Inv : forall st, reachable String.eqb (classes signal_writers) signal_mapping st ->
     (forall f i, lookup String.eqb f (writers st) = Some i -> plain signal_writers f = true)
     /\ (forall x l i, lookup String.eqb x (extensions st) = Some l -> In i l -> plain signal_writers (w_format i) = true)).
  { clear - S. intros st R.
    assert (Step : forall w f ws, (forall f i, lookup String.eqb f ws = Some i -> plain signal_writers f = true) ->
       good_writers String.eqb (classes signal_writers) ws ->
       forall r ws', get_writer String.eqb (classes signal_writers) w f ws = (r, ws') ->
       (forall f i, lookup String.eqb f ws' = Some i -> plain signal_writers f = true)
       /\ (forall i, r = Ok i -> plain signal_writers f = true)).
    { intros w f ws H G r ws' E.
      pose proof (get_writer_spec String.eqb String.eqb_eq (classes signal_writers) (table_regular soundfile behaviour signal_writers) w f ws r ws' G E) as (_ & _ & Sp).
      unfold get_writer in E. destruct (lookup String.eqb f ws) as [i |] eqn:L.
      - injection E as <- <-. split; [auto |]. intros j _. eauto.
      - destruct (new_writer String.eqb w f (classes signal_writers)) as [i | e].
        + injection E as <- <-. destruct Sp as (Wi & _ & [Z | Fa]); [congruence |].
          assert (P : plain signal_writers f = true).
          { destruct (plain signal_writers f) eqn:P; auto. exfalso.
            assert (Un : unavailable (classes signal_writers) w f).
            { apply table_available. now rewrite S. }
            destruct Fa as (b & a & Ec & If & Ei & _).
            rewrite (Un (w_class i)) in Ei; [discriminate | | exact If]. rewrite Ec. apply in_app_iff. right. now left. }
          split; [| intros j _; exact P].
          intros g j L'. destruct (string_dec g f) as [-> | N]; auto.
          rewrite lookup_other in L'; auto using String.eqb_eq. eauto.
        + injection E as <- <-. split; auto. discriminate. }
    induction R as [| st data path ff w r st' w' R [IH1 IH2] E]; [split; intros; discriminate |].
    pose proof (reachable_good String.eqb String.eqb_eq _ _ (table_regular soundfile behaviour signal_writers) st R) as [G1 G2].
    destruct ff as [f |]; cbn [save] in E.
    - destruct (get_writer String.eqb (classes signal_writers) w f (writers st)) as [rw ws] eqn:Eg.
      destruct (Step w f (writers st) IH1 G1 rw ws Eg) as [H1 _].
      assert (st' = State ws (extensions st)) as ->.
      { destruct rw as [i | e]; [destruct (run i data path w) |]; congruence. }
      split; auto.
    - unfold auto_write in E. set (x := snd (splitext path)) in E.
      assert (P1 : forall r1 st1 w1,
        match lookup String.eqb x (extensions st) with
        | Some l => let '(r, l', world') := try_writers data path [] l w in
                    (r, State (writers st) (store String.eqb x l' (extensions st)), world')
        | None => (None, st, w)
        end = (r1, st1, w1) ->
        good String.eqb (classes signal_writers) signal_mapping st1 /\
        (forall f i, lookup String.eqb f (writers st1) = Some i -> plain signal_writers f = true)
        /\ (forall x l i, lookup String.eqb x (extensions st1) = Some l -> In i l -> plain signal_writers (w_format i) = true)).
      { intros r1 st1 w1 E1. destruct (lookup String.eqb x (extensions st)) as [l |] eqn:L.
        - destruct (try_writers data path [] l w) as [[r0 l'] w0] eqn:T.
          apply try_writers_spec with (classes := classes signal_writers) (mapping := signal_mapping) (x := x) in T; [| intros i I; exact (G2 x l L i I)].
          destruct T as (T & _ & _). injection E1 as <- <- <-. split; [| split; [auto |]].
          + split; [exact G1 |]. intros y l2 L2 j J. cbn [extensions] in L2. destruct (string_dec y x) as [-> | N].
            * rewrite lookup_store in L2 by apply String.eqb_refl. injection L2 as <-. apply T in J. exact (G2 x l L j J).
            * rewrite lookup_other in L2; auto using String.eqb_eq. exact (G2 y l2 L2 j J).
          + intros y l2 j L2 J. cbn [extensions] in L2. destruct (string_dec y x) as [-> | N].
            * rewrite lookup_store in L2 by apply String.eqb_refl. injection L2 as <-. apply T in J. exact (IH2 x l j L J).
            * rewrite lookup_other in L2; auto using String.eqb_eq. exact (IH2 y l2 j L2 J).
        - injection E1 as <- <- <-. split; [split; auto | auto]. }
      destruct (match lookup String.eqb x (extensions st) with
        | Some l => let '(r, l', world') := try_writers data path [] l w in
                    (r, State (writers st) (store String.eqb x l' (extensions st)), world')
        | None => (None, st, w)
        end) as [[r1 st1] w1] eqn:E1.
      destruct (P1 r1 st1 w1 eq_refl) as (G & H1 & H2). clear P1.
      destruct r1 as [r1 |]; [injection E as <- <- <-; auto |].
      destruct (lookup String.eqb x signal_mapping) as [formats |] eqn:M; [| injection E as <- <- <-; auto].
      assert (Im : In (x, formats) signal_mapping) by (eapply lookup_In; eauto; intros ? ?; apply String.eqb_eq).
      assert (Fl : forall f, In f formats -> format_of signal_mapping x f) by (intros f If; exists formats; auto).
      clear E1 IH1 IH2 G1 G2 R M Im.
      assert (Loop : forall l st w r st' w', (forall f, In f l -> format_of signal_mapping x f) ->
        good String.eqb (classes signal_writers) signal_mapping st ->
        (forall f i, lookup String.eqb f (writers st) = Some i -> plain signal_writers f = true) ->
        (forall x l i, lookup String.eqb x (extensions st) = Some l -> In i l -> plain signal_writers (w_format i) = true) ->
        try_formats String.eqb (classes signal_writers) data path x l st w = (r, st', w') ->
        (forall f i, lookup String.eqb f (writers st') = Some i -> plain signal_writers f = true) /\
        (forall x l i, lookup String.eqb x (extensions st') = Some l -> In i l -> plain signal_writers (w_format i) = true)).
      { clear - S Step. intros l. induction l as [| f t IH]; intros st w r st' w' Fl G H1 H2 E; cbn [try_formats] in E.
        - injection E as <- <- <-. auto.
        - destruct (get_writer String.eqb (classes signal_writers) w f (writers st)) as [rw ws] eqn:Eg.
          destruct (Step w f (writers st) H1 (proj1 G) rw ws Eg) as [K1 K2].
          pose proof (get_writer_spec String.eqb String.eqb_eq (classes signal_writers) (table_regular soundfile behaviour signal_writers) w f (writers st) rw ws (proj1 G) Eg) as (Gw & _ & Sp).
          assert (G' : good String.eqb (classes signal_writers) signal_mapping (State ws (extensions st))) by (split; [exact Gw | exact (proj2 G)]).
          assert (Flt : forall f, In f t -> format_of signal_mapping x f) by (intros; apply Fl; now right).
          destruct rw as [i | e].
          + destruct (run i data path w) as [ri w1]. destruct ri as [[] | e].
            * injection E as <- <- <-. cbn [writers extensions]. split; [exact K1 |].
              intros y l2 j L2 J. destruct (string_dec y x) as [-> | N].
              -- rewrite lookup_store in L2 by apply String.eqb_refl. injection L2 as <-. apply in_app_iff in J. destruct J as [J | [<- | []]].
                 ++ destruct (lookup String.eqb x (extensions st)) as [k |] eqn:K; [exact (H2 x k j K J) | destruct J].
                 ++ destruct Sp as ((-> & _) & _). exact (K2 i eq_refl).
              -- rewrite lookup_other in L2; auto using String.eqb_eq. exact (H2 y l2 j L2 J).
            * assert (Stop : (Some (Err e), State ws (extensions st), w1) = (r, st', w') ->
                (forall f i, lookup String.eqb f (writers st') = Some i -> plain signal_writers f = true) /\
                (forall x l i, lookup String.eqb x (extensions st') = Some l -> In i l -> plain signal_writers (w_format i) = true)).
              { intros E'. injection E' as <- <- <-. auto. }
              destruct e; try (apply Stop; exact E); eapply (IH (State ws (extensions st)) w1 r st' w'); eauto.
          + destruct Sp as [-> _]. eapply (IH (State ws (extensions st)) w r st' w'); eauto. }
      destruct (try_formats String.eqb (classes signal_writers) data path x formats st1 w1) as [[r2 st2] w2] eqn:T.
      apply Loop in T; auto. destruct r2 as [r2 |]; injection E as <- <- <-; exact T. }
  destruct (Inv st R) as [I1 I2].
  (* the loops do nothing *)
  cbn [save] in E. unfold auto_write in E. apply extension_iff in X. rewrite X in E.
  assert (L0 : forall l, lookup String.eqb ".flac"%string (extensions st) = Some l -> l = []).
  { intros l L. destruct l as [| i l]; auto. exfalso.
    destruct (reachable_good String.eqb String.eqb_eq _ _ (table_regular soundfile behaviour signal_writers) st R) as [_ G2].
    destruct (G2 _ _ L i (or_introl eq_refl)) as (f & Ff & Wi).
    pose proof (I2 _ _ i L (or_introl eq_refl)) as P. rewrite (proj1 Wi) in P.
    destruct (NoWriter f i Ff Wi) as [<- | [<- | [<- | []]]]; vm_compute in P; discriminate. }
  assert (Un : forall f, In f ["FLAC_INT24"; "FLAC_INT16"; "FLAC_INT8"]%string -> forall u ws,
     (forall f i, lookup String.eqb f ws = Some i -> plain signal_writers f = true) ->
     get_writer String.eqb (classes signal_writers) u f ws = (Err ValueError, ws)).
  { intros f If u ws Hw. assert (P : plain signal_writers f = false) by (destruct If as [<- | [<- | [<- | []]]]; reflexivity).
    unfold get_writer. destruct (lookup String.eqb f ws) as [i |] eqn:L; [rewrite (Hw f i L) in P; discriminate |].
    assert (Uf : unavailable (classes signal_writers) u f) by (apply table_available; now rewrite S).
    pose proof (new_writer_spec String.eqb String.eqb_eq u f (classes signal_writers) (table_regular soundfile behaviour signal_writers)) as N.
    destruct (new_writer String.eqb u f (classes signal_writers)) as [i | e].
    - exfalso. destruct N as (b & a & Ec & _ & If' & Ei & _). rewrite (Uf (w_class i)) in Ei; [discriminate | | exact If'].
      rewrite Ec. apply in_app_iff. right. now left.
    - destruct N as [-> _]. reflexivity. }
  change (lookup String.eqb ".flac"%string signal_mapping) with (Some ["FLAC_INT24"; "FLAC_INT16"; "FLAC_INT8"]%string) in E.
  cbn [try_formats] in E.
  destruct (lookup String.eqb ".flac"%string (extensions st)) as [l |] eqn:L.
  - rewrite (L0 l eq_refl) in E. cbn [try_writers writers extensions] in E.
    rewrite (Un "FLAC_INT24"%string ltac:(cbn; auto) w (writers st) I1) in E; cbn [writers extensions] in E.
    rewrite (Un "FLAC_INT16"%string ltac:(cbn; auto) w (writers st) I1) in E; cbn [writers extensions] in E.
    rewrite (Un "FLAC_INT8"%string ltac:(cbn; auto) w (writers st) I1) in E; cbn [writers extensions] in E.
    injection E as <- <- <-. auto.
  - rewrite (Un "FLAC_INT24"%string ltac:(cbn; auto) w (writers st) I1) in E; cbn [writers extensions] in E.
    rewrite (Un "FLAC_INT16"%string ltac:(cbn; auto) w (writers st) I1) in E; cbn [writers extensions] in E.
    rewrite (Un "FLAC_INT8"%string ltac:(cbn; auto) w (writers st) I1) in E; cbn [writers extensions] in E.
    injection E as <- <- <-. auto.
Qed.

(** Without the library, signals are saved in wav files with 32 bit integers. *)
Theorem wav_without_soundfile data path w w' :
  soundfile w = false -> is_extension path ".wav" ->
  behaviour "WaveWriter" "WAV_INT32" data path w = (Ok tt, w') ->
  exists st', save String.eqb (classes signal_writers) signal_mapping data path None (State [] []) w = (Ok tt, st', w').
Proof.
  intros S X B. apply extension_iff in X. cbn [save]. unfold auto_write. rewrite X.
  cbn [extensions lookup]. change (lookup String.eqb ".wav"%string signal_mapping)
    with (Some ["WAV_FLOAT32"; "WAV_INT32"; "WAV_INT24"; "WAV_INT16"; "WAV_FLOAT64"; "WAV_UINT8"; "WAV_ULAW"; "WAV_ALAW"]%string).
  set (rest := ["WAV_INT24"; "WAV_INT16"; "WAV_FLOAT64"; "WAV_UINT8"; "WAV_ULAW"; "WAV_ALAW"]%string). clearbody rest.
  cbn [try_formats writers].
  assert (G1 : get_writer String.eqb (classes signal_writers) w "WAV_FLOAT32"%string [] = (Err ValueError, [])).
  { unfold get_writer. cbn [lookup]. unfold signal_writers. cbn -[constructor]. unfold constructor. cbn. rewrite S. reflexivity. }
  rewrite G1. cbn [writers].
  set (i := Writer (writer_of soundfile behaviour (Entry "WaveWriter" ["WAV_INT32"; "WAV_INT16"; "WAV_UINT8"]%string false)) "WAV_INT32"%string).
  assert (G2 : get_writer String.eqb (classes signal_writers) w "WAV_INT32"%string [] = (Ok i, [("WAV_INT32"%string, i)])).
  { reflexivity. }
  rewrite G2. unfold run at 1. cbn [i w_class w_format w_call writer_of]. change (e_name _) with "WaveWriter"%string. rewrite B.
  eexists. reflexivity.
Qed.

End SignalTables.
