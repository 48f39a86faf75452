(** Loading data sets. *)

From Coq Require Import String ZArith List Bool Lia.
From Verif.Model Require Import Py Persistence FileFormats.
From Verif.Spec Require Import PersistenceSpec.
From Verif.Proofs Require Import ExtensionFacts ReaderFacts.
Import ListNotations.
Open Scope list_scope.

Section Results.
Context {W D : Type}.
Notation reader := (reader_class W D).

Definition known_readers (x : string) (readers : list (string * list reader)) : list reader :=
  match lookup String.eqb x readers with Some l => l | None => [] end.

Lemma remaining_after w x (rl l : list reader) : NoDup (map r_name l) ->
  remaining w x (rl ++ selected w x rl l) l = remaining w x rl l.
Proof.
  intros N. apply filter_eq. intros c I.
  destruct (associated x c) eqn:A; [now rewrite andb_false_r |].
  f_equal. f_equal. rewrite used_app.
  rewrite (used_not c (selected w x rl l)); [apply orb_false_r |].
  rewrite in_map_iff. intros (y & E & Iy). apply filter_In in Iy. destruct Iy as [Iy Hy].
  assert (y = c); [| subst y; now rewrite A, andb_false_r in Hy].
  clear - N I Iy E. induction l as [| a t IH]; [destruct I |].
  cbn in N. inversion N as [| ? ? Na Nt]; subst.
  destruct I as [-> | I], Iy as [-> | Iy]; auto.
  - destruct Na. rewrite <- E. now apply in_map.
  - destruct Na. rewrite E. now apply in_map.
Qed.

Lemma lookup_store {K V} (eqb : K -> K -> bool) (refl : forall k, eqb k k = true) k (v : V) d :
  lookup eqb k (store eqb k v d) = Some v.
Proof.
  induction d as [| [k' v'] t IH]; cbn.
  - now rewrite refl.
  - destruct (eqb k k') eqn:E; cbn; rewrite E; auto.
Qed.

Theorem read_file_result (w : W) path (readers : list (string * list reader)) classes :
  NoDup (map r_name classes) -> (forall c, In c classes -> regular_init w c) ->
  forall x, is_extension path x ->
  (forall c, In c classes \/ In c (known_readers x readers) -> returns w path c) ->
  let candidates := by_preference w x (known_readers x readers) classes in
  match fst (read_file w path readers classes) with
  | Loaded d => first_success w path candidates d
  | Unreadable cause => (forall c, In c candidates -> fails w path c) /\ exception_of_first w path candidates cause
  | Raised _ => False
  end
  /\ match lookup String.eqb x readers with
     | None => snd (read_file w path readers classes) = readers
     | Some known => exists new, lookup String.eqb x (snd (read_file w path readers classes)) = Some (known ++ new)
                                 /\ forall c, In c new -> In c classes /\ available w c = true
     end.
Proof.
  intros N R x X Ret. apply extension_iff in X.
  cbv zeta. unfold read_file. rewrite X.
  set (found := lookup String.eqb x readers).
  assert (K : known_readers x readers = match found with Some l => l | None => [] end) by reflexivity.
  rewrite K. set (rl := match found with Some l => l | None => [] end).
  set (update := fun l => match found with Some _ => store String.eqb x l readers | None => readers end).
  assert (Up : forall l, (exists new, l = rl ++ new /\ (forall c, In c new -> In c classes /\ available w c = true)) ->
    match found with
    | None => update l = readers
    | Some known => exists new, lookup String.eqb x (update l) = Some (known ++ new)
                                /\ forall c, In c new -> In c classes /\ available w c = true
    end).
  { intros l (new & -> & Hn). unfold update, rl. destruct found; auto.
    exists new. rewrite lookup_store; auto using String.eqb_refl. }
  rewrite (instances_go w path rl) by (intros c I; apply Ret; right; rewrite K; exact I).
  unfold by_preference. fold (selected w x rl classes). fold (remaining w x rl classes).
  destruct (go w path rl None) as [r1 c1] eqn:G1. cbn [fst snd].
  pose proof (go_spec w path (rl ++ selected w x rl classes ++ remaining w x rl classes) None) as S.
  rewrite go_app, G1 in S.
  destruct r1 as [r1 |].
  { cbn [fst snd]. split; [| apply Up; exists []; rewrite app_nil_r; split; [auto | intros ? []]].
    destruct r1; auto; destruct S. }
  destruct (associated_go w path x classes c1 rl N R (fun c I => Ret c (or_introl I))) as (rest & E1 & E2 & tried & E3 & I3).
  rewrite E1. destruct (go w path (selected w x rl classes) c1) as [r2 c2] eqn:G2. cbn [fst snd] in *.
  rewrite go_app, G2 in S.
  assert (T1 : forall c, In c tried -> In c classes /\ available w c = true).
  { intros c I. apply I3, filter_In in I. destruct I as [I A]. split; auto.
    apply andb_true_iff in A. destruct A as [A _]. apply andb_true_iff in A. tauto. }
  destruct r2 as [r2 |].
  { cbn [fst snd]. split; [| apply Up; exists tried; split; auto].
    destruct r2; auto; destruct S. }
  specialize (E2 eq_refl).
  destruct (others_go w path x classes c2 rest N R (fun c I => Ret c (or_introl I))) as (rest' & F1 & tried' & F3 & J3).
  rewrite F1.
  assert (Er : remaining w x rest classes = remaining w x rl classes) by (rewrite E2; now apply remaining_after).
  rewrite Er in F1, J3 |- *. rewrite E2 in F3.
  assert (T2 : forall c, In c tried' -> In c classes /\ available w c = true).
  { intros c I. apply J3, filter_In in I. destruct I as [I A]. split; auto.
    apply andb_true_iff in A. destruct A as [A _]. apply andb_true_iff in A. tauto. }
  assert (T3 : exists new, rest' = rl ++ new /\ (forall c, In c new -> In c classes /\ available w c = true)).
  { rewrite E2 in E3. apply app_inv_head in E3. exists (tried ++ tried'). rewrite F3, <- E3, <- app_assoc. split; auto.
    intros c I. apply in_app_iff in I. destruct I as [I | I]; [apply T1; rewrite <- E3; exact I | auto]. }
  destruct (go w path (remaining w x rl classes) c2) as [r3 c3] eqn:G3. cbn [fst snd] in *.
  destruct r3 as [r3 |].
  { cbn [fst snd]. split; [| apply Up; auto]. destruct r3; auto; destruct S. }
  cbn [fst snd]. split; [| apply Up; auto]. exact S.
Qed.

(** The dictionary of the library stays empty. *)
Theorem nothing_remembered (w : W) path classes : snd (read_file w path ([] : list (string * list reader)) classes) = [].
Proof.
  unfold read_file. cbn [lookup try_instances].
  destruct (try_associated w path _ classes None []) as [[[r |] c] l]; [reflexivity |].
  now destruct (try_others w path _ classes c l) as [[[r' |] c'] l'].
Qed.

Theorem loads_independent classes calls :
  load_all classes ([] : list (string * list reader)) calls
  = map (fun c => fst (read_file (fst c) (snd c) [] classes)) calls.
Proof.
  induction calls as [| [w path] t IH]; [reflexivity |].
  cbn [load_all map fst snd]. pose proof (nothing_remembered w path classes) as N.
  destruct (read_file w path [] classes) as [r readers']. cbn in N. subst readers'. cbn. now rewrite IH.
Qed.

(** A file, that can be read by an available reader, is read by an available reader, which is associated with
    the extension of the file, if such a reader can read the file. *)
Theorem readable_loaded (w : W) path (classes : list reader) :
  NoDup (map r_name classes) -> (forall c, In c classes -> regular_init w c /\ returns w path c) ->
  forall c d, In c classes -> r_init c w = Ok tt -> r_call c w path = Ok d ->
  exists c' d', fst (read_file w path [] classes) = Loaded d' /\ In c' classes /\ r_init c' w = Ok tt /\ r_call c' w path = Ok d'
                /\ forall x, is_extension path x -> In x (r_extensions c) -> In x (r_extensions c').
Proof.
  intros N R c d I A E.
  pose proof (proj2 (extension_iff path _) (proj1 (splitext_extension path))) as X.
  set (x := snd (splitext path)) in *.
  pose proof (read_file_result w path [] classes N (fun c I => proj1 (R c I)) x (proj1 (splitext_extension path))
    (fun c Hc => match Hc with or_introl J => proj2 (R c J) | or_intror F => False_ind _ F end)) as [H _].
  cbv zeta in H. cbn [known_readers lookup] in H.
  unfold known_readers in H. cbn [lookup] in H.
  unfold by_preference in H. cbn [app] in H.
  set (l1 := filter (fun c => available w c && associated x c && negb (used_before [] c)) classes) in *.
  set (l2 := filter (fun c => available w c && negb (associated x c) && negb (used_before [] c)) classes) in *.
  assert (Av : available w c = true) by (unfold available; now rewrite A).
  assert (U : forall y : reader, used_before [] y = false) by (intros; apply used_not; intros []).
  assert (Ic : In c (l1 ++ l2)).
  { apply in_app_iff. destruct (associated x c) eqn:As; [left | right]; apply filter_In; rewrite Av, As, U; auto. }
  destruct (fst (read_file w path [] classes)) as [d' | cause | e].
  - destruct H as (b & c' & a & El & Ec' & Hb). exists c', d'. split; [reflexivity |].
    assert (Ic' : In c' (l1 ++ l2)) by (rewrite El; apply in_app_iff; right; now left).
    assert (In c' classes /\ available w c' = true) as [Ic1 Av'].
    { apply in_app_iff in Ic'. destruct Ic' as [Ic' | Ic']; apply filter_In in Ic'; destruct Ic' as [? Ha]; split; auto;
        apply andb_true_iff in Ha; destruct Ha as [Ha _]; apply andb_true_iff in Ha; tauto. }
    repeat split; auto.
    { unfold available in Av'. destruct (r_init c' w) as [[] |] eqn:Z; auto. discriminate. }
    intros y Y J. apply extension_iff in Y. fold x in Y. subst y.
    assert (As : associated x c = true) by (unfold associated; destruct (in_dec _ _ _); tauto).
    assert (Il1 : In c l1) by (apply filter_In; rewrite Av, As, U; auto).
    destruct (associated x c') eqn:As'; [unfold associated in As'; destruct (in_dec _ _ _); [auto | discriminate] |].
    exfalso.
    (* everything of l1 precedes c' *)
    assert (In c b).
    { assert (N1 : ~ In c' l1) by (intros Z; apply filter_In in Z; destruct Z as [_ Z]; rewrite As', andb_false_r in Z; discriminate).
      clear - El N1 Il1. revert b El. induction l1 as [| y t IH]; intros b El; [destruct Il1 |].
      destruct b as [| z b]; cbn in El; injection El as Ey El.
      - subst y. destruct N1. now left.
      - subst z. destruct Il1 as [-> | Il1]; [now left | right].
        apply IH; auto. intros Z. apply N1. now right. }
    destruct (Hb c H) as [e Ee]. congruence.
  - destruct H as [H _]. destruct (H c Ic) as [e Ee]. congruence.
  - destruct H.
Qed.

End Results.
