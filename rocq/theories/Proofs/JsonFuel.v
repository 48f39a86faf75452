(** JSON texts: the parser consumes a character with each step, so that its bound is no restriction. *)

From Coq Require Import String Ascii ZArith List Bool Lia ZifyBool.
From Verif.Model Require Import Py Text Json.
From Verif.Spec Require Import JsonSpec.
From Verif.Proofs Require Import TextFacts JsonText JsonValues JsonCrash.
Import ListNotations.
Open Scope list_scope.
Open Scope Z_scope.

Lemma unhex4_length l u r : unhex4 l = Some (u, r) -> (List.length r < List.length l)%nat.
Proof.
  destruct l as [|a [|b [|c [|d l]]]]; try discriminate. cbn [unhex4]. destruct (unhex a), (unhex b), (unhex c), (unhex d); try discriminate.
  intros E. injection E as _ <-. cbn. lia.
Qed.
Lemma pair_up_length u l v w : pair_up u l = (v, w) -> (List.length w <= List.length l)%nat.
Proof.
  unfold pair_up. intros PU. destruct ((55296 <=? u) && (u <=? 56319)); [|apply pair_equal_spec in PU; destruct PU as [_ <-]; lia].
  destruct l as [|b [|e m1]]; try (apply pair_equal_spec in PU; destruct PU as [_ <-]; cbn; lia).
  destruct ((b =? 92) && (e =? 117)); [|apply pair_equal_spec in PU; destruct PU as [_ <-]; cbn; lia].
  destruct (unhex4 m1) as [[u2 m2]|] eqn:U; [|apply pair_equal_spec in PU; destruct PU as [_ <-]; cbn; lia]. apply unhex4_length in U.
  destruct ((56320 <=? u2) && (u2 <=? 57343)); apply pair_equal_spec in PU; destruct PU as [_ <-]; cbn; lia.
Qed.

Lemma scan_fuel n : forall l s r, scan_string n l = Some (s, r) ->
  (List.length r < List.length l)%nat /\ forall m, (List.length l <= m)%nat -> scan_string m l = Some (s, r).
Proof.
  induction n as [|n IH]; intros l s r H; [discriminate|]. destruct l as [|c l]; [discriminate|].
  assert (M : forall t s r, (List.length t <= List.length (c :: l))%nat -> (List.length r < List.length t)%nat /\ (forall m, (List.length t <= Datatypes.S m)%nat -> scan_string (Datatypes.S m) t = Some (s, r)) ->
    (List.length r < List.length (c :: l))%nat /\ (forall m, (List.length t <= m)%nat -> scan_string m t = Some (s, r))).
  { intros t s' r' LT [A B]. split; [lia|]. intros [|m] L; [lia|]. now apply B. }
  apply M; [auto|]. clear M. destruct (Z.eq_dec c 34) as [->|N1]; [rewrite scan_quote in H; injection H as <- <-; split; [cbn; lia|reflexivity]|].
  destruct (Z.eq_dec c 92) as [->|N2].
  - destruct l as [|e l]; [discriminate|]. destruct (Z.eq_dec e 117) as [->|N3].
    + rewrite scan_u in H. destruct (unhex4 l) as [[u l1]|] eqn:U; [|discriminate]. pose proof (unhex4_length _ _ _ U) as L1. destruct (pair_up u l1) as [v l2] eqn:PU.
      pose proof (pair_up_length _ _ _ _ PU) as L2. destruct (scan_string n l2) as [[s' r']|] eqn:S; [|discriminate]. apply (f_equal (fun x => match x with Some p => p | None => (s, r) end)) in H.
      apply pair_equal_spec in H. destruct H as [<- <-]. destruct (IH _ _ _ S) as [A B]. split; [cbn; lia|]. intros m L. cbn [List.length] in L. rewrite scan_u, U, PU, (B m) by lia. reflexivity.
    + destruct (simple_escape e) as [d|] eqn:SE.
      * rewrite (scan_simple n e d l N3 SE) in H. destruct (scan_string n l) as [[s' r']|] eqn:S; [|discriminate]. injection H as <- <-. destruct (IH _ _ _ S) as [A B].
        split; [cbn; lia|]. intros m L. cbn [List.length] in L. rewrite (scan_simple m e d l N3 SE), (B m) by lia. reflexivity.
      * exfalso. cbn [scan_string] in H. change (92 =? 34) with false in H. change (92 =? 92) with true in H. cbv iota in H. replace (e =? 117) with false in H by lia. rewrite SE in H. discriminate.
  - destruct (Z.lt_ge_cases c 32) as [L32|G].
    + exfalso. cbn [scan_string] in H. replace (c =? 34) with false in H by lia. replace (c =? 92) with false in H by lia. replace (c <? 32) with true in H by lia. discriminate.
    + rewrite (scan_plain n c l G N1 N2) in H. destruct (scan_string n l) as [[s' r']|] eqn:S; [|discriminate]. injection H as <- <-. destruct (IH _ _ _ S) as [A B].
      split; [cbn; lia|]. intros m L. cbn [List.length] in L. rewrite (scan_plain m c l G N1 N2), (B m) by lia. reflexivity.
Qed.

Section Fuel.
Context {X : Type}.
Notation json := (json X).
Variable read : list Z -> option X.

Lemma skip_length l : (List.length (skip l) <= List.length l)%nat.
Proof. induction l as [|c l IH]; [auto|]. cbn. destruct (whitespace c); cbn; lia. Qed.
Lemma literal_length w : forall l r, literal w l = Some r -> (List.length r + List.length w = List.length l)%nat.
Proof. induction w as [|a w IH]; intros l r H; [injection H as <-; cbn; lia|]. destruct l as [|b l]; [discriminate|]. cbn in H. destruct (a =? b); [|discriminate]. apply IH in H. cbn. lia. Qed.
Lemma span_length l d r : span_digits l = (d, r) -> (List.length r <= List.length l)%nat.
Proof. intros H. destruct (span_spec _ _ _ H) as (-> & _). rewrite app_length. lia. Qed.
Lemma integer_length l d r : integer_part l = Some (d, r) -> (List.length r < List.length l)%nat.
Proof.
  destruct l as [|c l]; [discriminate|]. cbn [integer_part]. destruct (c =? 48); [intros E; injection E as _ <-; cbn; lia|]. destruct (is_digit c) eqn:D; [|discriminate].
  intros E. injection E as E. cbn [span_digits] in E. rewrite D in E. destruct (span_digits l) as [d' r'] eqn:S. injection E as _ <-. apply span_length in S. cbn. lia.
Qed.
Lemma number_length l (v : json) r : scan_number read l = Some (v, r) -> (List.length r < List.length l)%nat.
Proof.
  intros H. unfold scan_number in H. destruct l as [|c l]; [discriminate|].
  assert (S : exists sg t, (if c =? 45 then ([45], l) else ([], c :: l)) = (sg, t) /\ (List.length t <= List.length (c :: l))%nat) by (destruct (c =? 45); eexists; eexists; (split; [reflexivity|cbn; lia])).
  destruct S as (sg & t & S & L). rewrite S in H. destruct (integer_part t) as [[i t1]|] eqn:I; [|discriminate]. apply integer_length in I.
  destruct (fraction_part t1) as [f t2] eqn:F. destruct (exponent_part t2) as [e t3] eqn:E. apply fraction_suffix in F. apply exponent_suffix in E. subst t1 t2. rewrite !app_length in I.
  assert (t3 = r) as -> by (destruct f, e; try (injection H as _ <-; reflexivity); destruct (read _); injection H as _ <-; reflexivity). lia.
Qed.

Section Parts.
Variable f : list Z -> option (json * list Z).
Hypothesis SH : forall l v r, f l = Some (v, r) -> (List.length r < List.length l)%nat.

Lemma items_fuel n : forall l p r, items n f l = Some (p, r) -> (List.length r < List.length l)%nat /\
  forall m g, (List.length l <= m)%nat -> (forall t v r, (List.length t <= List.length l)%nat -> f t = Some (v, r) -> g t = Some (v, r)) -> items m g l = Some (p, r).
Proof.
  induction n as [|n IH]; intros l p r H; [discriminate|]. cbn [items] in H. destruct (f l) as [[v l1]|] eqn:E; [|discriminate]. pose proof (SH _ _ _ E) as L1.
  pose proof (skip_length l1) as L2. destruct (skip l1) as [|c l2] eqn:S; [discriminate|]. cbn [List.length] in L2. destruct (c =? 93) eqn:C1.
  - injection H as <- <-. split; [lia|]. intros [|m] g L G; [lia|]. cbn [items]. rewrite (G l v l1) by auto. rewrite S, C1. reflexivity.
  - destruct (c =? 44) eqn:C2; [|discriminate]. destruct (items n f (skip l2)) as [[ms r']|] eqn:I; [|discriminate]. injection H as <- <-. destruct (IH _ _ _ I) as [A B].
    pose proof (skip_length l2) as L3. split; [lia|]. intros [|m] g L G; [lia|]. cbn [items]. rewrite (G l v l1) by auto. rewrite S, C1, C2. rewrite (B m g); [reflexivity|lia|].
    intros t w q T FT. apply G; [lia|auto].
Qed.
Lemma entries_fuel n : forall l p r, entries n f l = Some (p, r) -> (List.length r < List.length l)%nat /\
  forall m g, (List.length l <= m)%nat -> (forall t v r, (List.length t <= List.length l)%nat -> f t = Some (v, r) -> g t = Some (v, r)) -> entries m g l = Some (p, r).
Proof.
  induction n as [|n IH]; intros l p r H; [discriminate|]. destruct l as [|q l]; [discriminate|]. cbn [entries] in H. destruct (q =? 34) eqn:Q; [|discriminate].
  destruct (scan_string (S (List.length l)) l) as [[k l1]|] eqn:K; [|discriminate]. destruct (scan_fuel _ _ _ _ K) as [L1 _]. pose proof (skip_length l1) as L2.
  destruct (skip l1) as [|b l2] eqn:S1; [discriminate|]. cbn [List.length] in L2. destruct (b =? 58) eqn:B0; [|discriminate]. pose proof (skip_length l2) as L3.
  destruct (f (skip l2)) as [[v l3]|] eqn:E; [|discriminate]. pose proof (SH _ _ _ E) as L4. pose proof (skip_length l3) as L5.
  destruct (skip l3) as [|c l4] eqn:S2; [discriminate|]. cbn [List.length] in L5. cbn [List.length]. destruct (c =? 125) eqn:C1.
  - injection H as <- <-. split; [lia|]. intros [|m] g L G; [lia|]. cbn [entries]. rewrite Q, K, S1, B0. rewrite (G (skip l2) v l3) by (auto; lia). rewrite S2, C1. reflexivity.
  - destruct (c =? 44) eqn:C2; [|discriminate]. destruct (entries n f (skip l4)) as [[ms r']|] eqn:I; [|discriminate]. injection H as <- <-. destruct (IH _ _ _ I) as [A B].
    pose proof (skip_length l4) as L6. split; [lia|]. intros [|m] g L G; [lia|]. cbn [entries]. rewrite Q, K, S1, B0. rewrite (G (skip l2) v l3) by (auto; lia). rewrite S2, C1, C2.
    rewrite (B m g); [reflexivity|lia|]. intros t w z T FT. apply G; [lia|auto].
Qed.
End Parts.

Lemma value_fuel n : forall l v r, value read n l = Some (v, r) -> (List.length r < List.length l)%nat /\ forall m, (List.length l <= m)%nat -> value read m l = Some (v, r).
Proof.
  induction n as [|n IH]; intros l v r H; [discriminate|].
  assert (SH : forall l v r, value read n l = Some (v, r) -> (List.length r < List.length l)%nat) by (intros l' v' r' H'; now apply IH in H').
  assert (CO : forall (p : json) w t, constant p w t = Some (v, r) -> (List.length r + List.length w = List.length t)%nat).
  { intros p w t HC. unfold constant in HC. destruct (literal w t) eqn:E; [|discriminate]. injection HC as _ <-. now apply literal_length in E. }
  destruct l as [|c t]; [discriminate|]. cbn [value] in H.
  enough (G : (List.length r < List.length (c :: t))%nat /\ forall m, (List.length (c :: t) <= Datatypes.S m)%nat -> value read (Datatypes.S m) (c :: t) = Some (v, r)).
  { split; [apply G|]. intros [|m] L; [cbn in L; lia|]. now apply G. }
  cbn [value List.length]. destruct (c =? 34).
  { destruct (scan_string (S (List.length t)) t) as [[s r']|] eqn:E; [|discriminate]. apply (scan_fuel _ _ _ _) in E. destruct E as [E _]. injection H as <- <-. split; [lia|]. intros; reflexivity. }
  destruct (c =? 123).
  { pose proof (skip_length t) as L1. destruct (skip t) as [|d u] eqn:S; [discriminate|]. destruct (d =? 125); [injection H as <- <-; cbn in L1; split; [lia|reflexivity]|].
    destruct (entries n (value read n) (d :: u)) as [[p r']|] eqn:E; [|discriminate]. injection H as <- <-. destruct (entries_fuel _ SH _ _ _ _ E) as [A B]. split; [lia|].
    intros m L. rewrite (B m (value read m)); [reflexivity|lia|]. intros t' v' r'' L' V. apply IH in V. apply V. lia. }
  destruct (c =? 91).
  { pose proof (skip_length t) as L1. destruct (skip t) as [|d u] eqn:S; [discriminate|]. destruct (d =? 93); [injection H as <- <-; cbn in L1; split; [lia|reflexivity]|].
    destruct (items n (value read n) (d :: u)) as [[p r']|] eqn:E; [|discriminate]. injection H as <- <-. destruct (items_fuel _ SH _ _ _ _ E) as [A B]. split; [lia|].
    intros m L. rewrite (B m (value read m)); [reflexivity|lia|]. intros t' v' r'' L' V. apply IH in V. apply V. lia. }
  split; [|intros; exact H].
  assert (CP : forall (p : json) w, w <> [] -> constant p w (c :: t) = Some (v, r) -> (List.length r < Datatypes.S (List.length t))%nat).
  { intros p w NW HC. apply CO in HC. destruct w; [contradiction|]. cbn in HC. lia. }
  destruct (c =? 110); [apply CP in H; [auto|discriminate]|]. destruct (c =? 116); [apply CP in H; [auto|discriminate]|]. destruct (c =? 102); [apply CP in H; [auto|discriminate]|].
  destruct (scan_number read (c :: t)) as [p|] eqn:N; [injection H as ->; now apply number_length in N|].
  destruct (c =? 78); [apply CP in H; [auto|discriminate]|]. destruct (c =? 73); [apply CP in H; [auto|discriminate]|]. destruct (c =? 45); [apply CP in H; [auto|discriminate]|]. discriminate.
Qed.

Theorem load_fuel n text v r : value read n (skip text) = Some (v, r) -> skip r = [] -> load read text = Ok v.
Proof. intros H S. apply value_fuel in H. destruct H as [_ H]. unfold load. rewrite H, S; [reflexivity|]. pose proof (skip_length text). lia. Qed.
Theorem load_fuel_string n text s r : scan_string n text = Some (s, r) -> scan_string (S (List.length text)) text = Some (s, r).
Proof. intros H. apply scan_fuel in H. apply H. lia. Qed.

End Fuel.
