(** JSON texts: texts that end too early, objects that cannot be written, and the number of steps of the parser. *)

From Coq Require Import String Ascii ZArith List Bool Lia ZifyBool.
From Verif.Model Require Import Py Text Json.
From Verif.Spec Require Import JsonSpec.
From Verif.Proofs Require Import TextFacts JsonText JsonValues.
Import ListNotations.
Open Scope list_scope.
Open Scope Z_scope.

Section Crash.
Context {X : Type}.
Notation json := (json X).
Variable D : X -> Prop.
Variable show : X -> list Z.
Variable read : list Z -> option X.

(** ** Texts that are continued *)

Lemma skip_extend l c r q : skip l = c :: r -> skip (l ++ q) = c :: r ++ q.
Proof. induction l as [|d l IH]; [discriminate|]. cbn [skip app]. destruct (whitespace d); [exact IH|]. intros E. injection E as <- <-. reflexivity. Qed.
Lemma literal_extend w : forall l r q, literal w l = Some r -> literal w (l ++ q) = Some (r ++ q).
Proof. induction w as [|a w IH]; intros l r q H; [injection H as <-; reflexivity|]. destruct l as [|b l]; [discriminate|]. cbn [literal app] in *. destruct (a =? b); [auto|discriminate]. Qed.
Lemma constant_extend (v : json) w l p r q : constant v w l = Some (p, r) -> constant v w (l ++ q) = Some (p, r ++ q).
Proof. unfold constant. destruct (literal w l) eqn:E; [|discriminate]. intros H. injection H as <- <-. now rewrite (literal_extend _ _ _ q E). Qed.

Lemma skip_ends l c r : skip l = c :: r -> is_digit c = false -> c <> 46 -> c <> 101 -> c <> 69 -> l <> [] /\ ends_number l.
Proof.
  destruct l as [|d l]; [discriminate|]. cbn [skip]. destruct (whitespace d) eqn:W; intros E A B C DD.
  - split; [discriminate|]. unfold whitespace in W. cbn. unfold is_digit. lia.
  - injection E as <- <-. split; [discriminate|]. cbn. auto.
Qed.

Section Extend.
Variable q : list Z.
Variables f g : list Z -> option (json * list Z).
Hypothesis FG : forall l v r, f l = Some (v, r) -> r <> [] -> ends_number r -> g (l ++ q) = Some (v, r ++ q).
Hypothesis F0 : f [] = None.

Lemma items_extend n : forall m l p r, items n f l = Some (p, r) -> (n <= m)%nat -> items m g (l ++ q) = Some (p, r ++ q).
Proof.
  induction n as [|n IH]; intros m l p r H L; [discriminate|]. destruct m as [|m]; [lia|]. cbn [items] in *. destruct (f l) as [[v l1]|] eqn:E; [|discriminate].
  destruct (skip l1) as [|c l2] eqn:S; [discriminate|]. destruct (Z.eqb_spec c 93) as [->|N].
  - injection H as <- <-. destruct (skip_ends _ _ _ S) as [A B]; try discriminate; [reflexivity|]. rewrite (FG _ _ _ E A B), (skip_extend _ _ _ q S). reflexivity.
  - destruct (Z.eqb_spec c 44) as [->|]; [|discriminate]. destruct (skip_ends _ _ _ S) as [A B]; try discriminate; [reflexivity|]. rewrite (FG _ _ _ E A B), (skip_extend _ _ _ q S).
    change (44 =? 93) with false. change (44 =? 44) with true. cbv iota. destruct (items n f (skip l2)) as [[ms r']|] eqn:I; [|discriminate]. injection H as <- <-.
    destruct (skip l2) as [|c2 l3] eqn:S2; [destruct n; [discriminate|]; cbn [items] in I; rewrite F0 in I; discriminate|].
    rewrite (skip_extend _ _ _ q S2). change (c2 :: l3 ++ q) with ((c2 :: l3) ++ q). rewrite (IH m _ _ _ I) by lia. reflexivity.
Qed.

Lemma scan_extend_all t s r : scan_string (S (List.length t)) t = Some (s, r) -> scan_string (S (List.length (t ++ q))) (t ++ q) = Some (s, r ++ q).
Proof. intros H. apply (scan_extend _ _ _ _ _ _ H). rewrite app_length. lia. Qed.

Lemma entries_extend n : forall m l p r, entries n f l = Some (p, r) -> (n <= m)%nat -> entries m g (l ++ q) = Some (p, r ++ q).
Proof.
  induction n as [|n IH]; intros m l p r H L; [discriminate|]. destruct m as [|m]; [lia|]. destruct l as [|a l]; [discriminate|]. cbn [entries app] in *.
  destruct (a =? 34); [|discriminate]. destruct (scan_string (S (List.length l)) l) as [[k l1]|] eqn:K; [|discriminate]. rewrite (scan_extend_all _ _ _ K).
  destruct (skip l1) as [|b l2] eqn:S1; [discriminate|]. rewrite (skip_extend _ _ _ q S1). destruct (b =? 58); [|discriminate].
  destruct (f (skip l2)) as [[v l3]|] eqn:E; [|discriminate]. destruct (skip l2) as [|c l4] eqn:S2; [rewrite F0 in E; discriminate|]. rewrite (skip_extend _ _ _ q S2).
  destruct (skip l3) as [|d l5] eqn:S3; [discriminate|]. destruct (Z.eqb_spec d 125) as [->|N].
  - injection H as <- <-. destruct (skip_ends _ _ _ S3) as [A B]; try discriminate; [reflexivity|]. change (c :: l4 ++ q) with ((c :: l4) ++ q).
    rewrite (FG _ _ _ E A B), (skip_extend _ _ _ q S3). reflexivity.
  - destruct (Z.eqb_spec d 44) as [->|]; [|discriminate]. destruct (skip_ends _ _ _ S3) as [A B]; try discriminate; [reflexivity|]. change (c :: l4 ++ q) with ((c :: l4) ++ q).
    rewrite (FG _ _ _ E A B), (skip_extend _ _ _ q S3). change (44 =? 125) with false. change (44 =? 44) with true. cbv iota.
    destruct (entries n f (skip l5)) as [[ms r']|] eqn:I; [|discriminate]. injection H as <- <-.
    destruct (skip l5) as [|c2 l6] eqn:S5; [destruct n; discriminate|]. rewrite (skip_extend _ _ _ q S5).
    change (c2 :: l6 ++ q) with ((c2 :: l6) ++ q). rewrite (IH m _ _ _ I) by lia. reflexivity.
Qed.
End Extend.

Lemma number_none_sign c l : c <> 45 -> is_digit c = false -> scan_number read (c :: l) = None.
Proof.
  intros A B. unfold scan_number. replace (c =? 45) with false by lia. cbn [integer_part]. unfold is_digit in *. replace (c =? 48) with false by lia. now rewrite B.
Qed.

Lemma value_extend n : forall m l v r q, value read n l = Some (v, r) -> (n <= m)%nat -> (r <> [] /\ ends_number r) \/ container v -> value read m (l ++ q) = Some (v, r ++ q).
Proof.
  induction n as [|n IH]; intros m l v r q H L C; [discriminate|]. destruct m as [|m]; [lia|]. destruct l as [|c t]; [discriminate|].
  assert (FG : forall l v r, value read n l = Some (v, r) -> r <> [] -> ends_number r -> value read m (l ++ q) = Some (v, r ++ q)) by (intros; apply IH; auto; lia).
  assert (F0 : value read n [] = None) by now destruct n.
  cbn [value app] in *. destruct (c =? 34).
  { destruct (scan_string (S (List.length t)) t) as [[s r']|] eqn:E; [|discriminate]. injection H as <- <-. now rewrite (scan_extend_all _ _ _ _ E). }
  destruct (c =? 123).
  { destruct (skip t) as [|d u] eqn:S; [discriminate|]. rewrite (skip_extend _ _ _ q S). destruct (d =? 125); [injection H as <- <-; reflexivity|].
    destruct (entries n (value read n) (d :: u)) as [[p r']|] eqn:E; [|discriminate]. injection H as <- <-. change (d :: u ++ q) with ((d :: u) ++ q).
    now rewrite (entries_extend q _ _ FG F0 _ m _ _ _ E) by lia. }
  destruct (c =? 91).
  { destruct (skip t) as [|d u] eqn:S; [discriminate|]. rewrite (skip_extend _ _ _ q S). destruct (d =? 93); [injection H as <- <-; reflexivity|].
    destruct (items n (value read n) (d :: u)) as [[p r']|] eqn:E; [|discriminate]. injection H as <- <-. change (d :: u ++ q) with ((d :: u) ++ q).
    now rewrite (items_extend q _ _ FG F0 _ m _ _ _ E) by lia. }
  change (c :: t ++ q) with ((c :: t) ++ q). destruct (c =? 110); [now apply constant_extend|]. destruct (c =? 116); [now apply constant_extend|]. destruct (c =? 102); [now apply constant_extend|].
  destruct (scan_number read (c :: t)) as [p|] eqn:N.
  - subst. injection H as ->. destruct C as [[C1 C2]|C]; [now rewrite (number_extend read _ _ _ q N C1 C2)|]. exfalso. unfold scan_number in N.
    destruct (if c =? 45 then _ else _) as [sg t0]. destruct (integer_part t0) as [[i t1]|]; [|discriminate]. destruct (fraction_part t1) as [[|a f] t2]; destruct (exponent_part t2) as [[|b e] t3];
      try (destruct (read _)); injection N as <- <-; exact C.
  - destruct (Z.eqb_spec c 78) as [->|]; [cbn [app]; rewrite number_none_sign by (try discriminate; reflexivity); now apply (constant_extend _ _ (78 :: t))|].
    destruct (Z.eqb_spec c 73) as [->|]; [cbn [app]; rewrite number_none_sign by (try discriminate; reflexivity); now apply (constant_extend _ _ (73 :: t))|].
    destruct (Z.eqb_spec c 45) as [->|]; [|discriminate]. destruct t as [|d t]; [discriminate|].
    destruct (Z.eq_dec d 73) as [->|DD].
    + cbn [app]. change (scan_number read (45 :: 73 :: t ++ q)) with (@None (json * list Z)). now apply (constant_extend _ _ (45 :: 73 :: t)).
    + exfalso. revert H. unfold constant. cbn [literal codes]. change (Z.of_N (N_of_ascii "-") =? 45) with true. change (Z.of_N (N_of_ascii "I")) with 73. cbv iota.
      replace (73 =? d) with false by lia. discriminate.
Qed.

(** ** Texts that end too early *)

Hypothesis F : faithful D show read.

Lemma container_opens level v : container v -> exists c u, fst (write show level v) = c :: u /\ (c = 91 \/ c = 123).
Proof. destruct v as [| | | | |[|x l]|[|[k x] l]|]; intros C; try contradiction; (eexists; eexists; split; [reflexivity|auto]). Qed.

Lemma value_container n c t v r : c = 91 \/ c = 123 -> value read n (c :: t) = Some (v, r) -> container v.
Proof.
  intros C. destruct n as [|n]; [discriminate|]. cbn [value]. replace (c =? 34) with false by lia. destruct C as [-> | ->].
  - change (91 =? 123) with false. change (91 =? 91) with true. cbv iota. destruct (skip t) as [|d u]; [discriminate|]. destruct (d =? 93); [intros E; injection E as <- _; exact I|].
    destruct (items _ _ _) as [[p r']|]; [|discriminate]. intros E; injection E as <- _; exact I.
  - change (123 =? 123) with true. cbv iota. destruct (skip t) as [|d u]; [discriminate|]. destruct (d =? 125); [intros E; injection E as <- _; exact I|].
    destruct (entries _ _ _) as [[p r']|]; [|discriminate]. intros E; injection E as <- _; exact I.
Qed.

Theorem load_truncated v p q : proper_json D v -> complete v -> container v -> fst (dump show v) = p ++ q -> q <> [] -> load read p = Err ValueError.
Proof.
  intros P C K E NQ. destruct (container_opens O v K) as (c & u & W & CC). unfold dump in E. rewrite W in E. destruct p as [|c' p]; [reflexivity|]. cbn [app] in E. injection E as <- E.
  unfold load. assert (S : skip (c :: p) = c :: p) by (apply skip_solid; destruct CC as [-> | ->]; reflexivity). rewrite S.
  destruct (value read (Datatypes.S (List.length (c :: p))) (c :: p)) as [[w r]|] eqn:V; [|reflexivity]. destruct (skip r) eqn:R; [|reflexivity]. exfalso.
  pose proof (value_container _ _ _ _ _ CC V) as KW.
  destruct (value_written D show read F v P C O) as (_ & _ & RV). specialize (RV (Datatypes.S (List.length (c :: p)) + List.length (c :: u))%nat [] I ltac:(rewrite W; cbn; lia)). rewrite app_nil_r, W, E in RV.
  pose proof (value_extend _ (Datatypes.S (List.length (c :: p)) + List.length (c :: u))%nat _ _ _ q V ltac:(lia) (or_intror KW)) as EV. cbn [app] in EV. rewrite E in EV. rewrite RV in EV.
  injection EV as _ EQ. destruct r; [|discriminate]. cbn in EQ. subst q. contradiction.
Qed.

(** ** Objects that cannot be written *)

Fixpoint patch (v : json) : json :=
  match v with
  | JOther => JNull
  | JList l => JList (map patch l)
  | JDict l => JDict (map (fun e => (fst e, patch (snd e))) l)
  | v => v
  end.

Definition breaks (a b : written) : Prop := snd b = None /\ match snd a with None => fst b = fst a | Some e => e = TypeError /\ exists q, q <> [] /\ fst b = fst a ++ q end.

Lemma breaks_emit t a b : breaks a b -> breaks (emit t a) (emit t b).
Proof.
  intros [S B]. unfold breaks, emit. cbn [fst snd]. split; [auto|]. destruct (snd a); [|now rewrite B]. destruct B as (-> & q & N & ->). split; [auto|]. exists q. split; [auto|]. now rewrite app_assoc.
Qed.
Lemma breaks_then a b c d : breaks a b -> breaks c d -> breaks (then_ a c) (then_ b d).
Proof.
  intros [S B] CD. unfold then_. rewrite S. destruct (snd a) as [e|] eqn:A.
  - destruct B as (-> & q & N & E). split; [apply CD|]. rewrite A. split; [auto|]. unfold emit. cbn [fst]. exists (q ++ fst d). split; [destruct q; [contradiction|discriminate]|].
    rewrite E. now rewrite app_assoc.
  - rewrite <- B. now apply breaks_emit.
Qed.
Lemma breaks_same t : breaks (t, None) (t, None).
Proof. split; reflexivity. Qed.

Lemma write_patch v : forall level, breaks (write show level v) (write show level (patch v)).
Proof.
  induction v as [|b|z|x|s|l IH|l IH|] using json_deep; intros level; try apply breaks_same.
  - destruct l as [|x l]; [apply breaks_same|]. inversion IH as [|? ? IX IL]; subst. change (patch (JList (x :: l))) with (JList (patch x :: map patch l)). rewrite !write_list.
    apply breaks_emit, breaks_then; [apply IX|]. clear IX IH. induction IL as [|y l IY IL IH]; [apply breaks_same|]. cbn [map write_items]. apply breaks_emit, breaks_then; [apply IY|exact IH].
  - destruct l as [|[k x] l]; [apply breaks_same|]. inversion IH as [|? ? IX IL]; subst. cbn [snd] in IX.
    change (patch (JDict ((k, x) :: l))) with (JDict ((k, patch x) :: map (fun e => (fst e, patch (snd e))) l)). rewrite !write_dict.
    apply breaks_emit, breaks_then; [apply IX|]. clear IX IH. induction IL as [|[k' y] l IY IL IH]; [apply breaks_same|]. cbn [map write_entries fst snd]. apply breaks_emit, breaks_then; [apply IY|exact IH].
  - split; [reflexivity|]. cbn [write snd fst]. split; [reflexivity|]. exists (codes "null"). split; [discriminate|reflexivity].
Qed.

Lemma then_none (a k : written) : snd (then_ a k) = None <-> snd a = None /\ snd k = None.
Proof. unfold then_. destruct (snd a) eqn:A; [rewrite A; split; [discriminate|now intros [? _]]|]. cbn. tauto. Qed.

Lemma write_complete v : forall level, snd (write show level v) = None <-> complete v.
Proof.
  induction v as [|b|z|x|s|l IH|l IH|] using json_deep; intros level; try (split; [constructor|reflexivity]).
  - rewrite complete_list. destruct l as [|x l]; [split; [constructor|reflexivity]|]. inversion IH as [|? ? IX IL]; subst. rewrite write_list, Forall_cons_iff.
    unfold emit. cbn [snd]. rewrite then_none, IX. enough (E : snd (write_items show level l) = None <-> Forall (@complete X) l) by tauto.
    clear IX IH. induction IL as [|y l IY IL IH]; [split; [constructor|reflexivity]|]. cbn [write_items]. unfold emit. cbn [snd]. rewrite then_none, IY, Forall_cons_iff. tauto.
  - rewrite complete_dict. destruct l as [|[k x] l]; [split; [constructor|reflexivity]|]. inversion IH as [|? ? IX IL]; subst. rewrite write_dict, Forall_cons_iff. cbn [snd] in IX |- *.
    unfold emit. cbn [snd]. rewrite then_none, IX. enough (E : snd (write_entries show level l) = None <-> Forall (fun e => @complete X (snd e)) l) by tauto.
    clear IX IH. induction IL as [|[k' y] l IY IL IH]; [split; [constructor|reflexivity]|]. cbn [write_entries snd] in *. unfold emit. cbn [snd]. rewrite then_none, IY, Forall_cons_iff. cbn [snd]. tauto.
  - split; [discriminate|contradiction].
Qed.

Lemma patch_proper v : proper_json D v -> proper_json D (patch v).
Proof.
  induction v as [|b|z|x|s|l IH|l IH|] using json_deep; intros P; auto.
  - apply proper_list. apply proper_list in P. apply Forall_map. rewrite Forall_forall in *. intros x I. apply IH; auto.
  - change (patch (JDict l)) with (JDict (map (fun e => (fst e, patch (snd e))) l)). apply (proj2 (proper_dict D read _)). apply (proper_dict D read) in P. destruct P as [N P]. rewrite map_map. split; [exact N|]. apply Forall_map. rewrite Forall_forall in *. cbn [fst snd].
    intros x I. split; [now apply P|]. apply IH; [auto|]. now apply P.
Qed.
Lemma patch_complete v : complete (patch v).
Proof.
  induction v as [|b|z|x|s|l IH|l IH|] using json_deep; try exact I.
  - apply complete_list. apply Forall_map. exact IH.
  - apply complete_dict. apply Forall_map. exact IH.
Qed.
Lemma patch_container v : container v -> container (patch v).
Proof. destruct v; auto. Qed.

Theorem dump_failure v : proper_json D v -> ~ complete v -> snd (dump show v) = Some TypeError /\ load read (fst (dump show v)) = Err ValueError.
Proof.
  intros P N. destruct (write_patch v O) as [S B]. unfold dump. destruct (snd (write show O v)) as [e|] eqn:E; [|exfalso; apply N; now apply (write_complete v O)].
  destruct B as (-> & q & NQ & EQ). split; [reflexivity|]. destruct v as [| | | | |l|l|]; try discriminate; [| |reflexivity].
  - apply (load_truncated (patch (JList l)) _ q); auto using patch_proper, patch_complete. exact I.
  - apply (load_truncated (patch (JDict l)) _ q); auto using patch_proper, patch_complete. exact I.
Qed.

End Crash.
