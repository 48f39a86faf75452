(** JSON strings and numbers: reading what has been written, and reading texts that are continued. *)

From Coq Require Import String Ascii ZArith List Bool Lia ZifyBool.
From Verif.Model Require Import Py Text Json.
From Verif.Spec Require Import JsonSpec.
From Verif.Proofs Require Import TextFacts.
Import ListNotations.
Open Scope list_scope.
Open Scope Z_scope.

(** ** Strings *)

Lemma unhex_digit d : 0 <= d < 16 -> unhex (hex_digit d) = Some d.
Proof.
  intros D. unfold unhex, hex_digit. destruct (Z.ltb_spec d 10).
  - replace ((48 <=? 48 + d) && (48 + d <=? 57)) with true by lia. f_equal. lia.
  - replace ((48 <=? 87 + d) && (87 + d <=? 57)) with false by lia. replace ((97 <=? 87 + d) && (87 + d <=? 102)) with true by lia. f_equal. lia.
Qed.

Definition hex4 (n : Z) : list Z := [hex_digit (n / 4096); hex_digit (n / 256 mod 16); hex_digit (n / 16 mod 16); hex_digit (n mod 16)].

Lemma unhex4_ok n r : 0 <= n < 65536 -> unhex4 (hex4 n ++ r) = Some (n, r).
Proof.
  intros N. unfold hex4. cbn [app unhex4].
  assert (0 <= n / 4096 < 16) by (split; [apply Z.div_pos; lia|apply Z.div_lt_upper_bound; lia]).
  rewrite !unhex_digit by (auto; apply Z.mod_pos_bound; lia). do 2 f_equal.
  pose proof (Z.div_mod n 16 ltac:(lia)). pose proof (Z.div_mod (n / 16) 16 ltac:(lia)). pose proof (Z.div_mod (n / 256) 16 ltac:(lia)).
  rewrite (Z.div_div n 16 16) in * by lia. rewrite (Z.div_div n 256 16) in * by lia. change (16 * 16) with 256 in *. change (256 * 16) with 4096 in *. lia.
Qed.

Lemma unhex4_extend l u r q : unhex4 l = Some (u, r) -> unhex4 (l ++ q) = Some (u, r ++ q).
Proof.
  destruct l as [|a [|b [|c [|d l]]]]; try discriminate. cbn [unhex4 app]. destruct (unhex a), (unhex b), (unhex c), (unhex d); try discriminate.
  intros E. injection E as <- <-. reflexivity.
Qed.

(** What the look-ahead for a low surrogate yields *)
Definition pair_up (u : Z) (l : list Z) : Z * list Z :=
  if (55296 <=? u) && (u <=? 56319) then
    match l with
    | b :: e :: m =>
        if (b =? 92) && (e =? 117) then
          match unhex4 m with
          | Some (u2, m) => if (56320 <=? u2) && (u2 <=? 57343) then (65536 + 1024 * (u - 55296) + (u2 - 56320), m) else (u, l)
          | None => (u, l)
          end
        else (u, l)
    | _ => (u, l)
    end
  else (u, l).

Lemma scan_u n l : scan_string (S n) (92 :: 117 :: l) =
  match unhex4 l with
  | None => None
  | Some (u, l) => let '(u, l) := pair_up u l in match scan_string n l with Some (s, r) => Some (u :: s, r) | None => None end
  end.
Proof. reflexivity. Qed.

Lemma scan_simple n e c l : e <> 117 -> simple_escape e = Some c ->
  scan_string (S n) (92 :: e :: l) = match scan_string n l with Some (s, r) => Some (c :: s, r) | None => None end.
Proof. intros E H. cbn [scan_string]. change (92 =? 34) with false. change (92 =? 92) with true. cbv iota. replace (e =? 117) with false by lia. now rewrite H. Qed.

Lemma scan_escape n e l : e <> 117 -> scan_string (S n) (92 :: e :: l) =
  match simple_escape e with None => None | Some c => match scan_string n l with Some (s, r) => Some (c :: s, r) | None => None end end.
Proof. intros E. cbn [scan_string]. change (92 =? 34) with false. change (92 =? 92) with true. cbv iota. now replace (e =? 117) with false by lia. Qed.

Lemma scan_other n c l : c <> 34 -> c <> 92 -> scan_string (S n) (c :: l) =
  if c <? 32 then None else match scan_string n l with Some (s, r) => Some (c :: s, r) | None => None end.
Proof. intros A B. cbn [scan_string]. replace (c =? 34) with false by lia. now replace (c =? 92) with false by lia. Qed.

Lemma scan_quote n l : scan_string (S n) (34 :: l) = Some ([], l).
Proof. reflexivity. Qed.
Lemma scan_nil n : scan_string n [] = None.
Proof. now destruct n. Qed.
Lemma scan_backslash n : scan_string n [92] = None.
Proof. now destruct n. Qed.

Lemma scan_plain n c l : 32 <= c -> c <> 34 -> c <> 92 ->
  scan_string (S n) (c :: l) = match scan_string n l with Some (s, r) => Some (c :: s, r) | None => None end.
Proof. intros A B C. cbn [scan_string]. replace (c =? 34) with false by lia. replace (c =? 92) with false by lia. now replace (c <? 32) with false by lia. Qed.

Lemma escape_cases c : 0 <= c < 1114112 ->
  (exists e, escape c = [92; e] /\ e <> 117 /\ simple_escape e = Some c) \/ (escape c = [c] /\ 32 <= c /\ c <> 34 /\ c <> 92) \/
  (escape c = 92 :: 117 :: hex4 c /\ c < 65536) \/
  (65536 <= c /\ exists u v, escape c = (92 :: 117 :: hex4 u) ++ 92 :: 117 :: hex4 v /\ 55296 <= u <= 56319 /\ 56320 <= v <= 57343 /\ c = 65536 + 1024 * (u - 55296) + (v - 56320)).
Proof.
  intros C. unfold escape. destruct (Z.eqb_spec c 92) as [->|]; [left; now eexists|]. destruct (Z.eqb_spec c 34) as [->|]; [left; now eexists|].
  destruct (Z.eqb_spec c 8) as [->|]; [left; now eexists|]. destruct (Z.eqb_spec c 12) as [->|]; [left; now eexists|].
  destruct (Z.eqb_spec c 10) as [->|]; [left; now eexists|]. destruct (Z.eqb_spec c 13) as [->|]; [left; now eexists|]. destruct (Z.eqb_spec c 9) as [->|]; [left; now eexists|].
  destruct ((32 <=? c) && (c <=? 126)) eqn:P; [right; left; repeat split; auto; lia|]. destruct (Z.ltb_spec c 65536); [right; right; left; split; [reflexivity|lia]|].
  right; right; right. split; [auto|]. exists (55296 + (c - 65536) / 1024 mod 1024), (56320 + (c - 65536) mod 1024). split; [reflexivity|].
  assert (0 <= (c - 65536) / 1024 < 1024) by (split; [apply Z.div_pos; lia|apply Z.div_lt_upper_bound; lia]). rewrite (Z.mod_small (_ / _)) by lia.
  pose proof (Z.mod_pos_bound (c - 65536) 1024 ltac:(lia)). pose proof (Z.div_mod (c - 65536) 1024 ltac:(lia)). lia.
Qed.

Lemma proper_tail c s : proper_string (c :: s) -> 0 <= c < 1114112 /\ proper_string s.
Proof. intros [A B]. split; [apply A; now left|]. split; [intros d D; apply A; now right|]. intros p a b q E. apply (B (c :: p) a b q). cbn. now rewrite E. Qed.

(** A high surrogate is not combined with what follows. *)
Lemma pair_up_none u s r : proper_string (u :: s) -> pair_up u (flat_map escape s ++ 34 :: r) = (u, flat_map escape s ++ 34 :: r).
Proof.
  intros P. unfold pair_up. destruct ((55296 <=? u) && (u <=? 56319)) eqn:H; [|reflexivity]. destruct s as [|d s]; [destruct r; reflexivity|].
  destruct (proper_tail _ _ P) as [_ Q]. destruct (proper_tail _ _ Q) as [D _]. cbn [flat_map].
  assert (N : ~ low_surrogate d) by (destruct P as [_ P]; apply (P [] u d s eq_refl); unfold high_surrogate; lia).
  destruct (escape_cases d D) as [(e & -> & NE & _)|[(-> & _ & _ & ND)|[(-> & L)|(_ & x & y & -> & X & Y & _)]]].
  - cbn [app]. replace ((92 =? 92) && (e =? 117)) with false by lia. reflexivity.
  - cbn [app]. destruct (flat_map escape s ++ 34 :: r) as [|b m]; [reflexivity|]. now replace ((d =? 92) && (b =? 117)) with false by lia.
  - cbn [app]. change ((92 =? 92) && (117 =? 117)) with true. cbv iota.
    replace ((hex4 d ++ flat_map escape s) ++ 34 :: r) with (hex4 d ++ flat_map escape s ++ 34 :: r) by now rewrite app_assoc. rewrite unhex4_ok by lia.
    unfold low_surrogate in N. now replace ((56320 <=? d) && (d <=? 57343)) with false by lia.
  - rewrite <- !app_assoc. cbn [app]. change ((92 =? 92) && (117 =? 117)) with true. cbv iota. rewrite unhex4_ok by lia.
    now replace ((56320 <=? x) && (x <=? 57343)) with false by lia.
Qed.

Lemma scan_written s : forall r n, proper_string s -> (List.length s < n)%nat -> scan_string n (flat_map escape s ++ 34 :: r) = Some (s, r).
Proof.
  induction s as [|c s IH]; intros r n P L; (destruct n as [|n]; [cbn in L; lia|]); [reflexivity|]. cbn [List.length] in L.
  destruct (proper_tail _ _ P) as [C Q]. specialize (IH r n Q ltac:(lia)). cbn [flat_map].
  destruct (escape_cases c C) as [(e & -> & NE & SE)|[(-> & L1 & L2 & L3)|[(-> & L1)|(_ & x & y & -> & X & Y & ->)]]]; rewrite <- app_assoc.
  - cbn [app]. rewrite (scan_simple n e c) by auto. now rewrite IH.
  - cbn [app]. rewrite scan_plain by auto. now rewrite IH.
  - cbn [app]. rewrite scan_u, unhex4_ok by lia. rewrite pair_up_none by auto. now rewrite IH.
  - rewrite <- app_assoc. cbn [app]. rewrite scan_u, unhex4_ok by lia. unfold pair_up. replace ((55296 <=? x) && (x <=? 56319)) with true by lia.
    change ((92 =? 92) && (117 =? 117)) with true. cbv iota. rewrite unhex4_ok by lia. replace ((56320 <=? y) && (y <=? 57343)) with true by lia. now rewrite IH.
Qed.

(** The rest of the text does not matter, nor does the number of steps, if there are enough. *)
Lemma pair_up_extend n u l v w q : pair_up u l = (v, w) -> scan_string n w <> None -> pair_up u (l ++ q) = (v, w ++ q).
Proof.
  intros PU SC. unfold pair_up in PU |- *. destruct ((55296 <=? u) && (u <=? 56319)); [|injection PU as <- <-; reflexivity].
  destruct l as [|b [|e m1]].
  - injection PU as <- <-. now rewrite scan_nil in SC.
  - injection PU as <- <-. destruct q as [|e m1]; [reflexivity|]. cbn [app]. destruct (Z.eqb_spec b 92) as [->|]; [|reflexivity]. now rewrite scan_backslash in SC.
  - cbn [app]. destruct ((b =? 92) && (e =? 117)) eqn:BE; [|injection PU as <- <-; reflexivity]. destruct (unhex4 m1) as [[u2 m2]|] eqn:E1.
    + rewrite (unhex4_extend _ _ _ q E1). destruct ((56320 <=? u2) && (u2 <=? 57343)); apply pair_equal_spec in PU; destruct PU as [<- <-]; reflexivity.
    + injection PU as <- <-. assert (b = 92 /\ e = 117) as [-> ->] by lia. destruct n as [|n]; [now cbn in SC|]. rewrite scan_u, E1 in SC. now contradiction SC.
Qed.

Lemma scan_extend n : forall m l s r q, scan_string n l = Some (s, r) -> (n <= m)%nat -> scan_string m (l ++ q) = Some (s, r ++ q).
Proof.
  induction n as [|n IH]; intros m l s r q H L; [discriminate|]. destruct m as [|m]; [lia|]. destruct l as [|c l]; [discriminate|].
  destruct (Z.eq_dec c 34) as [->|N1]; [rewrite scan_quote in H; injection H as <- <-; reflexivity|]. destruct (Z.eq_dec c 92) as [->|N2].
  - destruct l as [|e l]; [rewrite scan_backslash in H; discriminate|]. destruct (Z.eq_dec e 117) as [->|N3].
    + rewrite scan_u in H. change ((92 :: 117 :: l) ++ q) with (92 :: 117 :: l ++ q). rewrite scan_u. destruct (unhex4 l) as [[u l1]|] eqn:E; [|discriminate].
      rewrite (unhex4_extend _ _ _ q E). destruct (pair_up u l1) as [v w] eqn:PU. destruct (scan_string n w) as [[s' r']|] eqn:SC; [|discriminate]. injection H as <- <-.
      rewrite (pair_up_extend n u l1 v w q PU) by congruence. now rewrite (IH m _ _ _ q SC) by lia.
    + rewrite scan_escape in H by auto. change ((92 :: e :: l) ++ q) with (92 :: e :: l ++ q). rewrite scan_escape by auto.
      destruct (simple_escape e); [|discriminate]. destruct (scan_string n l) as [[s' r']|] eqn:SC; [|discriminate]. injection H as <- <-. now rewrite (IH m _ _ _ q SC) by lia.
  - rewrite scan_other in H by auto. change ((c :: l) ++ q) with (c :: l ++ q). rewrite scan_other by auto. destruct (c <? 32); [discriminate|].
    destruct (scan_string n l) as [[s' r']|] eqn:SC; [|discriminate]. injection H as <- <-. now rewrite (IH m _ _ _ q SC) by lia.
Qed.

(** ** Numbers *)

Definition ascii_digit (c : Z) : Prop := 48 <= c <= 57.
Lemma is_digit_true c : ascii_digit c -> is_digit c = true.
Proof. unfold ascii_digit, is_digit. lia. Qed.

(** The next character does not belong to a number. *)
Definition ends_number (r : list Z) : Prop := match r with [] => True | c :: _ => is_digit c = false /\ c <> 46 /\ c <> 101 /\ c <> 69 end.
Definition no_digit (r : list Z) : Prop := match r with [] => True | c :: _ => is_digit c = false end.

Lemma span_ok d r : Forall ascii_digit d -> no_digit r -> span_digits (d ++ r) = (d, r).
Proof.
  induction 1 as [|c d C D IH]; intros N.
  - destruct r as [|c r]; [reflexivity|]. cbn in *. now rewrite N.
  - cbn [app span_digits]. now rewrite (is_digit_true c C), IH.
Qed.

Lemma span_spec l : forall d r, span_digits l = (d, r) -> l = d ++ r /\ Forall ascii_digit d /\ no_digit r.
Proof.
  induction l as [|c l IH]; intros d r H; [injection H as <- <-; cbn; auto|]. cbn [span_digits] in H. destruct (is_digit c) eqn:C.
  - destruct (span_digits l) as [d' r'] eqn:E. injection H as <- <-. destruct (IH _ _ eq_refl) as (-> & D & N). repeat split; auto. constructor; auto. unfold is_digit, ascii_digit in *. lia.
  - injection H as <- <-. now repeat split.
Qed.

(** Texts, that are continued after the number has ended *)
Lemma span_extend l d r q : span_digits l = (d, r) -> r <> [] -> span_digits (l ++ q) = (d, r ++ q).
Proof.
  intros H NE. destruct (span_spec l d r H) as (-> & D & N). rewrite <- app_assoc. apply span_ok; [auto|]. destruct r; [contradiction|exact N].
Qed.

Lemma integer_extend l d r q : integer_part l = Some (d, r) -> r <> [] -> integer_part (l ++ q) = Some (d, r ++ q).
Proof.
  intros H NE. destruct l as [|c l]; [discriminate|]. cbn [integer_part app] in *. destruct (c =? 48); [injection H as <- <-; reflexivity|].
  destruct (is_digit c); [|discriminate]. injection H as H. change (c :: l ++ q) with ((c :: l) ++ q). f_equal. now apply span_extend.
Qed.

Lemma fraction_extend l f t q : fraction_part l = (f, t) -> t <> [] -> ends_number t \/ (exists c u, t = c :: u /\ c <> 46) -> fraction_part (l ++ q) = (f, t ++ q).
Proof.
  intros H NE E. destruct l as [|c l]; [injection H as <- <-; contradiction|]. cbn [fraction_part app] in *. destruct (Z.eqb_spec c 46) as [->|].
  - destruct (span_digits l) as [[|d ds] r] eqn:S.
    + injection H as <- <-. destruct E as [(_ & E & _)|(c & u & E & N)]; [contradiction|]. injection E as <- <-. contradiction.
    + injection H as <- <-. now rewrite (span_extend _ _ _ q S NE).
  - injection H as <- <-. reflexivity.
Qed.

Lemma exponent_extend l e r q : exponent_part l = (e, r) -> r <> [] -> ends_number r -> exponent_part (l ++ q) = (e, r ++ q).
Proof.
  intros H NE E. destruct l as [|c l]; [injection H as <- <-; contradiction|]. cbn [exponent_part app] in *. destruct ((c =? 101) || (c =? 69)) eqn:C; [|injection H as <- <-; reflexivity].
  assert (NC : forall x, (x, c :: l) = (e, r) -> False) by (intros x X; injection X as _ <-; cbn in E; lia).
  destruct l as [|s u].
  - cbn [span_digits] in H. now apply NC in H.
  - cbn [app]. destruct ((s =? 43) || (s =? 45)) eqn:S.
    + destruct (span_digits u) as [[|d ds] r'] eqn:SP; [now apply NC in H|]. injection H as <- <-. now rewrite (span_extend _ _ _ q SP NE).
    + destruct (span_digits (s :: u)) as [[|d ds] r'] eqn:SP; [now apply NC in H|]. injection H as <- <-. change (s :: u ++ q) with ((s :: u) ++ q).
      now rewrite (span_extend _ _ _ q SP NE).
Qed.

Lemma exponent_suffix l e r : exponent_part l = (e, r) -> l = e ++ r.
Proof.
  intros H. destruct l as [|c l]; [injection H as <- <-; reflexivity|]. cbn [exponent_part] in H. destruct ((c =? 101) || (c =? 69)); [|injection H as <- <-; reflexivity].
  destruct l as [|s u]; [injection H as <- <-; reflexivity|]. destruct ((s =? 43) || (s =? 45)).
  - destruct (span_digits u) as [[|d ds] r'] eqn:SP; injection H as <- <-; [reflexivity|]. destruct (span_spec _ _ _ SP) as (-> & _). reflexivity.
  - destruct (span_digits (s :: u)) as [[|d ds] r'] eqn:SP; injection H as <- <-; [reflexivity|]. destruct (span_spec _ _ _ SP) as (-> & _). reflexivity.
Qed.
Lemma exponent_head l e r : exponent_part l = (e, r) -> e <> [] -> exists c u, l = c :: u /\ c <> 46.
Proof.
  intros H N. destruct l as [|c l]; [injection H as <- <-; contradiction|]. exists c, l. split; [reflexivity|]. cbn [exponent_part] in H.
  destruct ((c =? 101) || (c =? 69)) eqn:C; [lia|]. injection H as <- <-. contradiction.
Qed.
Lemma fraction_suffix l f r : fraction_part l = (f, r) -> l = f ++ r.
Proof.
  intros H. destruct l as [|c l]; [injection H as <- <-; reflexivity|]. cbn [fraction_part] in H. destruct (c =? 46); [|injection H as <- <-; reflexivity].
  destruct (span_digits l) as [[|d ds] r'] eqn:SP; injection H as <- <-; [reflexivity|]. destruct (span_spec _ _ _ SP) as (-> & _). reflexivity.
Qed.

Section Numbers.
Context {X : Type}.
Variable read : list Z -> option X.

Lemma number_extend l (v : json X) r q : scan_number read l = Some (v, r) -> r <> [] -> ends_number r -> scan_number read (l ++ q) = Some (v, r ++ q).
Proof.
  intros H NE E. unfold scan_number in *. destruct l as [|c l]; [discriminate|]. cbn [app].
  assert (S : (if c =? 45 then ([45], l ++ q) else ([], c :: l ++ q)) = let '(s, t) := (if c =? 45 then ([45], l) else ([], c :: l)) in (s, t ++ q)) by now destruct (c =? 45).
  rewrite S. destruct (if c =? 45 then ([45], l) else ([], c :: l)) as [sign t]. destruct (integer_part t) as [[i t1]|] eqn:I; [|discriminate].
  destruct (fraction_part t1) as [f t2] eqn:F. destruct (exponent_part t2) as [e t3] eqn:EX.
  assert (R : t3 = r). { destruct f, e; try (injection H as _ <-; reflexivity); destruct (read _); injection H as _ <-; reflexivity. }
  subst t3. assert (N2 : t2 <> []) by (rewrite (exponent_suffix _ _ _ EX); destruct e; [auto|discriminate]).
  assert (N1 : t1 <> []) by (rewrite (fraction_suffix _ _ _ F); destruct f; [auto|discriminate]).
  rewrite (integer_extend _ _ _ q I N1), (fraction_extend _ _ _ q F N2), (exponent_extend _ _ _ q EX NE E).
  - destruct f, e; try (injection H as <-; reflexivity); destruct (read _); injection H as <-; reflexivity.
  - destruct e as [|e0 e]; [left|right].
    + rewrite (exponent_suffix _ _ _ EX). exact E.
    + now apply (exponent_head _ _ _ EX).
Qed.

(** Integers *)
Lemma codes_app a b : codes (a ++ b)%string = codes a ++ codes b.
Proof. induction a as [|c a IH]; cbn; [reflexivity|]. now rewrite IH. Qed.

Lemma code_digit d : 0 <= d < 10 -> Z.of_N (N_of_ascii (digit d)) = 48 + d.
Proof.
  intros D. assert (C : d = 0 \/ d = 1 \/ d = 2 \/ d = 3 \/ d = 4 \/ d = 5 \/ d = 6 \/ d = 7 \/ d = 8 \/ d = 9) by lia.
  decompose [or] C; subst; reflexivity.
Qed.

Lemma digits_value_snoc l c : digits_value (l ++ [c]) = 10 * digits_value l + (c - 48).
Proof. unfold digits_value. now rewrite fold_left_app. Qed.

Lemma text_ok n : 0 <= n -> Forall ascii_digit (codes (text n)) /\ digits_value (codes (text n)) = n /\
  exists c t, codes (text n) = c :: t /\ (c = 48 -> n = 0 /\ t = []).
Proof.
  revert n. apply text_ind.
  - intros n N. rewrite text_small by auto. cbn [codes]. rewrite code_digit by auto. split; [repeat constructor; unfold ascii_digit; lia|].
    split; [unfold digits_value; cbn [fold_left]; lia|]. exists (48 + n), []. split; [auto|]. intros H. split; [lia|auto].
  - intros n N (D & V & c & t & E & Z0). rewrite text_large by auto. rewrite codes_app. cbn [codes]. pose proof (Z.mod_pos_bound n 10 ltac:(lia)) as M. rewrite code_digit by auto.
    split; [apply Forall_app; split; [auto|repeat constructor; unfold ascii_digit; lia]|]. rewrite digits_value_snoc, V. split; [pose proof (Z.div_mod n 10 ltac:(lia)); lia|].
    rewrite E. exists c, (t ++ [48 + n mod 10]). split; [reflexivity|]. intros H. destruct (Z0 H) as [Q _]. assert (1 <= n / 10) by (apply Z.div_le_lower_bound; lia). lia.
Qed.

Lemma integer_ok i r : Forall ascii_digit i -> (i = [48] \/ exists c t, i = c :: t /\ c <> 48) -> no_digit r -> integer_part (i ++ r) = Some (i, r).
Proof.
  intros D [->|(c & t & -> & N)] R; [reflexivity|]. cbn [integer_part app]. replace (c =? 48) with false by lia. inversion D as [|c' t' C T]; subst.
  rewrite (is_digit_true c C). f_equal. change (c :: t ++ r) with ((c :: t) ++ r). now apply span_ok.
Qed.

Lemma fraction_none r : ends_number r -> fraction_part r = ([], r).
Proof. destruct r as [|c r]; [reflexivity|]. intros (_ & N & _). cbn. now replace (c =? 46) with false by lia. Qed.
Lemma exponent_none r : ends_number r -> exponent_part r = ([], r).
Proof. destruct r as [|c r]; [reflexivity|]. intros (_ & _ & N & N'). cbn [exponent_part]. now replace ((c =? 101) || (c =? 69)) with false by lia. Qed.
Lemma ends_no_digit r : ends_number r -> no_digit r.
Proof. destruct r; [auto|]. now intros [H _]. Qed.

Lemma not_minus i r : Forall ascii_digit i -> i <> [] ->
  match i ++ r with c :: t => if c =? 45 then ([45], t) else ([], i ++ r) | [] => ([], []) end = ([], i ++ r).
Proof. intros D N. destruct i as [|c i]; [contradiction|]. inversion D as [|c' t' C T]; subst. cbn [app]. unfold ascii_digit in C. now replace (c =? 45) with false by lia. Qed.

Lemma scan_int z r : ends_number r -> scan_number read (codes (py_str z) ++ r) = Some (JInt z, r).
Proof.
  intros E. assert (C : forall n, 0 <= n -> codes (text n) = [48] \/ exists c t, codes (text n) = c :: t /\ c <> 48).
  { intros n N. destruct (text_ok n N) as (_ & _ & c & t & -> & H). destruct (Z.eq_dec c 48) as [->|]; [left; now destruct (H eq_refl) as [_ ->]|right; eauto]. }
  assert (P : forall n, 0 <= n -> integer_part (codes (text n) ++ r) = Some (codes (text n), r)).
  { intros n N. apply integer_ok; [apply (text_ok n N)|auto|now apply ends_no_digit]. }
  unfold scan_number. destruct (Z.lt_ge_cases z 0) as [L|L].
  - rewrite py_str_neg by auto. cbn [codes app]. change (Z.of_N (N_of_ascii "-") =? 45) with true. cbv iota. rewrite (P (- z)) by lia. rewrite fraction_none, exponent_none by auto.
    destruct (text_ok (- z) ltac:(lia)) as (_ & -> & _). do 3 f_equal. lia.
  - rewrite py_str_nonneg by auto. destruct (text_ok z L) as (D & V & c & t & E1 & _). rewrite not_minus by (auto; rewrite E1; discriminate).
    rewrite (P z L), fraction_none, exponent_none by auto. now rewrite V.
Qed.

(** Floating point numbers *)
Lemma decimal_cons d : decimal d -> exists c t, d = c :: t /\ ascii_digit c.
Proof. intros [N F]. destruct d as [|c t]; [contradiction|]. inversion F; subst. eauto. Qed.

Lemma decimal_span d r : decimal d -> no_digit r -> exists c t, d = c :: t /\ span_digits (d ++ r) = (c :: t, r).
Proof. intros [N F] R. destruct d as [|c t]; [contradiction|]. exists c, t. split; [auto|]. now apply span_ok. Qed.

Lemma scan_float t x r : decimal_notation t -> read t = Some x -> ends_number r -> scan_number read (t ++ r) = Some (JFloat (Finite x), r).
Proof.
  intros (sign & i & f & e & -> & S & (DI & HI) & F & E & FE) R ER.
  assert (EP : exponent_part (e ++ r) = (e, r)).
  { destruct E as [-> |(s & d & -> & HS & DD)]; [now apply exponent_none|]. destruct (decimal_span d r DD (ends_no_digit r ER)) as (c & u & -> & SP).
    destruct (decimal_cons _ DD) as (c' & u' & E' & CD). injection E' as <- <-. unfold ascii_digit in CD.
    destruct HS as [-> |[-> | ->]]; cbn [codes app]; cbn [exponent_part].
    - change ((Z.of_N (N_of_ascii "e") =? 101) || (Z.of_N (N_of_ascii "e") =? 69)) with true. cbv iota. replace ((c =? 43) || (c =? 45)) with false by lia.
      cbn [app] in SP. rewrite SP. reflexivity.
    - change ((Z.of_N (N_of_ascii "e") =? 101) || (Z.of_N (N_of_ascii "e") =? 69)) with true. change ((Z.of_N (N_of_ascii "+") =? 43) || (Z.of_N (N_of_ascii "+") =? 45)) with true. cbv iota.
      cbn [app] in SP. rewrite SP. reflexivity.
    - change ((Z.of_N (N_of_ascii "e") =? 101) || (Z.of_N (N_of_ascii "e") =? 69)) with true. change ((Z.of_N (N_of_ascii "-") =? 43) || (Z.of_N (N_of_ascii "-") =? 45)) with true. cbv iota.
      cbn [app] in SP. rewrite SP. reflexivity. }
  assert (ED : no_digit (e ++ r) /\ forall c u, e ++ r = c :: u -> c <> 46).
  { destruct E as [-> |(s & d & -> & _ & _)]; [|split; [reflexivity|intros c u H; injection H as <- _; discriminate]]. split; [now apply ends_no_digit|].
    intros c u H. cbn [app] in H. subst r. apply ER. }
  assert (FP : fraction_part (f ++ e ++ r) = (f, e ++ r)).
  { destruct F as [-> |(d & -> & DD)].
    - cbn [app]. destruct (e ++ r) as [|c u] eqn:Q; [reflexivity|]. cbn. destruct ED as [_ ED]. specialize (ED c u eq_refl). now replace (c =? 46) with false by lia.
    - destruct (decimal_span d (e ++ r) DD (proj1 ED)) as (c & u & -> & SP). cbn [codes app fraction_part]. change (Z.of_N (N_of_ascii ".") =? 46) with true. cbv iota.
      cbn [app] in SP. now rewrite SP. }
  assert (FD : no_digit (f ++ e ++ r)) by (destruct F as [-> |(d & -> & _)]; [apply ED|reflexivity]).
  assert (IP : integer_part (i ++ f ++ e ++ r) = Some (i, f ++ e ++ r)).
  { apply integer_ok; [apply DI| |exact FD]. destruct HI as [-> |HI]; [now left|right]. destruct (decimal_cons i DI) as (c & u & -> & _). exists c, u. split; [auto|]. intros ->. now apply (HI u). }
  unfold scan_number. rewrite <- !app_assoc.
  assert (SG : match sign ++ i ++ f ++ e ++ r with c :: t => if c =? 45 then ([45], t) else ([], sign ++ i ++ f ++ e ++ r) | [] => ([], []) end = (sign, i ++ f ++ e ++ r)).
  { destruct S as [-> | ->]; [|reflexivity]. cbn [app]. apply not_minus; apply DI. }
  rewrite SG, IP, FP, EP, R. destruct f, e; try reflexivity. destruct FE; contradiction.
Qed.
End Numbers.
