(** Proofs about the Rudin-Shapiro noise, maximum length sequences and energy decay curves. *)

From Coq Require Import String ZArith QArith List Bool Lia ZifyBool.
From Verif.Model Require Import Py Numpy Functions Signal Spectrum Vector Generators.
From Verif.Spec Require Import TimeSpec FrequencySpec SliceSpec ConcatSpec GeneratorsSpec.
From Verif.Proofs Require Import PyFacts NumpyFacts SignalAlgebra VectorFacts SliceFacts SignalHelpers.
Import ListNotations.
Open Scope list_scope.
Open Scope Z_scope.

(** ** The Rudin-Shapiro sequence *)

Lemma odd_pairs_even n : 0 <= n -> odd_pairs (2 * n) = odd_pairs n.
Proof. destruct n; reflexivity || lia. Qed.

Lemma odd_pairs_odd n : 0 <= n -> odd_pairs (2 * n + 1) = xorb (odd_pairs n) (Z.odd n).
Proof. intros N. destruct n as [|p|p]; [reflexivity| |lia]. destruct p; reflexivity. Qed.

Lemma odd_pairs_high k : 0 <= k -> forall n, 0 <= n < 2 * 2 ^ k ->
  odd_pairs (2 * 2 ^ k + n) = xorb (odd_pairs n) (2 ^ k <=? n).
Proof.
  intros K. pattern k. apply natlike_ind; auto.
  - intros n N. change (2 ^ 0) with 1 in *. assert (n = 0 \/ n = 1) as [->| ->] by lia; reflexivity.
  - intros j J IH n N. rewrite Z.pow_succ_r in * by lia. set (e := 2 ^ j) in *.
    assert (E : 0 < e) by (apply Z.pow_pos_nonneg; lia).
    pose proof (Z.div_mod n 2 ltac:(lia)) as D. pose proof (Z.mod_pos_bound n 2 ltac:(lia)) as B.
    set (m := n / 2) in *. set (r := n mod 2) in *. clearbody m r. specialize (IH m ltac:(lia)).
    assert (T : (2 * e <=? n) = (e <=? m)) by lia. rewrite T. assert (r = 0 \/ r = 1) as [-> | ->] by lia.
    + replace (2 * (2 * e) + n) with (2 * (2 * e + m)) by lia. replace n with (2 * m) by lia. rewrite !odd_pairs_even by lia. exact IH.
    + replace (2 * (2 * e) + n) with (2 * (2 * e + m) + 1) by lia. replace n with (2 * m + 1) by lia.
      rewrite !odd_pairs_odd by lia. rewrite IH.
      assert (O : Z.odd (2 * e + m) = Z.odd m) by (rewrite Z.add_comm; apply Z.odd_add_mul_2). rewrite O.
      destruct (odd_pairs m), (e <=? m), (Z.odd m); reflexivity.
Qed.

Section RS.
Context {A : Type}.
Variable O : ops A.
Hypothesis Neg : o_neg O (o_neg O (o_one O)) = o_one O.

Notation sign := (rudin_shapiro_value O).

Lemma neg_sign n b : (if b : bool then o_neg O (sign n) else sign n) = (if xorb (odd_pairs n) b then o_neg O (o_one O) else o_one O).
Proof. unfold rudin_shapiro_value. destruct (odd_pairs n), b; cbn; auto. Qed.

Lemma value_recursion : sign 0 = o_one O /\ forall n, 0 <= n -> sign (2 * n) = sign n /\
  sign (2 * n + 1) = if Z.odd n then o_neg O (sign n) else sign n.
Proof.
  split; [reflexivity|]. intros n N. rewrite (neg_sign n (Z.odd n)). unfold rudin_shapiro_value.
  rewrite odd_pairs_even, odd_pairs_odd by auto. auto.
Qed.

(** The state of the loop: [m] samples of the sequence are written. *)
Definition written (off m : Z) (c : list A) : Prop :=
  (forall t, 0 <= t < off -> zth c t = Some (o_zero O)) /\ (forall t, 0 <= t < m -> zth c (off + t) = Some (sign t)).

Lemma rs_loop off n len : 0 <= off -> off + n <= len -> forall fuel k c, 0 <= k ->
  (Z.to_nat (n - 2 * 2 ^ k) <= fuel)%nat -> zlen c = len -> written off (Z.min (2 * 2 ^ k) n) c ->
  exists c', rudin_shapiro_loop O fuel off n (2 * 2 ^ k) c = Ok c' /\ zlen c' = len /\ written off n c'.
Proof.
  intros Off Hn. induction fuel as [|fuel IH]; intros k c K F L [W1 W2]; cbn [rudin_shapiro_loop];
    assert (E : 0 < 2 ^ k) by (apply Z.pow_pos_nonneg; lia).
  - replace (_ <? _) with false by lia. exists c. split; [reflexivity|]. split; auto. split; auto. intros t T. apply W2. lia.
  - destruct (2 * 2 ^ k <? n) eqn:B; [|exists c; split; [reflexivity|]; split; auto; split; auto; intros t T; apply W2; lia].
    assert (D : 2 * 2 ^ k / 2 = 2 ^ k) by (rewrite Z.mul_comm; apply Z.div_mul; lia). rewrite D.
    pose proof (odd_pairs_high k K) as OP. pose proof (IH (k + 1)) as IH'. clear IH.
    rewrite Z.add_1_r, Z.pow_succ_r in IH' by lia. set (e := 2 ^ k) in *. clearbody e.
    replace (Z.min (2 * e) n) with (2 * e) in W2 by lia.
    v_step c1 L1 H1.
    assert (R : exists c2, (if 2 * e + e <? n then
         vset c1 (between (off + 2 * e + e) (off + 2 * e + Z.min (2 * e) (n - 2 * e)))
           (map (o_neg O) (subseq (between (off + e) (off + Z.min (2 * e) (n - 2 * e))) c1)) else Ok c1) = Ok c2 /\ zlen c2 = len /\
         written off (Z.min (2 * (2 * e)) n) c2).
    { destruct (2 * e + e <? n) eqn:B2.
      - v_step c2 L2 H2. exists c2. split; [reflexivity|]. split; [lia|]. split.
        + intros t T. rewrite H2, H1. replace (_ && _) with false by lia. replace (_ && _) with false by lia. auto.
        + intros t T. rewrite H2, zth_map, zth_between, !H1, !zth_between by lia.
          destruct (Z_lt_ge_dec t (2 * e)); [|destruct (Z_lt_ge_dec t (2 * e + e))].
          * replace (_ && _) with false by lia. replace (_ && _) with false by lia. apply W2. lia.
          * replace (_ && _) with false by lia. replace (_ && _) with true by lia. replace (_ && _) with true by lia.
            replace (off + t - (off + 2 * e) + off) with (off + (t - 2 * e)) by lia. rewrite W2 by lia.
            f_equal. unfold rudin_shapiro_value.
            replace (odd_pairs t) with (odd_pairs (2 * e + (t - 2 * e))) by (f_equal; lia). rewrite OP by lia.
            replace (e <=? t - 2 * e) with false by lia. now rewrite xorb_false_r.
          * replace (_ && _) with true by lia. replace (_ && _) with true by lia. replace (_ && _) with false by lia.
            replace (off + t - (off + 2 * e + e) + (off + e)) with (off + (t - 2 * e)) by lia. rewrite W2 by lia. cbn [option_map].
            f_equal. rewrite (neg_sign _ true).
            replace (odd_pairs t) with (odd_pairs (2 * e + (t - 2 * e))) by (f_equal; lia). unfold rudin_shapiro_value at 1.
            replace (odd_pairs t) with (odd_pairs (2 * e + (t - 2 * e))) by (f_equal; lia). rewrite OP by lia.
            replace (e <=? t - 2 * e) with true by lia. reflexivity.
      - exists c1. split; [reflexivity|]. split; [lia|]. split.
        + intros t T. rewrite H1. replace (_ && _) with false by lia. auto.
        + intros t T. rewrite H1, zth_between by lia. destruct (Z_lt_ge_dec t (2 * e)).
          * replace (_ && _) with false by lia. apply W2. lia.
          * replace (_ && _) with true by lia. replace (_ && _) with true by lia.
            replace (off + t - (off + 2 * e) + off) with (off + (t - 2 * e)) by lia. rewrite W2 by lia.
            f_equal. unfold rudin_shapiro_value.
            replace (odd_pairs t) with (odd_pairs (2 * e + (t - 2 * e))) by (f_equal; lia). rewrite OP by lia.
            replace (e <=? t - 2 * e) with false by lia. now rewrite xorb_false_r. }
    destruct R as (c2 & -> & L2 & W'). cbn [bind]. replace (2 * e * 2) with (2 * (2 * e)) by lia. apply IH'; auto; lia.
Qed.

Lemma rudin_shapiro_ok junk start stop res length : 0 <= length -> 0 <= py_round (start / res) ->
  (forall q, stop = Some q -> 0 <= py_round (q / res)) ->
  let lo := py_round (start / res) in
  let hi := match stop with None => length | Some q => py_round (q / res) end in
  exists s n, rudin_shapiro O junk start stop res length = Ok (s, n) /\ wf_spectrum s /\ sp_count s = 1 /\ sp_length s = length /\
    resolution s = res /\ n = Z.min hi length - Z.min lo length /\
    forall k, 0 <= k < length -> bin s 0 k = Some (if (lo <=? k) && (k <? hi) then sign (k - lo) else o_zero O).
Proof.
  intros N H1 H2 lo hi. unfold rudin_shapiro. fold lo.
  assert (Hh : 0 <= hi) by (unfold hi; destruct stop as [q|]; auto).
  set (off := Z.min lo length). 
  assert (Sq : match stop with Some stop_frequency => Z.min (py_round (stop_frequency / res)) length - off | None => length - off end = Z.min hi length - off).
  { unfold hi. destruct stop; auto. lia. }
  rewrite Sq. set (n := Z.min hi length - off). destruct (vector_ok junk length N) as (v & -> & L). cbn [bind].
  assert (Off : 0 <= off <= length) by lia. v_fill v0 L0 H0.
  assert (Q : exists c, (if (off <? length) && (0 <? n) then
       channel <- vput v0 off (o_one O) ;;
       if (off + 1 <? length) && (1 <? n) then
         channel <- vput channel (off + 1) (o_one O) ;; rudin_shapiro_loop O (Z.to_nat n) off n 2 channel
       else Ok channel else Ok v0) = Ok c /\ zlen c = length /\ written off n c).
  { destruct ((off <? length) && (0 <? n)) eqn:B1.
    - destruct (vput_ok v0 off (o_one O)) as (v1 & -> & L1 & P1); [lia|]. cbn [bind].
      destruct ((off + 1 <? length) && (1 <? n)) eqn:B2.
      + destruct (vput_ok v1 (off + 1) (o_one O)) as (v2 & -> & L2 & P2); [lia|]. cbn [bind].
        apply (rs_loop off n length ltac:(lia) ltac:(lia) _ 0); [lia| |lia|].
        * change (2 * 2 ^ 0) with 2. lia.
        * change (2 * 2 ^ 0) with 2. split.
          -- intros t T. rewrite P2, P1, H0. replace (_ =? _) with false by lia. replace (_ =? _) with false by lia.
             replace (_ && _) with true by lia. reflexivity.
          -- intros t T. rewrite P2, P1. assert (t = 0 \/ t = 1) as [-> | ->] by lia.
             ++ replace (_ =? _) with false by lia. replace (_ =? _) with true by lia. reflexivity.
             ++ replace (_ =? _) with true by lia. reflexivity.
      + exists v1. split; [reflexivity|]. split; [lia|]. split.
        * intros t T. rewrite P1, H0. replace (_ =? _) with false by lia. replace (_ && _) with true by lia. reflexivity.
        * intros t T. assert (t = 0) as -> by lia. rewrite P1. replace (_ =? _) with true by lia. reflexivity.
    - exists v0. split; [reflexivity|]. split; [lia|]. split; [|lia].
      intros t T. rewrite H0. replace (_ && _) with true by lia. reflexivity. }
  destruct Q as (c & -> & Lc & W1 & W2). cbn [bind]. v_fill c' L' H'. do 2 eexists. split; [reflexivity|].
  repeat split; auto.
  - cbn. constructor; auto. lia.
  - intros k K. change (zth c' k = Some (if (lo <=? k) && (k <? hi) then sign (k - lo) else o_zero O)). rewrite H'.
    destruct (Z_lt_ge_dec k lo); [|destruct (Z_lt_ge_dec k hi)].
    + destruct (_ && _) eqn:B; [replace (_ && _) with false by lia; reflexivity|]. rewrite W1 by lia.
      replace (_ && _) with false by lia. reflexivity.
    + replace (_ && _) with false by lia. replace (_ && _) with true by lia. replace k with (off + (k - off)) at 1 by lia.
      rewrite W2 by lia. do 2 f_equal. lia.
    + replace (_ && _) with true by lia. replace (_ && _) with false by lia. reflexivity.
Qed.

End RS.

(** ** Maximum length sequences *)

Section MLS.
Context {A : Type}.
Variable O : ops A.
Hypothesis High : o_sub O (o_mul O (o_one O) (o_add O (o_one O) (o_one O))) (o_one O) = o_one O.
Hypothesis Low : o_sub O (o_mul O (o_zero O) (o_add O (o_one O) (o_one O))) (o_one O) = o_neg O (o_one O).

Variables (initial : Z -> list bool) (position : Z -> Z) (max_len_seq : Z -> list bool -> Z -> result (list bool)).
Hypothesis Initial : forall b, 0 <= b -> zlen (initial b) = b.
Hypothesis Position : forall n, 0 < n -> 0 <= position n < n.
Hypothesis Scipy : scipy_max_len_seq max_len_seq.

Lemma mls_bits_least length b : 0 <= length -> 0 <= b -> length <= 2 ^ b - 1 -> Z.log2_up (length + 1) <= b.
Proof. intros L B H. destruct (Z.eq_dec length 0) as [->|]; [cbn; lia|]. apply Z.log2_up_le_pow2; lia. Qed.

Lemma mls_bits_enough length : 0 <= length -> length <= 2 ^ Z.log2_up (length + 1) - 1.
Proof.
  intros L. destruct (Z.eq_dec length 0) as [->|]; [cbn; lia|]. pose proof (Z.log2_up_spec (length + 1)). lia.
Qed.

Lemma mls_run rate bits length b n : mls_parameters bits length b n -> 2 <= b <= 32 -> 0 <= n ->
  exists s, mls O rate initial position max_len_seq bits length = Ok (s, b) /\ wf_signal s /\ count s = 1 /\ begins s = 0 /\ ends s = n /\
    sampling_rate s = rate /\ labels s = ["MLS"%string] /\
    forall t, 0 <= t < n -> at_time s 0 t = Some (o_one O) \/ at_time s 0 t = Some (o_neg O (o_one O)).
Proof.
  intros P B N. unfold mls.
  assert (E : match length, bits with
    | None, None => (16, 2 ^ 16 - 1) | None, Some bits => (bits, 2 ^ bits - 1)
    | Some length, None => (Z.log2_up (length + 1), length) | Some length, Some bits => (bits, length) end = (b, n)).
  { unfold mls_parameters in P. destruct length as [l|], bits as [c|].
    - destruct P as [-> ->]. reflexivity.
    - destruct P as [-> [P1 [P2 P3]]]. f_equal. pose proof (mls_bits_least l b N P1 P2). 
      assert (H0 : 0 <= Z.log2_up (l + 1)) by apply Z.log2_up_nonneg. pose proof (P3 _ H0 (mls_bits_enough l N)). lia.
    - destruct P as [-> ->]. reflexivity.
    - destruct P as [-> ->]. reflexivity. }
  rewrite E. 
  assert (S : exists state, (if existsb (fun x => x) (initial b) then Ok (initial b)
      else if zlen (initial b) - 1 <=? 0 then Err ValueError else vput (initial b) (position (zlen (initial b) - 1)) true) = Ok state /\
      zlen state = b /\ existsb (fun x => x) state = true).
  { rewrite (Initial b) by lia. destruct (existsb (fun x => x) (initial b)) eqn:Ex.
    - exists (initial b). rewrite Initial by lia. auto.
    - replace (_ <=? _) with false by lia. pose proof (Position (b - 1) ltac:(lia)) as Po.
      destruct (vput_ok (initial b) (position (b - 1)) true) as (st & -> & Ls & Hs); [rewrite Initial; lia|].
      exists st. split; [reflexivity|]. split; [rewrite Ls, Initial; lia|]. apply existsb_exists. exists true. split; auto.
      apply (zth_In _ (position (b - 1))). rewrite Hs, Z.eqb_refl. reflexivity. }
  destruct S as (state & -> & Ls & Es). cbn [bind]. destruct (Scipy b state n) as [S1 _].
  destruct (S1 B Ls Es N) as (seq & -> & Lq). cbn [bind]. eexists. split; [reflexivity|]. repeat split; auto.
  - cbn. apply zlen_nonneg.
  - cbn. constructor; auto. now rewrite !zlen_map.
  - intros t T. unfold at_time, el. cbn. match goal with |- context [zth [?c] 0] => change (zth [c] 0) with (Some c) end. cbv beta iota. rewrite Z.sub_0_r, !zth_map.
    destruct (zth_in seq t) as [x ->]; [lia|]. cbn. destruct x; rewrite ?High, ?Low; auto.
Qed.

(** Too short. *)
Lemma mls_short rate n : 0 <= n < 2 -> mls O rate initial position max_len_seq None (Some n) = Err ValueError.
Proof.
  intros N. unfold mls. assert (n = 0 \/ n = 1) as [-> | ->] by lia.
  - change (Z.log2_up (0 + 1)) with 0. assert (L : initial 0 = []) by (apply zlen_zero; now apply Initial). rewrite L. reflexivity.
  - change (Z.log2_up (1 + 1)) with 1. rewrite (Initial 1) by lia. destruct (existsb _ _); [|reflexivity]. cbn [bind].
    destruct (Scipy 1 (initial 1) 1) as [_ S]. rewrite S by lia. reflexivity.
Qed.

End MLS.

(** ** Energy decay curves *)

Section Energy.
Context {A : Type}.
Variable O : ops A.
Hypothesis Add : exact_addition O.

Lemma cumsum_snoc t y : forall acc, cumsum O acc (t ++ [y]) = cumsum O acc t ++ [o_add O (fold_left (o_add O) t acc) y].
Proof. induction t as [|x t IH]; intros acc; cbn; [reflexivity|]. now rewrite IH. Qed.

Lemma fold_rev l : fold_left (o_add O) (rev (map (fun x => o_mul O x x) l)) (o_zero O) = energy O l.
Proof.
  destruct Add as (Z0 & C & _). induction l as [|x l IH]; [reflexivity|]. cbn [map rev energy].
  rewrite fold_left_app, IH. cbn. apply C.
Qed.

Lemma decay_cons x l : decay_row O (x :: l) = energy O (x :: l) :: decay_row O l.
Proof.
  destruct Add as (Z0 & C & _). unfold decay_row. cbn [map rev energy]. pose proof (fold_rev l) as F.
  destruct (rev (map (fun x => o_mul O x x) l)) as [|y t] eqn:E.
  - cbn in *. now rewrite <- F, C, Z0.
  - cbn [app]. rewrite cumsum_snoc. cbn [rev]. rewrite rev_app_distr. cbn [rev app fold_left] in *. rewrite Z0 in F.
    rewrite F. f_equal. apply C.
Qed.

Lemma zth_decay l : forall i, zth (decay_row O l) i = if (0 <=? i) && (i <? zlen l) then Some (energy O (zdrop i l)) else None.
Proof.
  induction l as [|x l IH]; intros i.
  - cbn. rewrite zth_nil. change (zlen (@nil A)) with 0. zcases.
  - rewrite decay_cons, zth_cons, zlen_cons. pose proof (zlen_nonneg l) as N. destruct (i =? 0) eqn:E.
    + assert (i = 0) as -> by lia. replace (_ && _) with true by lia. reflexivity.
    + rewrite IH. destruct (_ && _) eqn:B.
      * replace (_ && _) with true by lia. unfold zdrop. replace (Z.to_nat i) with (S (Z.to_nat (i - 1))) by lia. reflexivity.
      * replace (_ && _) with false by lia. reflexivity.
Qed.

Lemma zlen_decay l : zlen (decay_row O l) = zlen l.
Proof. induction l as [|x l IH]; [reflexivity|]. rewrite decay_cons, !zlen_cons. lia. Qed.

Lemma energy_decay_ok s : wf_signal s ->
  let r := energy_decay O s in
  wf_signal r /\ count r = count s /\ begins r = begins s /\ ends r = ends s /\ sampling_rate r = sampling_rate s /\ labels r = labels s /\
  forall c t, at_time r c t = match zth (rows (channels s)) c with
    | Some l => if (begins s <=? t) && (t <? ends s) then Some (energy O (zdrop (t - begins s) l)) else None
    | None => None
    end.
Proof.
  intros [W Ls]. cbn zeta. unfold energy_decay. cbn. rewrite sanitize_same by (unfold nrows; cbn; rewrite zlen_map; exact Ls).
  destruct W as [C F]. split; [|repeat split; auto].
  - split; cbn.
    + split; auto. cbn. rewrite Forall_map. eapply Forall_impl; [|exact F]. cbn. intros l L. now rewrite zlen_decay.
    + unfold nrows. cbn. rewrite zlen_map. rewrite sanitize_same; exact Ls.
  - unfold count, nrows. cbn. now rewrite zlen_map.
  - intros c t. unfold at_time, el, begins, ends. cbn. rewrite zth_map. destruct (zth (rows (channels s)) c) as [l|] eqn:E; [|reflexivity].
    cbn. rewrite zth_decay. assert (L : zlen l = length s).
    { rewrite Forall_forall in F. apply F. eapply zth_In; eauto. }
    rewrite L. destruct (_ && _) eqn:B; destruct (_ && _) eqn:B' in |- *; auto; lia.
Qed.
End Energy.
