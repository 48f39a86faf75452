(** Facts about noise signals: how the numbers are drawn, and what the constructors make of them. *)

From Coq Require Import String ZArith List Bool Lia Reals Lra ZifyBool.
From Verif.Model Require Import Py Numpy Vector Functions Signal Generators Noise.
From Verif.Spec Require Import TimeSpec RealSpec NoiseSpec.
From Verif.Proofs Require Import PyFacts VectorFacts NumpyFacts SignalAlgebra.
Import ListNotations.
Open Scope Z_scope.

Lemma real_less_true x y : (x < y)%R -> real_less x y = true.
Proof. intros H. unfold real_less. destruct (Rlt_dec x y); [auto|lra]. Qed.
Lemma real_less_false x y : (y <= x)%R -> real_less x y = false.
Proof. intros H. unfold real_less. destruct (Rlt_dec x y); [lra|auto]. Qed.

Section Draw.
Context {S : Type}.
Implicit Types (f : S -> R * S) (s : S).

Lemma draw_length n f s : zlen (fst (draw n f s)) = Z.of_nat n.
Proof.
  revert s. induction n as [|n IH]; intros s; [reflexivity|]. cbn [draw]. destruct (f s) as [x s1]. specialize (IH s1).
  destruct (draw n f s1) as [l s2]. cbn [fst] in *. rewrite zlen_cons. lia.
Qed.

Lemma draw_state n f s : snd (draw n f s) = state_after f n s.
Proof.
  revert s. induction n as [|n IH]; intros s; [reflexivity|]. cbn [draw state_after]. destruct (f s) as [x s1]. specialize (IH s1).
  destruct (draw n f s1) as [l s2]. exact IH.
Qed.

Lemma draw_at n f s t : 0 <= t < Z.of_nat n -> zth (fst (draw n f s)) t = Some (nth_number f s t).
Proof.
  revert s t. induction n as [|n IH]; intros s t T; [lia|]. cbn [draw]. unfold nth_number. destruct (f s) as [x s1] eqn:F.
  specialize (IH s1). destruct (draw n f s1) as [l s2]. cbn [fst] in *. rewrite zth_cons. destruct (Z.eqb_spec t 0) as [->|N].
  - change (Z.to_nat 0) with 0%nat. cbn [state_after]. now rewrite F.
  - rewrite IH by lia. unfold nth_number. replace (Z.to_nat t) with (Datatypes.S (Z.to_nat (t - 1))) by lia. cbn [state_after].
    now rewrite F.
Qed.

Lemma state_after_add f n m s : state_after f (n + m) s = state_after f m (state_after f n s).
Proof. revert s. induction n as [|n IH]; intros s; [reflexivity|]. cbn [Nat.add state_after]. apply IH. Qed.

Lemma state_transformed g f n s : state_after (transformed g f) n s = state_after f n s.
Proof. revert s. induction n as [|n IH]; intros s; [reflexivity|]. cbn [state_after]. unfold transformed at 2. destruct (f s) as [x s1]. apply IH. Qed.

Lemma number_transformed g f s t : nth_number (transformed g f) s t = g (nth_number f s t).
Proof. unfold nth_number. rewrite state_transformed. unfold transformed. now destruct (f _). Qed.
End Draw.

Section Noise.
Variables (power modulo : R -> R -> R).
Context {S : Type}.
Variable G : rng R S.
Variable junk : Z -> R.
Let O := real_ops power modulo.
Local Notation noise_function := (noise_function O G IZR real_less sqrt ln exp).
Local Notation make := (real_noise power modulo G junk).

(** The numbers that are drawn, and the function of them *)
Definition source (c : noise R) : S -> R * S :=
  match c with
  | GaussianNoise _ _ => r_normal G
  | LaplaceNoise _ _ | LogisticNoise _ _ => r_positive G
  | GammaNoise shape _ => r_gamma G shape
  | ChiSquareNoise degrees => r_gamma G (degrees / 2)
  | LomaxNoise _ => r_exponential G
  | _ => r_random G
  end%R.

Definition sample (c : noise R) (u : R) : R :=
  match c with
  | UniformNoise lower upper => lower + (upper - lower) * u
  | GaussianNoise mean scale => mean + scale * u
  | LaplaceNoise mean decay => if real_less u (1 / 2) then mean + decay * ln (u + u) else mean - decay * ln (2 - u - u)
  | LogisticNoise mean scale => mean + scale * ln (u / (1 - u))
  | TriangularNoise lower upper mode =>
      let m := peak lower upper mode in
      if real_less ((m - lower) / (upper - lower)) u then upper - sqrt ((1 - u) * ((upper - m) * (upper - lower)))
      else lower + sqrt (u * ((m - lower) * (upper - lower)))
  | GammaNoise _ scale => scale * u
  | ChiSquareNoise _ => 2 * u
  | LomaxNoise shape => exp (u / shape) - 1
  | _ => u
  end%R.

(** The parameters need not be proper: standard deviations of zero are accepted, too. *)
Definition accepted (c : noise R) : Prop :=
  match c with
  | UniformNoise lower upper => lower <= upper
  | GaussianNoise _ scale | LaplaceNoise _ scale | LogisticNoise _ scale => 0 <= scale
  | TriangularNoise lower upper mode => lower < upper /\ lower <= peak lower upper mode <= upper
  | GammaNoise shape scale => 0 <= shape /\ 0 <= scale
  | LomaxNoise shape | ChiSquareNoise shape => 0 < shape
  | _ => False
  end%R.

Lemma proper_accepted c : proper c -> accepted c.
Proof. destruct c; cbn; lra. Qed.

Lemma draws_ok n (f : S -> R * S) s : 0 <= n -> draws n f s = Ok (draw (Z.to_nat n) f s).
Proof. intros H. unfold draws. now replace (n <? 0) with false by lia. Qed.

Lemma function_ok c n s : accepted c -> 0 <= n -> noise_function c n s = Ok (draw (Z.to_nat n) (transformed (sample c) (source c)) s).
Proof.
  intros A N. destruct c; cbn [accepted] in A; try contradiction;
    unfold Noise.noise_function, uniform, normal, laplace, logistic, gamma, chisquare, pareto, not_negative, positive; cbn [o_zero o_add o_sub o_mul o_div O real_ops];
    rewrite ?(real_less_false _ 0) by lra; rewrite ?(real_less_true 0) by lra; try (rewrite draws_ok by auto; reflexivity).
  unfold triangular. cbn [o_zero o_add o_sub o_mul o_div o_eqb O real_ops]. fold (peak lower_boundary upper_boundary mode).
  change (match mode with Some m => m | None => ((lower_boundary + upper_boundary) / 2)%R end) with (peak lower_boundary upper_boundary mode).
  assert (E : match mode with None => ((lower_boundary + upper_boundary) / 2)%R | Some m => m end = peak lower_boundary upper_boundary mode) by now destruct mode.
  rewrite ?E, !real_less_false by lra. destruct (Req_EM_T lower_boundary upper_boundary); [lra|]. cbn [orb]. now rewrite draws_ok.
Qed.

Lemma starts_ok sd w s : starts G sd w s -> exists w1, default_rng G sd w = Ok (s, w1) /\ w_generators w1 = w_generators w /\
  w_entropy w1 = w_entropy w + match sd with NoSeed => 1 | _ => 0 end.
Proof.
  destruct sd as [|n|i]; cbn [starts default_rng].
  - intros ->. eexists. split; [reflexivity|]. now split.
  - intros [N ->]. replace (n <? 0) with false by lia. eexists. split; [reflexivity|]. split; [auto|lia].
  - intros [I H]. unfold getitem. replace (i <? 0) with false by lia. rewrite H. cbn [bind]. eexists. split; [reflexivity|]. split; [auto|lia].
Qed.

Lemma store_ok sd w s s' w1 : starts G sd w s -> default_rng G sd w = Ok (s, w1) -> world_after sd w s' (store sd s' w1).
Proof.
  intros St D. destruct (starts_ok _ _ _ St) as (w2 & D2 & GE & EN). assert (w2 = w1) by congruence. subst w2.
  destruct sd as [|n|j]; cbn [store]; [repeat split; intros; auto; now rewrite GE..|].
  cbn [starts] in St. destruct St as [J H]. pose proof (zth_range _ _ _ H) as L. rewrite <- GE in L.
  destruct (vput_ok (w_generators w1) j s' L) as (g & -> & LG & AT). split; [cbn [w_entropy]; lia|]. cbn [w_generators]. split; [rewrite LG; congruence|].
  intros i I. rewrite AT. now rewrite GE.
Qed.

Lemma label_ok c : noise_label c = documented_label c.
Proof. now destruct c. Qed.

Lemma one_channel_noise c rate (l : list R) n : zlen l = n -> is_noise (one_channel rate l n (noise_label c)) c rate n.
Proof.
  intros L. unfold one_channel. split; [apply mk_signal_wf|].
  - split; [cbn; pose proof (zlen_nonneg l); lia|]. now repeat constructor.
  - repeat split; auto. cbn. now rewrite label_ok.
Qed.

Lemma one_channel_at (rate : R) (l : list R) n name t : at_time (one_channel rate l n name) 0 t = zth l t.
Proof. unfold at_time, one_channel, el. cbn. now rewrite Z.sub_0_r. Qed.

(** The constructors, if the numbers can be drawn *)
Lemma make_ok c sd rate n w s l s' : 0 <= n -> starts G sd w s -> noise_function c n s = Ok (l, s') -> zlen l = n ->
  exists w', make c sd rate n w = (Ok (one_channel rate l n (noise_label c)), w') /\ world_after sd w s' w'.
Proof.
  intros N St F L. destruct (starts_ok _ _ _ St) as (w1 & D & _ & _). unfold make_noise. rewrite D.
  destruct (vector_ok junk n N) as (v & -> & LV). fold O. rewrite F. rewrite vset_everything by congruence. cbn [bind].
  eexists. split; [reflexivity|]. eapply store_ok; eauto.
Qed.

Lemma made c sd rate n w s : 0 <= n -> starts G sd w s -> accepted c ->
  exists x w', make c sd rate n w = (Ok x, w') /\ is_noise x c rate n /\ world_after sd w (state_after (source c) (Z.to_nat n) s) w' /\
    forall t, 0 <= t < n -> at_time x 0 t = Some (sample c (nth_number (source c) s t)).
Proof.
  intros N St A. pose proof (function_ok c n s A N) as F. pose proof (draw_length (Z.to_nat n) (transformed (sample c) (source c)) s) as L.
  pose proof (draw_state (Z.to_nat n) (transformed (sample c) (source c)) s) as E. pose proof (draw_at (Z.to_nat n) (transformed (sample c) (source c)) s) as AT.
  rewrite state_transformed in E. destruct (draw _ _ s) as [l s']. cbn [fst snd] in *. subst s'. rewrite Z2Nat.id in L by auto.
  destruct (make_ok c sd rate n w s l _ N St F L) as (w' & M & W). exists (one_channel rate l n (noise_label c)), w'.
  split; [exact M|]. split; [now apply one_channel_noise|]. split; [exact W|].
  intros t T. rewrite one_channel_at, AT, number_transformed by lia. reflexivity.
Qed.

(** Whatever is made *)
Lemma function_length c n s l s' : sound G -> 0 <= n -> noise_function c n s = Ok (l, s') -> zlen l = n.
Proof.
  intros (_ & _ & _ & _ & M) N.
  assert (D : forall f : S -> R * S, draws n f s = Ok (l, s') -> zlen l = n).
  { intros f. rewrite draws_ok by auto. intros E. pose proof (draw_length (Z.to_nat n) f s) as L. apply (f_equal (fun r => match r with Ok x => zlen (fst x) | Err _ => 0 end)) in E.
    cbn [fst] in E. lia. }
  destruct c; unfold Noise.noise_function, uniform, normal, laplace, logistic, gamma, chisquare, pareto, triangular, not_negative, positive;
    repeat match goal with |- (if ?b then _ else _) = _ -> _ => destruct b; [try discriminate|try discriminate] end; eauto.
Qed.

Lemma made_any c sd rate n w x w' : sound G -> make c sd rate n w = (Ok x, w') -> 0 <= n /\ is_noise x c rate n.
Proof.
  intros SG. unfold make_noise. destruct (default_rng G sd w) as [[s w1]|e]; [|discriminate]. unfold vector. destruct (Z.ltb_spec n 0) as [|N]; [discriminate|].
  fold O. destruct (noise_function c n s) as [[l s']|e] eqn:F; [|discriminate]. pose proof (function_length c n s l s' SG N F) as L.
  rewrite vset_everything by (rewrite zlen_map, zlen_seq; lia). cbn [bind]. intros E. injection E as <- <-. split; [auto|]. now apply one_channel_noise.
Qed.

Lemma refused c sd rate n w : improper c -> exists w', make c sd rate n w = (Err ValueError, w') \/ (exists e, default_rng G sd w = Err e /\ make c sd rate n w = (Err e, w')).
Proof.
  intros I. unfold make_noise. destruct (default_rng G sd w) as [[s w1]|e] eqn:D; [|eauto]. exists w1. left. unfold vector. destruct (Z.ltb_spec n 0) as [|N]; [reflexivity|].
  fold O. enough (F : noise_function c n s = Err ValueError) by now rewrite F.
  destruct c; cbn [improper] in I; try contradiction;
    unfold Noise.noise_function, uniform, normal, laplace, logistic, gamma, chisquare, pareto, not_negative, positive; cbn [o_zero o_add o_sub o_mul o_div O real_ops];
    rewrite ?(real_less_true _ 0) by lra; rewrite ?(real_less_false 0) by lra; auto.
  - unfold triangular. cbn [o_zero o_add o_sub o_mul o_div o_eqb O real_ops].
    assert (E : match mode with None => ((lower_boundary + upper_boundary) / 2)%R | Some m => m end = peak lower_boundary upper_boundary mode) by now destruct mode.
    rewrite E. unfold real_less. destruct (Rlt_dec _ lower_boundary); [reflexivity|]. destruct (Rlt_dec upper_boundary _); [reflexivity|].
    destruct (Req_EM_T _ _); [reflexivity|]. lra.
  - unfold real_less. destruct (Rlt_dec shape 0); [reflexivity|]. destruct (Rlt_dec scale 0); [reflexivity|lra].
Qed.

(** Integers as seeds *)
Lemma reproducible c k rate n w1 w2 : exists r, make c (IntegerSeed k) rate n w1 = (r, w1) /\ make c (IntegerSeed k) rate n w2 = (r, w2).
Proof.
  unfold make_noise. cbn [default_rng store]. destruct (k <? 0); [eauto|]. destruct (vector junk n); [|eauto].
  fold O. destruct (noise_function c n (r_seeded G k)) as [[l1 s]|e]; eauto.
Qed.

Lemma history l w i q k : zth l i = Some q -> q_seed q = IntegerSeed k -> forall w0,
  zth (fst (real_noises power modulo G junk l w)) i = Some (fst (make (q_noise q) (IntegerSeed k) (q_rate q) (q_length q) w0)).
Proof.
  intros Q K w0. revert i w Q. induction l as [|p l IH]; intros i w; [rewrite zth_nil; discriminate|]. rewrite zth_cons. intros Q. cbn [make_all].
  destruct (make_noise _ _ _ _ _ _ _ junk (q_noise p) (q_seed p) (q_rate p) (q_length p) w) as [r w1] eqn:M. specialize (IH (i - 1) w1).
  destruct (make_all _ _ _ _ _ _ _ junk l w1) as [rs w2]. cbn [fst] in *. rewrite zth_cons. destruct (i =? 0).
  - injection Q as ->. rewrite K in M. destruct (reproducible (q_noise q) k (q_rate q) (q_length q) w w0) as (r' & E1 & E2).
    rewrite E2. cbn [fst]. congruence.
  - now apply IH.
Qed.
End Noise.
