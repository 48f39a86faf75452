(** Sweeps and waves. *)

From Coq Require Import String ZArith QArith List Bool Lia Lra ZifyBool Reals.
From Verif.Model Require Import Py Numpy Vector Functions Signal Sweeps.
From Verif.Spec Require Import TimeSpec RealSpec SweepSpec.
From Verif.Proofs Require Import PyFacts NumpyFacts VectorFacts MergeOrder.
Import ListNotations.
Open Scope Z_scope.

Lemma leb_true x y : (x <= y)%R -> R_leb x y = true.
Proof. intros. unfold R_leb. destruct (Rle_dec x y); [auto|lra]. Qed.
Lemma leb_false x y : (y < x)%R -> R_leb x y = false.
Proof. intros. unfold R_leb. destruct (Rle_dec x y); [lra|auto]. Qed.

Section Sweeps.
Variables power modulo : R -> R -> R.
Variable junk : Z -> R.
Variable numexpr : bool.
Notation O := (real_ops power modulo).
Notation M := real_functions.

Lemma divide_ok x y : y <> 0%R -> divide O x y = Ok (x / y)%R.
Proof. intros H. unfold divide. cbn. destruct (Req_EM_T y 0); [lra|auto]. Qed.

(** The elements of [linspace] are equidistant. *)
Lemma linspace_nth start stop d n k : (stop = start + IZR (n - 1) * d)%R -> 0 <= k < n ->
  zth (linspace_ O M start stop n) k = Some (start + IZR k * d)%R.
Proof.
  intros E K. unfold linspace_. rewrite zth_map_zseq. replace (_ && _) with true by lia. rewrite Z.add_0_l. f_equal. cbn.
  destruct ((1 <? n) && (k =? n - 1)) eqn:L.
  - assert (k = n - 1) by lia. subst k. exact E.
  - destruct (0 <? n - 1) eqn:P.
    + assert (IZR (n - 1) <> 0%R) by (apply IZR_neq; lia). rewrite E. field. auto.
    + assert (k = 0) by lia. subst k. lra.
Qed.
Lemma zlen_linspace start stop n : 0 <= n -> zlen (linspace_ O M start stop n) = n.
Proof. intros. unfold linspace_. rewrite zlen_map, zlen_seq. lia. Qed.

(** The times of the samples, relative to the beginning of the interval *)
Lemma general_ok i j rate length a b : (0 < rate)%R -> 0 <= length -> index i length = Ok a -> index j length = Ok b ->
  exists t, general_sweep_parameters O M i j rate length = Ok (a, b, t, IZR (b - a) / rate, IZR a / rate)%R /\
    zlen t = length /\ forall k, 0 <= k < length -> zth t k = Some (IZR k / rate - IZR a / rate)%R.
Proof.
  intros P L Ea Eb. unfold general_sweep_parameters. rewrite Ea, Eb. cbn [bind].
  rewrite !divide_ok by lra. cbn [bind]. eexists. split; [reflexivity|]. split; [apply zlen_linspace; auto|].
  intros k K. erewrite linspace_nth with (d := (/ rate)%R); [|cbn|lia].
  - f_equal. cbn. unfold Rdiv. lra.
  - unfold Rdiv. lra.
Qed.

Definition monotone (f : R -> R) : Prop := (forall x y, x <= y -> f x <= f y)%R \/ (forall x y, x <= y -> f y <= f x)%R.

Lemma make_sweep_ok channel rate first (g : R -> result R) f l : (0 < rate)%R -> (forall t, g t = Ok (f t)) -> monotone f ->
  exists r, make_sweep O M channel rate first g l = Ok r /\ sweep_frame r rate first (zlen channel) f /\
    Signal.channels (sw_signal r) = Arr [channel] (zlen channel) /\ offset (sw_signal r) = first /\ sw_rate r = l.
Proof.
  intros P G Mo. unfold make_sweep. rewrite !G. cbn [bind]. rewrite divide_ok by lra. cbn [bind]. rewrite G. cbn [bind].
  pose proof (zlen_nonneg channel) as L0.
  assert (D : (0 <= IZR (zlen channel) / rate)%R).
  { apply Rmult_le_pos; [apply IZR_le; lia|]. left. apply Rinv_0_lt_compat. auto. }
  set (e := (IZR (zlen channel) / rate)%R) in *.
  assert (W : wf (Arr [channel] (zlen channel))) by (split; [exact L0|repeat constructor]).
  change (f_int M (zlen channel)) with (IZR (zlen channel)). fold e. change (o_zero O) with 0%R. cbn [f_leb M real_functions].
  destruct (Rle_dec (f 0%R) (f e)) as [Le|Gt].
  - rewrite leb_true by auto. eexists. split; [reflexivity|]. split; [|cbn; auto].
    unfold sweep_frame. cbn [sw_signal sw_minimum sw_maximum sw_function mk_signal Signal.channels]. fold e. clearbody e.
    split; [split; auto|]. split; [reflexivity|]. split; [reflexivity|]. split; [reflexivity|]. split; [reflexivity|]. split; [auto|].
    split.
    { intros t T. destruct Mo as [Mo|Mo].
      - split; apply Mo; lra.
      - pose proof (Mo 0%R t (proj1 T)). pose proof (Mo t e (proj2 T)). pose proof (Mo 0%R e D). lra. }
    split; [exists 0%R; split; [lra|auto]|]. split; [exists e; split; [lra|auto]|]. split; [auto|]. intros; lra.
  - rewrite leb_false by lra. eexists. split; [reflexivity|]. split; [|cbn; auto].
    unfold sweep_frame. cbn [sw_signal sw_minimum sw_maximum sw_function mk_signal Signal.channels]. fold e. clearbody e.
    split; [split; auto|]. split; [reflexivity|]. split; [reflexivity|]. split; [reflexivity|]. split; [reflexivity|]. split; [auto|].
    split.
    { intros t T. destruct Mo as [Mo|Mo].
      - pose proof (Mo 0%R e D). lra.
      - split; apply Mo; lra. }
    split; [exists e; split; [lra|auto]|]. split; [exists 0%R; split; [lra|auto]|]. split; [intros; lra|auto].
Qed.

(** ** Linear sweeps *)

(** The angle in the code *)
Definition linear_angle (f0 f1 phase : R) (a b : Z) (rate t : R) : R :=
  let tau := (t - IZR a / rate)%R in
  let k := ((f1 - f0) / (IZR (b - a) / rate))%R in
  (tau * tau * (PI * k) + 2 * PI * f0 * tau + phase)%R.

Lemma linear_angle_ok f0 f1 phase a b rate : (0 < rate)%R -> a <> b ->
  angle_of (linear_frequency f0 f1 a b rate) (linear_angle f0 f1 phase a b rate) (IZR a / rate) phase.
Proof.
  intros P AB. assert (B : IZR (b - a) <> 0%R) by (apply IZR_neq; lia). split.
  - unfold linear_angle. rewrite Rminus_diag_eq by reflexivity. ring.
  - intros t. unfold linear_angle.
    set (c := (IZR a / rate)%R). set (q := (PI * ((f1 - f0) / (IZR (b - a) / rate)))%R).
    replace (2 * PI * linear_frequency f0 f1 a b rate t)%R
      with ((((1 - 0) * (t - c) + (t - c) * (1 - 0)) * q + ((t - c) * (t - c)) * 0) + (0 * (t - c) + (2 * PI * f0) * (1 - 0)) + 0)%R.
    2:{ unfold linear_frequency, q, c. field. lra. }
    pose proof (fun x => derivable_pt_lim_minus id (fct_cte c) x _ _ (derivable_pt_lim_id x) (derivable_pt_lim_const c x)) as Dt.
    apply (derivable_pt_lim_plus (fun t => (t - c) * (t - c) * q + 2 * PI * f0 * (t - c))%R (fct_cte phase)); [|apply derivable_pt_lim_const].
    apply (derivable_pt_lim_plus (fun t => (t - c) * (t - c) * q)%R (fun t => 2 * PI * f0 * (t - c))%R).
    + apply (derivable_pt_lim_mult (fun t => (t - c) * (t - c))%R (fct_cte q)); [|apply derivable_pt_lim_const].
      apply (derivable_pt_lim_mult (fun t => t - c)%R (fun t => t - c)%R); apply Dt.
    + apply (derivable_pt_lim_mult (fct_cte (2 * PI * f0)%R) (fun t => t - c)%R); [apply derivable_pt_lim_const|apply Dt].
Qed.

Lemma linear_monotone f0 f1 a b rate : (0 < rate)%R -> monotone (linear_frequency f0 f1 a b rate).
Proof.
  intros P. unfold monotone, linear_frequency, Rdiv. set (d := (/ IZR (b - a))%R).
  assert (H : forall x y, ((f1 - f0) * ((y * rate - IZR a) * d) - (f1 - f0) * ((x * rate - IZR a) * d) = ((f1 - f0) * d) * ((y - x) * rate))%R) by (intros; ring).
  destruct (Rle_dec 0 ((f1 - f0) * d)) as [S|S].
  - left. intros x y L. specialize (H x y). pose proof (Rmult_le_pos _ ((y - x) * rate) S) as Q.
    assert (0 <= (y - x) * rate)%R by (apply Rmult_le_pos; lra). lra.
  - right. intros x y L. specialize (H x y). pose proof (Rmult_le_pos (- ((f1 - f0) * d)) ((y - x) * rate)) as Q.
    assert (0 <= (y - x) * rate)%R by (apply Rmult_le_pos; lra). lra.
Qed.

Lemma linear_sweep_ok f0 f1 phase i j rate length a b :
  (0 < rate)%R -> 0 <= length -> index i length = Ok a -> index j length = Ok b -> a <> b ->
  exists r, linear_sweep O M junk numexpr f0 f1 phase i j rate length = Ok r /\
    is_sweep r rate length (linear_frequency f0 f1 a b rate) (linear_angle f0 f1 phase a b rate).
Proof.
  intros P L Ea Eb AB. assert (B : IZR (b - a) <> 0%R) by (apply IZR_neq; lia).
  assert (T : (IZR (b - a) / rate)%R <> 0%R) by (unfold Rdiv; apply Rmult_integral_contrapositive_currified; auto; apply Rinv_neq_0_compat; lra).
  unfold linear_sweep. destruct (vector_ok junk length L) as (v & -> & Lv). cbn [bind].
  unfold linear_sweep_parameters. destruct (general_ok i j rate length a b) as (t & -> & Lt & Ht); auto. cbn [bind].
  rewrite divide_ok by auto. cbn [bind].
  set (k := ((f1 - f0) / (IZR (b - a) / rate))%R).
  match goal with |- context [vset v everything ?w] => set (values := w) end.
  assert (Lw : zlen values = length) by (unfold values; destruct (_ || _); rewrite zlen_map; auto).
  assert (Hw : forall n, 0 <= n < length -> zth values n = Some (sin (linear_angle f0 f1 phase a b rate (IZR n / rate)))).
  { intros n N. unfold values. destruct (_ || _); rewrite zth_map, Ht by auto; cbn; do 2 f_equal; unfold linear_angle; fold k; ring. }
  rewrite vset_everything by lia. cbn [bind].
  destruct (make_sweep_ok values rate 0 (fun tau => Ok (o_add O f0 (o_mul O (o_div O (o_sub O f1 f0) (IZR (b - a) / rate)%R) (o_sub O tau (IZR a / rate)%R))))
     (linear_frequency f0 f1 a b rate) None) as (r & Er & F & C & Off & _); auto.
  { intros tau. cbn. f_equal. unfold linear_frequency. field. lra. }
  { apply linear_monotone; auto. }
  exists r. rewrite Lw in F. split; [exact Er|]. split; [exact F|]. intros n N. unfold at_time. rewrite C, Off, Z.sub_0_r. cbn [el rows].
  apply Hw. auto.
Qed.

Lemma inverse_linear_sweep_ok f0 f1 phase i j rate length a b :
  (0 < rate)%R -> 0 <= length -> index i length = Ok a -> index j length = Ok b -> a <> b ->
  exists r, inverse_linear_sweep O M junk numexpr f0 f1 phase i j rate length = Ok r /\
    is_inverse_sweep r rate a b length (linear_frequency f0 f1 a b rate) (linear_angle f0 f1 phase a b rate) (fun _ => 2 / IZR (b - a))%R.
Proof.
  intros P L Ea Eb AB. assert (B : IZR (b - a) <> 0%R) by (apply IZR_neq; lia).
  assert (T : (IZR (b - a) / rate)%R <> 0%R) by (unfold Rdiv; apply Rmult_integral_contrapositive_currified; auto; apply Rinv_neq_0_compat; lra).
  unfold inverse_linear_sweep. destruct (vector_ok junk length L) as (v & -> & Lv). cbn [bind].
  unfold linear_sweep_parameters. destruct (general_ok i j rate length a b) as (t & -> & Lt & Ht); auto. cbn [bind].
  rewrite divide_ok by auto. cbn [bind]. change (f_int M (b - a)) with (IZR (b - a)). rewrite divide_ok by auto. cbn [bind].
  set (k := ((f1 - f0) / (IZR (b - a) / rate))%R).
  match goal with |- context [vset v everything ?w] => set (values := w) end.
  assert (Lw : zlen values = length) by (unfold values; destruct (_ || _); rewrite !zlen_map; auto).
  assert (Hw : forall n, 0 <= n < length ->
    zth values n = Some (2 / IZR (b - a) * sin (linear_angle f0 f1 phase a b rate (IZR (a + b - n) / rate)))%R).
  { intros n N. assert (E : forall x, (x = linear_angle f0 f1 phase a b rate (IZR (a + b - n) / rate) -> sin x * (2 / IZR (b - a)) = 2 / IZR (b - a) * sin (linear_angle f0 f1 phase a b rate (IZR (a + b - n) / rate)))%R) by (intros x ->; ring).
    assert (E' : (IZR (a + b - n) / rate - IZR a / rate = (IZR n / rate - IZR a / rate) * IZR (-1) + IZR (b - a) / rate)%R).
    { rewrite !minus_IZR, plus_IZR. field. lra. }
    unfold values. destruct (_ || _); rewrite !zth_map, Ht by auto; cbn; f_equal.
    - apply E. unfold linear_angle. fold k. rewrite E'. ring.
    - rewrite Rmult_comm. apply E. unfold linear_angle. fold k. rewrite E'. ring. }
  rewrite vset_everything by lia. cbn [bind].
  destruct (make_sweep_ok values rate (- b - a) (fun tau => Ok (o_sub O f1 (o_mul O (o_div O (o_sub O f1 f0) (IZR (b - a) / rate)%R) (o_sub O tau (IZR a / rate)%R))))
     (fun tau => linear_frequency f0 f1 a b rate (IZR (a + b) / rate - tau)%R) None) as (r & Er & F & C & Off & _); auto.
  { intros tau. cbn. f_equal. unfold linear_frequency. rewrite minus_IZR in *. rewrite plus_IZR. field. lra. }
  { destruct (linear_monotone f0 f1 a b rate P) as [H|H]; [right|left]; intros x y XY; apply H; lra. }
  exists r. rewrite Lw in F. split; [exact Er|]. split; [replace (- (a + b)) with (- b - a) by lia; exact F|].
  intros n N. unfold at_time. rewrite C, Off. replace (- n - (- b - a)) with (a + b - n) by lia. cbn [el rows].
  change (zth values (a + b - n) = Some (2 / IZR (b - a) * sin (linear_angle f0 f1 phase a b rate (IZR n / rate)))%R).
  rewrite Hw by lia. do 6 f_equal. lia.
Qed.

(** ** Exponential sweeps *)

Definition sweep_rate (f0 f1 : R) (a b : Z) (rate : R) : R := (IZR (b - a) / rate / ln (f1 / f0))%R.
Definition exponential_angle (f0 f1 phase : R) (a b : Z) (rate t : R) : R :=
  let l := sweep_rate f0 f1 a b rate in
  ((exp ((t - IZR a / rate) / l) - 1) * (2 * PI * f0 * l) + phase)%R.

Section Exponential.
Variables (f0 f1 rate : R) (a b : Z).
Hypothesis P : (0 < rate)%R.
Hypothesis F0 : (0 < f0)%R.
Hypothesis F1 : (0 < f1)%R.
Hypothesis F01 : f0 <> f1.
Hypothesis AB : a <> b.
Notation l := (sweep_rate f0 f1 a b rate).

Lemma ratio_positive : (0 < f1 / f0)%R.
Proof. apply Rmult_lt_0_compat; auto. apply Rinv_0_lt_compat; auto. Qed.
Lemma log_not_zero : ln (f1 / f0) <> 0%R.
Proof.
  intros E. rewrite <- ln_1 in E. apply ln_inv in E; [|apply ratio_positive|lra].
  apply F01. apply (f_equal (fun x => x * f0)%R) in E. unfold Rdiv in E. rewrite Rmult_assoc, Rinv_l in E; lra.
Qed.
Lemma distance_not_zero : IZR (b - a) <> 0%R.
Proof. apply IZR_neq. lia. Qed.
Lemma rate_not_zero : l <> 0%R.
Proof.
  unfold sweep_rate, Rdiv. pose proof log_not_zero. pose proof distance_not_zero.
  repeat apply Rmult_integral_contrapositive_currified; auto; apply Rinv_neq_0_compat; auto. lra.
Qed.
Lemma exponential_frequency_exp t : exponential_frequency f0 f1 a b rate t = (f0 * exp ((t - IZR a / rate) / l))%R.
Proof.
  unfold exponential_frequency, Rpower, sweep_rate. do 2 f_equal. pose proof log_not_zero. pose proof distance_not_zero.
  field. split; [lra|auto].
Qed.

Lemma exponential_angle_ok phase :
  angle_of (exponential_frequency f0 f1 a b rate) (exponential_angle f0 f1 phase a b rate) (IZR a / rate) phase.
Proof.
  pose proof rate_not_zero as L. split.
  - unfold exponential_angle. replace (IZR a / rate - IZR a / rate)%R with 0%R by ring. unfold Rdiv at 1. rewrite Rmult_0_l, exp_0. ring.
  - intros t. rewrite exponential_frequency_exp. unfold exponential_angle.
    set (c := (IZR a / rate)%R). set (q := l) in *.
    pose proof (fun x => derivable_pt_lim_minus id (fct_cte c) x _ _ (derivable_pt_lim_id x) (derivable_pt_lim_const c x)) as Dt.
    assert (Dx : forall x, derivable_pt_lim (fun t => (t - c) / q)%R x (/ q)%R).
    { intros x. replace (/ q)%R with ((1 - 0) * / q + (x - c) * 0)%R by ring.
      apply (derivable_pt_lim_mult (fun t => t - c)%R (fct_cte (/ q)%R)); [apply Dt|apply derivable_pt_lim_const]. }
    replace (2 * PI * (f0 * exp ((t - c) / q)))%R
      with (((exp ((t - c) / q) * / q - 0) * (2 * PI * f0 * q) + (exp ((t - c) / q) - 1) * 0) + 0)%R by (field; auto).
    apply (derivable_pt_lim_plus (fun t => (exp ((t - c) / q) - 1) * (2 * PI * f0 * q))%R (fct_cte phase)); [|apply derivable_pt_lim_const].
    apply (derivable_pt_lim_mult (fun t => exp ((t - c) / q) - 1)%R (fct_cte (2 * PI * f0 * q)%R)); [|apply derivable_pt_lim_const].
    apply (derivable_pt_lim_minus (fun t => exp ((t - c) / q))%R (fct_cte 1%R)); [|apply derivable_pt_lim_const].
    apply (derivable_pt_lim_comp (fun t => (t - c) / q)%R exp); [apply Dx|apply derivable_pt_lim_exp].
Qed.

Lemma exponential_monotone : monotone (exponential_frequency f0 f1 a b rate).
Proof.
  pose proof rate_not_zero as L.
  assert (E : forall x y, (x <= y -> f0 * exp x <= f0 * exp y)%R).
  { intros x y [H | ->]; [|lra]. apply Rmult_le_compat_l; [lra|]. left. now apply exp_increasing. }
  destruct (Rle_dec 0 l) as [S|S].
  - assert (0 < / l)%R by (apply Rinv_0_lt_compat; lra).
    left. intros x y H'. rewrite !exponential_frequency_exp. apply E. apply Rmult_le_compat_r; lra.
  - assert (/ l < 0)%R by (apply Rinv_lt_0_compat; lra).
    right. intros x y H'. rewrite !exponential_frequency_exp. apply E. unfold Rdiv.
    pose proof (Rmult_le_compat_neg_l (/ l) (x - IZR a * / rate) (y - IZR a * / rate)). lra.
Qed.

Lemma exponential_parameters i j length : 0 <= length -> index i length = Ok a -> index j length = Ok b ->
  exists t, exponential_sweep_parameters O M f0 f1 i j rate length = Ok (a, b, t, IZR (b - a) / rate, IZR a / rate, l, 2 * PI * f0 * l)%R /\
    zlen t = length /\ forall k, 0 <= k < length -> zth t k = Some (IZR k / rate - IZR a / rate)%R.
Proof.
  intros L Ea Eb. unfold exponential_sweep_parameters. destruct (general_ok i j rate length a b) as (t & -> & Lt & Ht); auto. cbn [bind].
  rewrite divide_ok by lra. cbn [bind]. unfold logarithm. cbn [f_leb M real_functions]. change (o_zero O) with 0%R.
  rewrite leb_false by apply ratio_positive. cbn [bind]. change (f_log M (f1 / f0)%R) with (ln (f1 / f0)%R). rewrite divide_ok by apply log_not_zero. cbn [bind].
  exists t. split; [reflexivity|]. auto.
Qed.

Lemma exponential_sweep_ok phase i j length : 0 <= length -> index i length = Ok a -> index j length = Ok b ->
  exists r, exponential_sweep O M junk numexpr f0 f1 phase i j rate length = Ok r /\
    is_sweep r rate length (exponential_frequency f0 f1 a b rate) (exponential_angle f0 f1 phase a b rate) /\ sw_rate r = Some l.
Proof.
  intros L Ea Eb. unfold exponential_sweep. destruct (vector_ok junk length L) as (v & -> & Lv). cbn [bind].
  destruct (exponential_parameters i j length L Ea Eb) as (t & -> & Lt & Ht). cbn [bind].
  match goal with |- context [vset v everything ?w] => set (values := w) end.
  assert (Lw : zlen values = length) by (unfold values; destruct (_ || _); rewrite zlen_map; auto).
  assert (Hw : forall n, 0 <= n < length -> zth values n = Some (sin (exponential_angle f0 f1 phase a b rate (IZR n / rate)))).
  { intros n N. unfold values. destruct (_ || _); rewrite zth_map, Ht by auto; cbn; do 2 f_equal; unfold exponential_angle; ring. }
  rewrite vset_everything by lia. cbn [bind].
  edestruct (make_sweep_ok values rate 0 (fun tau => x <- divide O (o_sub O tau (IZR a / rate)%R) l ;; Ok (o_mul O f0 (f_exp M x)))
     (exponential_frequency f0 f1 a b rate) (Some l)) as (r & Er & F & C & Off & Lr); auto.
  { intros tau. rewrite divide_ok by apply rate_not_zero. cbn. f_equal. rewrite exponential_frequency_exp. reflexivity. }
  { apply exponential_monotone. }
  exists r. rewrite Lw in F. split; [exact Er|]. split; [|exact Lr]. split; [exact F|]. intros n N. unfold at_time. rewrite C, Off, Z.sub_0_r. cbn [el rows].
  apply Hw. auto.
Qed.

Lemma inverse_exponential_sweep_ok phase i j length : 0 <= length -> index i length = Ok a -> index j length = Ok b ->
  exists r, inverse_exponential_sweep O M junk numexpr f0 f1 phase i j rate length = Ok r /\
    is_inverse_sweep r rate a b length (exponential_frequency f0 f1 a b rate) (exponential_angle f0 f1 phase a b rate)
      (fun t => 2 / IZR (b - a) * (ln (f1 / f0) / (f1 - f0) * exponential_frequency f0 f1 a b rate t))%R /\ sw_rate r = Some l.
Proof.
  intros L Ea Eb. unfold inverse_exponential_sweep. destruct (vector_ok junk length L) as (v & -> & Lv). cbn [bind].
  destruct (exponential_parameters i j length L Ea Eb) as (t & -> & Lt & Ht). cbn [bind].
  pose proof rate_not_zero as L0. pose proof log_not_zero as G0. pose proof distance_not_zero as D0.
  rewrite divide_ok by auto. cbn [bind]. rewrite divide_ok by (cbn; lra). cbn [bind]. rewrite divide_ok by lra. cbn [bind].
  match goal with |- context [vset v everything ?w] => set (values := w) end.
  assert (Lw : zlen values = length) by (unfold values; destruct (_ || _); rewrite !zlen_map; auto).
  set (scale := fun t => (2 / IZR (b - a) * (ln (f1 / f0) / (f1 - f0) * exponential_frequency f0 f1 a b rate t))%R).
  assert (Hw : forall n, 0 <= n < length ->
    zth values n = Some (scale (IZR (a + b - n) / rate) * sin (exponential_angle f0 f1 phase a b rate (IZR (a + b - n) / rate)))%R).
  { intros n N.
    assert (E' : ((IZR (b - a) / rate - (IZR n / rate - IZR a / rate)) / l = (IZR (a + b - n) / rate - IZR a / rate) / l)%R).
    { f_equal. rewrite !minus_IZR, plus_IZR. field. lra. }
    assert (Es : forall e, (e * (2 * f0 / l / (f1 - f0) / rate) = 2 / IZR (b - a) * (ln (f1 / f0) / (f1 - f0) * (f0 * e)))%R).
    { intros e. unfold sweep_rate. field. repeat split; auto; lra. }
    unfold values, scale. destruct (_ || _); rewrite !zth_map, Ht by auto; cbn; f_equal; rewrite E', exponential_frequency_exp, <- Es;
      unfold exponential_angle; [f_equal; f_equal; ring|rewrite (Rmult_comm (2 * f0 / l / (f1 - f0) / rate)); f_equal; f_equal; ring]. }
  rewrite vset_everything by lia. cbn [bind].
  edestruct (make_sweep_ok values rate (- b - a) (fun tau => x <- divide O (o_add O (o_neg O tau) (IZR a / rate)%R) l ;; Ok (o_mul O f1 (f_exp M x)))
     (fun tau => exponential_frequency f0 f1 a b rate (IZR (a + b) / rate - tau)%R) (Some l)) as (r & Er & F & C & Off & Lr); auto.
  { intros tau. rewrite divide_ok by auto. cbn. f_equal. rewrite exponential_frequency_exp.
    replace ((IZR (a + b) / rate - tau - IZR a / rate) / l)%R with ((- tau + IZR a / rate) / l + ln (f1 / f0))%R.
    2:{ unfold sweep_rate. rewrite minus_IZR in *. rewrite plus_IZR. field. repeat split; auto; lra. }
    rewrite exp_plus, exp_ln by apply ratio_positive. field. lra. }
  { destruct exponential_monotone as [H|H]; [right|left]; intros x y XY; apply H; lra. }
  exists r. rewrite Lw in F. split; [exact Er|]. split; [|exact Lr]. split; [replace (- (a + b)) with (- b - a) by lia; exact F|].
  intros n N. unfold at_time. rewrite C, Off. replace (- n - (- b - a)) with (a + b - n) by lia. cbn [el rows].
  change (zth values (a + b - n) = Some (scale (IZR n / rate) * sin (exponential_angle f0 f1 phase a b rate (IZR n / rate)))%R).
  rewrite Hw by lia. replace (a + b - (a + b - n)) with n by lia. reflexivity.
Qed.
End Exponential.

End Sweeps.
