(** Calls of filters with arrays of frequencies, their spectrums, comparisons and dictionaries. *)

From Coq Require Import String ZArith List Bool Lia.
From Verif.Model Require Import Py Numpy Functions Signal Spectrum Terms Filter.
From Verif.Spec Require Import TermsSpec FilterSpec FrequencySpec.
From Verif.Proofs Require Import PyFacts NumpyFacts SignalAlgebra SpectrumFacts TermFacts TermOperators TermFuel FilterFacts FilterOperators DictionaryFacts.
Import ListNotations.
Open Scope Z_scope.

Section Results.
Context {K X : Type}.
Variable A : arithmetic K X.
Notation O := (k_ops A).
Notation term := (term K X).
Notation filter := (filter K X).
Notation "0k" := (o_zero O).
Variable junk : K.

(** ** Arrays of frequencies *)

Lemma zlen_call_channels f tfs : forall b, zlen (call_channels A junk f tfs b) = zlen tfs.
Proof. induction tfs as [|t tfs IH]; intros b; [reflexivity|]. cbn [call_channels]. destruct (call A junk f t false b). now rewrite !zlen_cons, IH. Qed.

Lemma zlen_call_arrays fs tfs : forall inv, zlen (call_arrays A junk fs tfs inv) = zlen tfs.
Proof. induction tfs as [|t tfs IH]; intros inv; [reflexivity|]. cbn [call_arrays]. now rewrite !zlen_cons, IH. Qed.

Lemma call_arrays_ok fs tfs : forall inv c row, zlen inv = zlen fs -> zth (call_arrays A junk fs tfs inv) c = Some row ->
  zlen row = zlen fs /\ forall i f b, zth fs i = Some f -> zth inv i = Some b -> zth row i = zth (call_channels A junk f tfs b) c.
Proof.
  induction tfs as [|t tfs IH]; intros inv c row L E; cbn [call_arrays call_channels] in *; [now rewrite zth_nil in E|].
  rewrite zth_cons in E. destruct (c =? 0) eqn:C.
  - injection E as <-. split; [rewrite zlen_map, zlen_map2; lia|]. intros i f b F B. rewrite zth_map, zth_map2, F, B.
    destruct (call A junk f t false b) eqn:V. rewrite zth_cons, C. reflexivity.
  - destruct (IH (map snd (map2 (fun f i => call A junk f t false i) fs inv)) (c - 1) row) as [Q H]; auto; [rewrite zlen_map, zlen_map2; lia|].
    split; auto. intros i f b F B. destruct (call A junk f t false b) as [r b'] eqn:V. rewrite zth_cons, C. apply H; auto.
    rewrite zth_map, zth_map2, F, B, V. reflexivity.
Qed.

Lemma filter_call_count F f : zlen (filter_call A junk F f) = f_count F.
Proof. apply zlen_call_channels. Qed.

Lemma filter_call_array_ok F fs : zlen (filter_call_array A junk F fs) = f_count F /\
  forall c row, zth (filter_call_array A junk F fs) c = Some row ->
    zlen row = zlen fs /\ forall i f, zth fs i = Some f -> zth row i = zth (filter_call A junk F f) c.
Proof.
  split; [apply zlen_call_arrays|]. intros c row E. pose proof (zlen_nonneg fs) as P.
  destruct (call_arrays_ok fs (transfer_functions F) (zrepeat false (zlen fs)) c row) as [L H]; auto; [rewrite zlen_repeat; lia|].
  split; auto. intros i f E'. apply H; auto. rewrite zth_repeat. pose proof (zth_range _ _ _ E'). now replace (_ && _) with true by lia.
Qed.

(** ** Spectrums *)

Variable multiple : Z -> X -> X.

Lemma filter_spectrum_ok F (r : X) n : labelled F -> 0 <= n ->
  exists s, filter_spectrum A junk multiple F r n = Ok s /\ wf_spectrum s /\ resolution s = r /\ sp_labels s = f_labels F /\
    sp_count s = f_count F /\ sp_length s = n /\
    forall c k, 0 <= c < f_count F -> 0 <= k < n -> bin s c k = Some (response A junk F c (multiple k r)).
Proof.
  intros L N. unfold filter_spectrum. destruct (n <? 0) eqn:E; [lia|]. clear E. set (fs := linspace multiple r n).
  assert (Lf : zlen fs = n) by (unfold fs, linspace; rewrite zlen_map, zlen_seq; lia).
  destruct (filter_call_array_ok F fs) as [C H].
  assert (W : wf (Arr (filter_call_array A junk F fs) n)).
  { split; [exact N|]. apply Forall_zth. intros i row E. cbn [cols rows] in *. apply H in E as [E _]. congruence. }
  eexists. split; [reflexivity|]. split; [now apply mk_spectrum_wf|]. split; [reflexivity|]. split.
  { cbn [sp_labels mk_spectrum]. apply sanitize_same. unfold nrows. cbn [rows]. now rewrite C. }
  split; [exact C|]. split; [reflexivity|]. intros c k Hc Hk. unfold bin, el. cbn [sp_channels mk_spectrum rows].
  destruct (zth_in (filter_call_array A junk F fs) c) as [row E]; [lia|]. rewrite E. destruct (H c row E) as [_ V].
  rewrite (V k (multiple k r)); [|unfold fs, linspace; rewrite zth_map, zth_seq; now replace (_ && _) with true by lia].
  unfold response. destruct (zth_in (filter_call A junk F (multiple k r)) c) as [x ->]; [rewrite filter_call_count; lia|]. reflexivity.
Qed.

Lemma filter_spectrum_negative F (r : X) n : n < 0 -> filter_spectrum A junk multiple F r n = Err ValueError.
Proof. intros N. unfold filter_spectrum. destruct (n <? 0) eqn:E; [reflexivity|lia]. Qed.

Lemma filter_mul_spectrum_ok memory F (s : spectrum (option K) X) : labelled F -> wf_spectrum s -> 1 <= f_count F -> 1 <= sp_count s ->
  compatible (f_count F) (sp_count s) ->
  exists r, filter_mul_spectrum A junk multiple memory F s = Ok r /\ wf_spectrum r /\ resolution r = resolution s /\ sp_length r = sp_length s /\
    sp_count r = combined (f_count F) (sp_count s) /\
    (forall c, 0 <= c < sp_count r -> zth (sp_labels r) c = Some "Product"%string) /\
    forall c k x, 0 <= c < sp_count r -> 0 <= k < sp_length r -> operand_bin s c k = Some x ->
      bin r c k = Some (binary (o_mul O) (response A junk F (channel_of F c) (multiple k (resolution s))) x).
Proof.
  intros L W C C' Q. unfold filter_mul_spectrum. destruct (filter_spectrum_ok F (resolution s) (sp_length s) L (wf_sp_length _ W)) as (p & -> & Wp & Rp & Lp & Cp & Np & V).
  cbn [bind]. destruct (spectrum_op_ok (lifted_ops A) memory OpMul p s Wp W) as (r & E & Wr & Rr & Cr & Nr & Lr & B); try lia.
  assert (CC : combined (f_count F) (sp_count s) = Z.max (f_count F) (sp_count s)).
  { unfold combined, compatible in *. destruct (f_count F =? 1) eqn:Z; lia. }
  exists r. split; [exact E|]. split; auto. split; [congruence|]. split; [congruence|]. split; [lia|]. split; [exact Lr|].
  intros c k x Hc Hk Hx. destruct (B c k Hc Hk) as (y & _ & ->).
  replace (if sp_length s =? 1 then 0 else k) with k by (destruct (sp_length s =? 1) eqn:Z; lia). rewrite Hx.
  unfold operand_bin. rewrite Cp. fold (channel_of F c).
  assert (Hch : 0 <= channel_of F c < f_count F).
  { rewrite Cr, Cp in Hc. unfold channel_of, compatible in *. destruct (f_count F =? 1) eqn:Z; [lia|]. lia. }
  rewrite V by lia. reflexivity.
Qed.

(** ** Exact arithmetic *)

Hypothesis EA : exact_arithmetic A.

Lemma call_at F f t : plain_at A F f -> In t (transfer_functions F) -> call A junk f t false false = (value A f (s_of A f) t, false).
Proof.
  intros [N|U] I; [apply (call_value A EA junk f N t false)|]. apply (call_untransformed A EA). rewrite Forall_forall in U. auto.
Qed.

Lemma filter_call_at F f : plain_at A F f -> filter_call A junk F f = map (fun t => evaluate A junk t f) (transfer_functions F).
Proof.
  intros P. unfold filter_call. assert (H : forall t, In t (transfer_functions F) -> call A junk f t false false = (value A f (s_of A f) t, false)) by (intros; now apply (call_at F)).
  clear P. induction (transfer_functions F) as [|t l IH]; [reflexivity|]. cbn [call_channels map]. unfold evaluate at 1. rewrite H by (now left). cbn [fst]. f_equal. apply IH.
  intros; apply H; now right.
Qed.

Lemma response_at F f c : plain_at A F f -> response A junk F c f = match zth (transfer_functions F) c with Some t => value A f (s_of A f) t | None => None end.
Proof.
  intros P. unfold response. rewrite filter_call_at by auto. rewrite zth_map. destruct (zth (transfer_functions F) c) as [t|] eqn:E; [|reflexivity].
  cbn. unfold evaluate. rewrite (call_at F); auto. eapply zth_In; eauto.
Qed.

Lemma channels_independent F f c : plain_at A F f ->
  response A junk F c f = match zth (transfer_functions F) c with Some t => evaluate A junk t f | None => None end.
Proof. intros P. unfold response. rewrite filter_call_at by auto. rewrite zth_map. now destruct (zth _ c). Qed.

Lemma filter_eqb_sound F G : Forall (every (@proper K X)) (transfer_functions F) -> Forall (every (@proper K X)) (transfer_functions G) ->
  filter_eqb A F G = true -> f_count F = f_count G /\ f_labels F = f_labels G /\
  forall c f a b, plain_at A F f -> plain_at A G f -> response A junk F c f = Some a -> response A junk G c f = Some b -> a = b.
Proof.
  intros PF PG E. unfold filter_eqb in E. apply andb_prop in E as [E E3]. apply andb_prop in E as [E1 E2]. split; [lia|].
  split; [now destruct (list_eq_dec string_dec (f_labels F) (f_labels G))|]. intros c f a b QF QG. rewrite !response_at by auto.
  destruct (zth (transfer_functions F) c) as [t|] eqn:T; [|discriminate]. destruct (zth (transfer_functions G) c) as [u|] eqn:U; [|discriminate].
  apply (equal_sound A EA).
  - rewrite Forall_forall in PF. apply PF. eapply zth_In; eauto.
  - rewrite Forall_forall in PG. apply PG. eapply zth_In; eauto.
  - rewrite forallb_forall in E2. apply (E2 (t, u)). clear -T U. revert T U. generalize (transfer_functions G). revert c.
    induction (transfer_functions F) as [|x l IH]; intros c [|y m] T U; rewrite ?zth_nil in *; try discriminate. rewrite zth_cons in T, U.
    destruct (c =? 0); [left; congruence|right; eauto].
Qed.

(** ** Dictionaries *)

Variable complex_array : list K -> bool.
Variables real imag : K -> K.
Variable unit : K.

Lemma strings_ok (l : list string) : sequence (map (fun d : @data K X => match d with DStr s => Ok s | _ => Err TypeError end) (map DStr l)) = Ok l.
Proof. induction l as [|s l IH]; [reflexivity|]. cbn [map sequence bind]. now rewrite IH. Qed.

Lemma filter_round_trip k F : regular_filter k F -> labelled F -> Forall (every (readable A real imag unit)) (transfer_functions F) ->
  exists G, filter_from_dict A unit (filter_as_dict complex_array real imag F) = Ok G /\ f_labels G = f_labels F /\ f_count G = f_count F /\ regular_filter k G /\
    forall c f a, defined_at A k f -> response A junk F c f = Some a -> response A junk G c f = Some a.
Proof.
  intros R L Q.
  assert (H : exists us, sequence (map (term_from_dict A unit) (map (as_dict complex_array real imag) (transfer_functions F))) = Ok us /\
                Forall (regular k) us /\ Forall2 (like A (flag k)) (transfer_functions F) us).
  { unfold regular_filter in R. clear L. induction (transfer_functions F) as [|t l IH]; [exists []; repeat constructor|].
    inversion_clear R. inversion_clear Q. destruct IH as (us & E & G & V); auto.
    destruct (round_trip A complex_array real imag unit EA (flag k) t) as (u & E' & G' & V'); auto; [now apply regular_good|].
    exists (u :: us). cbn [map sequence]. rewrite E'. cbn [bind]. rewrite E. split; [reflexivity|]. split; constructor; auto. now apply regular_good. }
  destruct H as (us & E & Gu & V). assert (Lu : zlen us = f_count F) by (unfold f_count; clear -V; induction V; [reflexivity|rewrite !zlen_cons; lia]).
  exists (mk_filter us (f_labels F)). split.
  { change (filter_from_dict A unit (filter_as_dict complex_array real imag F)) with
      (t <- sequence (map (term_from_dict A unit) (map (as_dict complex_array real imag) (transfer_functions F))) ;;
       s <- sequence (map (fun d : @data K X => match d with DStr s => Ok s | _ => Err TypeError end) (map DStr (f_labels F))) ;; Ok (mk_filter t s)).
    rewrite E. cbn [bind]. now rewrite strings_ok. }
  split; [apply labels_mk; unfold labelled in L; lia|]. split; [exact Lu|]. split; [exact Gu|].
  intros c f a D W. rewrite (response_value A EA junk k) in W |- *; auto using regular_plains.
  destruct (zth (transfer_functions F) c) as [t|] eqn:T; [|discriminate]. cbn [mk_filter transfer_functions].
  assert (exists u, zth us c = Some u /\ like A (flag k) t u) as (u & -> & S).
  { clear -T V. revert c T. induction V as [|x y l m H V IH]; intros c T; rewrite ?zth_nil in *; [discriminate|]. rewrite zth_cons in T |- *. destruct (c =? 0).
    - injection T as ->. eauto. - eauto. }
  apply S; auto. now apply defined_nz.
Qed.

End Results.
