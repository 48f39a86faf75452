(** Proofs about playing and recording through JACK. *)

From Coq Require Import String ZArith List Bool Lia ZifyBool.
From Verif.Model Require Import Py Numpy Functions Signal Vector Text Jack.
From Verif.Spec Require Import JackSpec.
From Verif.Proofs Require Import PyFacts NumpyFacts SignalAlgebra SignalShape VectorFacts MergeOrder.
Import ListNotations.
Open Scope Z_scope.

Lemma zip_update_ok {X Y} (f : X -> Y -> result X) (P : X -> Y -> X -> Prop) l : forall m,
  zlen m = zlen l -> (forall x y, In x l -> In y m -> exists x', f x y = Ok x' /\ P x y x') ->
  exists r, zip_update f l m = Ok r /\ zlen r = zlen l /\
    forall i, 0 <= i < zlen l -> exists x y x', zth l i = Some x /\ zth m i = Some y /\ zth r i = Some x' /\ P x y x'.
Proof.
  induction l as [|x l IH]; intros m L H.
  - change (zlen (@nil X)) with 0 in L. apply zlen_zero in L. subst m. exists []. split; [reflexivity|]. split; [reflexivity|]. intros i I. change (zlen (@nil X)) with 0 in I. lia.
  - destruct m as [|y m]; [change (zlen (@nil Y)) with 0 in L; rewrite zlen_cons in L; pose proof (zlen_nonneg l); lia|].
    rewrite !zlen_cons in L.
    destruct (H x y) as (x' & E & Q); [now left|now left|]. destruct (IH m) as (r & Er & Lr & Hr); [lia| |].
    { intros. apply H; now right. }
    exists (x' :: r). cbn. rewrite E. cbn. rewrite Er. cbn. split; [reflexivity|]. split; [rewrite !zlen_cons; lia|].
    intros i I. rewrite zlen_cons in I. rewrite !zth_cons. destruct (i =? 0) eqn:Z; [|apply Hr; lia]. exists x, y, x'. repeat split; auto.
Qed.

Lemma take_drop {X} n (l : list X) : ztake n l ++ zdrop n l = l.
Proof. apply firstn_skipn. Qed.

Section Jack.
Context {A : Type}.
Variable zero : A.
Local Notation none := (@nil (buffers A)).
Implicit Types (s : signal A) (st : jack A) (b : buffers A).

(** The state during a recording with [n] input ports. *)
Definition invariant s (n i : Z) (event : bool) st : Prop :=
  j_input st = s /\ zlen (j_channels st) = n /\ j_index st = i /\ j_event st = event /\
  forall x, In x (j_channels st) -> zlen x = length s.

Lemma channel_In s r : wf_signal s -> In r (rows (channels s)) -> zlen r = length s.
Proof. intros [[_ W] _] H. rewrite Forall_forall in W. now apply W. Qed.

Lemma channel_len s c : wf_signal s -> 0 <= c < count s -> zlen (channel s c) = length s.
Proof.
  intros W C. unfold channel. destruct (zth_in (rows (channels s)) c) as [r R]; auto. rewrite R.
  apply (channel_In s); auto. eapply zth_In; eauto.
Qed.

Lemma recorded_len s n i e st p : invariant s n i e st -> 0 <= p < n -> zlen (recorded st p) = length s.
Proof.
  intros (_ & H & _ & _ & L) P. unfold recorded. destruct (zth_in (j_channels st) p) as [r R]; [lia|]. rewrite R. apply L.
  eapply zth_In; eauto.
Qed.

Lemma stream_one (x : list (list A)) c : stream [x] c = match zth x c with Some v => v | None => [] end.
Proof. unfold stream. cbn. now rewrite app_nil_r. Qed.

Lemma stream_app (x y : list (list (list A))) c : stream (x ++ y) c = stream x c ++ stream y c.
Proof. apply flat_map_app. Qed.

Lemma stream_cons (x : list (list A)) y c : stream (x :: y) c = stream [x] c ++ stream y c.
Proof. apply (stream_app [x] y). Qed.

Ltac lnorm := repeat first [rewrite zth_app | rewrite zth_take | rewrite zth_drop | rewrite zth_repeat | rewrite zth_subseq
  | rewrite zlen_subseq | rewrite zlen_app | rewrite zlen_take | rewrite zlen_drop | rewrite zlen_repeat | rewrite lower_between by lia | rewrite upper_between by lia].
Ltac fin := zcases; rewrite ?zth_out by lia; auto; try (f_equal; lia).
Ltac veq := apply zth_ext; intros ?j; lnorm; fin.

(** ** One callback *)

Lemma process_full auto b st s n i : wf_signal s -> invariant s n i false st -> proper (count s) n b ->
  0 <= i -> i + b_frames b <= length s ->
  exists outs st', on_process zero auto b st = Ok (outs, st', false) /\ invariant s n (i + b_frames b) false st' /\
    (forall c, 0 <= c < count s -> stream [outs] c = subseq (between i (i + b_frames b)) (channel s c)) /\
    (forall p, 0 <= p < n -> recorded st' p =
       ztake i (recorded st p) ++ stream [b_in b] p ++ zdrop (i + b_frames b) (recorded st p)).
Proof.
  intros Ws (I1 & I2 & I3 & I4 & I5) (F & O1 & O2 & O3 & O4) I J. unfold on_process. rewrite I1, I3, I4. cbn [negb].
  replace (_ <=? _) with true by lia.
  edestruct (zip_update_ok (fun port channel => vset port everything (subseq (between i (i + b_frames b)) channel))
    (fun _ y x' => x' = subseq (between i (i + b_frames b)) y) (b_out b) (rows (channels s))) as (outs & E & L & H).
  { unfold count, nrows in *. lia. }
  { intros x y X Y. apply (channel_In s) in Y; auto. apply O3 in X.
    destruct (vset_ok x everything (subseq (between i (i + b_frames b)) y) 0 (zlen x)) as (w & W & Lw & Hw).
    { apply lower_everything. } { apply upper_everything. lia. }
    { rewrite zlen_subseq, lower_between, upper_between by lia. lia. }
    exists w. split; [exact W|]. apply zth_ext_in; [rewrite zlen_subseq, lower_between, upper_between by lia; lia|].
    intros k K. rewrite Hw. replace (_ && _) with true by lia. f_equal. lia. }
  rewrite E. cbn [bind].
  edestruct (zip_update_ok (fun channel port => vset channel (between i (i + b_frames b)) port)
    (fun x y x' => x' = ztake i x ++ y ++ zdrop (i + b_frames b) x) (j_channels st) (b_in b)) as (rc & Er & Lr & Hr).
  { lia. }
  { intros x y X Y. apply I5 in X. apply O4 in Y. unfold vset. rewrite lower_between, upper_between by lia.
    replace (_ =? _) with true by lia. eauto. }
  rewrite Er. cbn [bind]. do 2 eexists. split; [reflexivity|]. split; [|split].
  - repeat split; auto; cbn [j_channels]; [lia|]. intros x X. apply In_zth in X. destruct X as [k K]. pose proof (zth_range _ _ _ K).
    destruct (Hr k) as (x0 & y & x' & X0 & Y & X' & ->); [lia|]. rewrite K in X'. injection X' as ->.
    apply zth_In in X0, Y. apply I5 in X0. apply O4 in Y. rewrite !zlen_app, zlen_take, zlen_drop. lia.
  - intros c C. destruct (H c) as (? & y & x' & _ & Y & X' & ->); [unfold count, nrows in *; lia|]. rewrite stream_one, X'. unfold channel. now rewrite Y.
  - intros p P. destruct (Hr p) as (x & y & x' & X & Y & X' & ->); [lia|]. unfold recorded. cbn [j_channels].
    rewrite X, X', stream_one, Y. reflexivity.
Qed.

Lemma process_partial auto b st s n i : wf_signal s -> invariant s n i false st -> proper (count s) n b ->
  0 <= i < length s -> length s < i + b_frames b ->
  exists outs st', on_process zero auto b st = Ok (outs, st', false) /\ invariant s n (length s - i) false st' /\
    (forall c, 0 <= c < count s -> stream [outs] c = zdrop i (channel s c) ++ zrepeat zero (i + b_frames b - length s)) /\
    (forall p, 0 <= p < n -> recorded st' p = ztake i (recorded st p) ++ ztake (length s - i) (stream [b_in b] p)).
Proof.
  intros Ws (I1 & I2 & I3 & I4 & I5) (F & O1 & O2 & O3 & O4) I J. unfold on_process. rewrite I1, I3, I4. cbn [negb].
  replace (_ <=? _) with false by lia. replace (i <? length s) with true by lia.
  edestruct (zip_update_ok (fun port channel =>
      port <- vset port (between 0 (length s - i)) (subseq (from i) channel) ;; Ok (vfill port (from (length s - i)) zero))
    (fun _ y x' => x' = zdrop i y ++ zrepeat zero (i + b_frames b - length s)) (b_out b) (rows (channels s))) as (outs & E & L & H).
  { unfold count, nrows in *. lia. }
  { intros x y X Y. apply (channel_In s) in Y; auto. apply O3 in X.
    destruct (vset_ok x (between 0 (length s - i)) (subseq (from i) y) 0 (length s - i)) as (w & W & Lw & Hw).
    { apply lower_between. lia. } { apply upper_between; lia. }
    { rewrite zlen_subseq, lower_from, upper_from by lia. lia. }
    rewrite W. cbn [bind]. eexists. split; [reflexivity|].
    destruct (vfill_ok w (from (length s - i)) zero (length s - i) (zlen w)) as (Lf & Hf); [apply lower_from; lia|apply upper_from; lia|].
    apply zth_ext_in; [rewrite Lf, zlen_app, zlen_drop, zlen_repeat; lia|].
    intros k K. rewrite Lf in K. rewrite Hf, Hw, zth_app, zlen_drop, zth_drop, zth_repeat, zth_subseq, lower_from, upper_from by lia.
    destruct (Z_lt_ge_dec k (length s - i)).
    - replace (_ && _) with false by lia. replace (_ && _) with true by lia. replace (_ && _) with true by lia.
      destruct (_ <? _) eqn:T; [|lia]. destruct (k <? 0) eqn:T'; [lia|]. f_equal. lia.
    - replace (_ && _) with true by lia. replace (_ <? _) with false by lia. replace (_ && _) with true by lia. reflexivity. }
  rewrite E. cbn [bind].
  edestruct (zip_update_ok (fun channel port => vset channel (from i) (subseq (between 0 (length s - i)) port))
    (fun x y x' => x' = ztake i x ++ ztake (length s - i) y) (j_channels st) (b_in b)) as (rc & Er & Lr & Hr).
  { lia. }
  { intros x y X Y. apply I5 in X. apply O4 in Y. unfold vset. rewrite lower_from, upper_from by lia.
    rewrite zlen_subseq, lower_between, upper_between by lia.
    replace (_ =? _) with true by lia. eexists. split; [reflexivity|]. f_equal.
    unfold subseq. rewrite lower_between, upper_between by lia.
    assert (D : zdrop (zlen x) x = []) by (apply zlen_zero; rewrite zlen_drop; lia). rewrite D, app_nil_r.
    change (zdrop 0 y) with y. f_equal. lia. }
  rewrite Er. cbn [bind]. do 2 eexists. split; [reflexivity|]. split; [|split].
  - repeat split; auto; cbn [j_channels]; [lia|]. intros x X. apply In_zth in X. destruct X as [k K]. pose proof (zth_range _ _ _ K).
    destruct (Hr k) as (x0 & y & x' & X0 & Y & X' & ->); [lia|]. rewrite K in X'. injection X' as ->.
    apply zth_In in X0, Y. apply I5 in X0. apply O4 in Y. rewrite !zlen_app, !zlen_take. lia.
  - intros c C. destruct (H c) as (? & y & x' & _ & Y & X' & ->); [unfold count, nrows in *; lia|]. rewrite stream_one, X'. unfold channel. now rewrite Y.
  - intros p P. destruct (Hr p) as (x & y & x' & X & Y & X' & ->); [lia|]. unfold recorded. cbn [j_channels].
    rewrite X, X', stream_one, Y. reflexivity.
Qed.

Lemma process_finish auto b st s n i : invariant s n i false st -> 0 < b_frames b -> length s <= i ->
  exists st', on_process zero auto b st = Ok (b_out b, st', auto) /\ invariant s n i true st' /\ j_channels st' = j_channels st.
Proof.
  intros (I1 & I2 & I3 & I4 & I5) F I. unfold on_process. rewrite I1, I3, I4. cbn [negb].
  replace (_ <=? _) with false by lia. replace (_ <? _) with false by lia. eexists. split; [reflexivity|]. repeat split; auto.
Qed.

Lemma process_idle auto b st : j_event st = true -> on_process zero auto b st = Ok (b_out b, st, false).
Proof. intros E. unfold on_process. now rewrite E. Qed.

(** ** Sequences of callbacks *)

Lemma total_cons b l : total (b :: l) = b_frames b + total l.
Proof. reflexivity. Qed.

Lemma total_nonneg o n (l : list (buffers A)) : Forall (proper o n) l -> 0 <= total l.
Proof. induction 1 as [|b l (F & _) _ IH]; [reflexivity|]. rewrite total_cons. lia. Qed.

Lemma total_app (l l' : list (buffers A)) : total (l ++ l') = total l + total l'.
Proof. induction l as [|b l IH]; cbn [app]; rewrite ?total_cons, ?IH; [reflexivity|lia]. Qed.

Lemma run_app auto l : forall l' st, run zero auto (l ++ l') st =
  (r <- run zero auto l st ;; r' <- run zero auto l' (snd r) ;; Ok (fst r ++ fst r', snd r')).
Proof.
  induction l as [|b l IH]; intros l' st; cbn.
  - destruct (run zero auto l' st) as [[o st']|]; reflexivity.
  - destruct (on_process zero auto b st) as [[[o st'] e]|]; [|reflexivity]. cbn. rewrite IH.
    destruct (run zero auto l st') as [[o' st'']|]; [|reflexivity]. cbn.
    destruct (run zero auto l' st'') as [[o'' st''']|]; reflexivity.
Qed.

Lemma stream_in_len (l : list (buffers A)) p o n : Forall (proper o n) l -> 0 <= p < n -> zlen (stream (map b_in l) p) = total l.
Proof.
  intros H P. induction H as [|b l (F & O1 & O2 & O3 & O4) _ IH]; [reflexivity|].
  cbn [map]. rewrite stream_cons, zlen_app, IH, total_cons, stream_one. destruct (zth_in (b_in b) p) as [x X]; [lia|]. rewrite X.
  f_equal. apply O4. eapply zth_In; eauto.
Qed.

Lemma run_full auto s n l : wf_signal s -> Forall (proper (count s) n) l -> forall i st, invariant s n i false st -> 0 <= i ->
  i + total l <= length s ->
  exists outs st', run zero auto l st = Ok (outs, st') /\ invariant s n (i + total l) false st' /\
    (forall c, 0 <= c < count s -> stream outs c = subseq (between i (i + total l)) (channel s c)) /\
    (forall p, 0 <= p < n -> recorded st' p =
       ztake i (recorded st p) ++ stream (map b_in l) p ++ zdrop (i + total l) (recorded st p)).
Proof.
  intros Ws H. induction H as [|b l Pb Hl IH]; intros i st Inv I T.
  - change (total none) with 0 in *. rewrite Z.add_0_r in *. exists [], st. split; [reflexivity|]. split; auto. split.
    + intros c C. symmetry. apply zlen_zero. pose proof (channel_len s c Ws C).
      rewrite zlen_subseq, lower_between, upper_between by lia. lia.
    + intros p P. cbn. symmetry. apply take_drop.
  - rewrite total_cons in *. pose proof (total_nonneg _ _ _ Hl). pose proof Pb as (F & _).
    destruct (process_full auto b st s n i) as (outs & st1 & E1 & Inv1 & S1 & R1); auto; [lia|].
    destruct (IH (i + b_frames b) st1 Inv1) as (outs' & st2 & E2 & Inv2 & S2 & R2); [lia|lia|].
    exists (outs :: outs'), st2. cbn [run]. rewrite E1. cbn [bind]. rewrite E2. cbn [bind]. split; [reflexivity|].
    split; [now rewrite Z.add_assoc|]. split.
    + intros c C. pose proof (channel_len s c Ws C). rewrite stream_cons, S1, S2 by auto. veq.
    + intros p P. rewrite R2, R1 by auto. cbn [map]. rewrite (stream_cons (b_in b) (map b_in l)).
      pose proof (recorded_len _ _ _ _ _ _ Inv P) as Lr. pose proof (stream_in_len [b] p _ _ (Forall_cons _ Pb (Forall_nil _)) P) as Ls.
      cbn [map] in Ls. rewrite total_cons in Ls. change (total none) with 0 in Ls.
      rewrite <- !app_assoc. set (r := recorded st p) in *. set (x := stream [b_in b] p) in *.
      assert (X1 : ztake (i + b_frames b) (ztake i r ++ x ++ zdrop (i + b_frames b) r) = ztake i r ++ x).
      { veq. }
      assert (X2 : zdrop (i + b_frames b + total l) (ztake i r ++ x ++ zdrop (i + b_frames b) r) = zdrop (i + (b_frames b + total l)) r).
      { veq. }
      rewrite X1, X2, <- app_assoc. reflexivity.
Qed.

Lemma start_invariant junk n s : wf_signal s -> 0 <= n -> invariant s n 0 false (jack_start junk n s).
Proof.
  intros [[L _] _] N. unfold jack_start. repeat split; cbn [j_channels]; [rewrite zlen_map, zlen_seq; lia|].
  intros x X. apply in_map_iff in X. destruct X as (k & <- & _). rewrite zlen_map, zlen_seq. unfold length in *. lia.
Qed.

(** ** The statements of C34 *)

Lemma play_record auto junk s n l : wf_signal s -> 0 <= n -> Forall (proper (count s) n) l -> total l <= length s ->
  exists outs st, run zero auto l (jack_start junk n s) = Ok (outs, st) /\ j_event st = false /\
    (forall c, 0 <= c < count s -> stream outs c = ztake (total l) (channel s c)) /\
    (forall p, 0 <= p < n -> zlen (recorded st p) = length s /\ ztake (total l) (recorded st p) = stream (map b_in l) p).
Proof.
  intros Ws N Hl T. pose proof (total_nonneg _ _ _ Hl). pose proof (start_invariant junk n s Ws N) as Inv.
  destruct (run_full auto s n l Ws Hl 0 _ Inv) as (outs & st & E & Inv' & S & R); [lia|lia|]. rewrite Z.add_0_l in *.
  exists outs, st. split; [exact E|]. split; [apply Inv'|]. split.
  - intros c C. rewrite S by auto. pose proof (channel_len s c Ws C). veq.
  - intros p P. split; [eapply recorded_len; eauto|]. rewrite R by auto. pose proof (stream_in_len l p _ _ Hl P).
    change (ztake 0 _) with (@nil A). cbn [app]. veq.
Qed.

(** The last block, which is not filled completely. *)
Lemma play_record_last auto junk s n l b : wf_signal s -> 0 <= n -> Forall (proper (count s) n) l -> proper (count s) n b ->
  total l < length s < total l + b_frames b ->
  exists outs st, run zero auto (l ++ [b]) (jack_start junk n s) = Ok (outs, st) /\ invariant s n (length s - total l) false st /\
    (forall c, 0 <= c < count s -> stream outs c = channel s c ++ zrepeat zero (total l + b_frames b - length s)) /\
    (forall p, 0 <= p < n -> recorded st p = ztake (length s) (stream (map b_in (l ++ [b])) p)).
Proof.
  intros Ws N Hl Pb T. pose proof (total_nonneg _ _ _ Hl). pose proof (start_invariant junk n s Ws N) as Inv.
  destruct (run_full auto s n l Ws Hl 0 _ Inv) as (outs & st & E & Inv1 & S & R); [lia|lia|]. rewrite Z.add_0_l in *.
  destruct (process_partial auto b st s n (total l)) as (outs' & st' & E' & Inv2 & S' & R'); auto; try lia.
  exists (outs ++ [outs']), st'. rewrite run_app, E. cbn [bind snd run]. rewrite E'. cbn [bind fst snd]. split; [reflexivity|]. split; auto. split.
  - intros c C. rewrite stream_app, S, S' by auto. pose proof (channel_len s c Ws C). veq.
  - intros p P. rewrite R', R by auto. change (ztake 0 _) with (@nil A). cbn [app]. rewrite map_app, stream_app.
    pose proof (stream_in_len l p _ _ Hl P). pose proof (stream_in_len [b] p _ _ (Forall_cons _ Pb (Forall_nil _)) P) as Ls.
    cbn [map] in *. rewrite total_cons in Ls. change (total none) with 0 in Ls. pose proof (recorded_len _ _ _ _ _ _ Inv P).
    destruct Pb as (F & _). veq.
Qed.

Lemma run_idle auto l : forall st, j_event st = true -> run zero auto l st = Ok (map b_out l, st).
Proof. induction l as [|b l IH]; intros st E; cbn; [reflexivity|]. rewrite process_idle by auto. cbn. rewrite IH by auto. reflexivity. Qed.

Lemma run_finish auto s n i st b rest : invariant s n i false st -> 0 < b_frames b -> length s <= i ->
  exists st', run zero auto (b :: rest) st = Ok (map b_out (b :: rest), st') /\ invariant s n i true st' /\ j_channels st' = j_channels st.
Proof.
  intros Inv F I. destruct (process_finish auto b st s n i) as (st' & E & Inv' & C); auto.
  exists st'. cbn. rewrite E. cbn. rewrite run_idle by apply Inv'. auto.
Qed.

Lemma recorded_eq st st' p : j_channels st' = j_channels st -> recorded st' p = recorded st p.
Proof. unfold recorded. now intros ->. Qed.

Lemma output_of rate names s n i st : wf_signal s -> invariant s n i true st -> zlen names = n -> 0 <= n ->
  exists out, jack_output rate names st = Some out /\ wf_signal out /\ sampling_rate out = rate /\ offset out = offset s /\
    labels out = names /\ count out = n /\ length out = length s /\ forall p, 0 <= p < n -> channel out p = recorded st p.
Proof.
  intros [[L _] _] (I1 & I2 & I3 & I4 & I5) Nm N. unfold jack_output. rewrite I4, I1. eexists. split; [reflexivity|].
  unfold mk_signal. cbn [channels sampling_rate offset labels]. 
  assert (Sn : sanitize_labels (Some names) (nrows (Arr (j_channels st) (length s))) = names).
  { apply sanitize_same. unfold nrows. cbn [rows]. lia. }
  split; [|repeat split; auto].
  split; [split|].
  - cbn. exact L.
  - apply Forall_forall. exact I5.
  - cbn. unfold count in *. cbn. rewrite Sn. unfold nrows. cbn. lia.
Qed.

(** The blocks end exactly with the signal, or the first one is longer than the signal. *)
Lemma exactly_once auto junk s n l b rest rate names : wf_signal s -> 0 <= n -> Forall (proper (count s) n) l -> 0 < b_frames b ->
  total l = length s \/ (zlen l = 1 /\ 0 < length s < total l) -> zlen names = n ->
  exists outs st out, run zero auto (l ++ b :: rest) (jack_start junk n s) = Ok (outs ++ map b_out (b :: rest), st) /\
    (forall c, 0 <= c < count s -> stream outs c = channel s c ++ zrepeat zero (total l - length s)) /\
    jack_output rate names st = Some out /\ wf_signal out /\ sampling_rate out = rate /\ offset out = offset s /\ labels out = names /\
    count out = n /\ length out = length s /\
    forall p, 0 <= p < n -> channel out p = ztake (length s) (stream (map b_in l) p).
Proof.
  intros Ws N Hl F T Nm.
  assert (Q : exists outs st, run zero auto l (jack_start junk n s) = Ok (outs, st) /\ invariant s n (length s) false st /\
    (forall c, 0 <= c < count s -> stream outs c = channel s c ++ zrepeat zero (total l - length s)) /\
    (forall p, 0 <= p < n -> recorded st p = ztake (length s) (stream (map b_in l) p))).
  { pose proof (start_invariant junk n s Ws N) as Inv. pose proof Ws as [[L0 _] _]. fold (length s) in L0.
    destruct T as [T|[L1 T]].
    - destruct (run_full auto s n l Ws Hl 0 _ Inv) as (outs & st & E & Inv1 & S & R); [lia|lia|]. rewrite Z.add_0_l, T in *.
      exists outs, st. split; [exact E|]. split; auto. split.
      + intros c C. rewrite S by auto. pose proof (channel_len s c Ws C). veq.
      + intros p P. rewrite R by auto. change (ztake 0 _) with (@nil A). cbn [app]. pose proof (stream_in_len l p _ _ Hl P).
        pose proof (recorded_len _ _ _ _ _ _ Inv P). veq.
    - apply zlen_one in L1. destruct L1 as [b0 ->]. pose proof (Forall_inv Hl) as P0.
      rewrite total_cons in *. change (total none) with 0 in *.
      destruct (play_record_last auto junk s n [] b0) as (outs & st & E & Inv1 & S & R); auto; [change (total none) with 0; lia|].
      change (total none) with 0 in *. rewrite Z.sub_0_r in Inv1. cbn [app] in *. exists outs, st. split; [exact E|]. split; auto. split; auto.
      intros c C. rewrite S by auto. do 2 f_equal. lia. }
  destruct Q as (outs & st & E & Inv & S & R).
  destruct (run_finish auto s n (length s) st b rest Inv F) as (st' & E' & Inv' & C'); [lia|].
  destruct (output_of rate names s n _ st' Ws Inv' Nm N) as (out & O & W1 & W2 & W3 & W4 & W5 & W6 & W7).
  exists outs, st', out. rewrite run_app, E. cbn [bind snd]. rewrite E'. cbn [bind fst snd]. split; [reflexivity|]. split; auto.
  repeat split; auto; try apply W1. intros p P. rewrite W7, (recorded_eq st), R by auto. reflexivity.
Qed.

(** A last block that is cut off although it is not the first one: the recording continues at a wrong position, until
    blocks end exactly with the signal. *)
Lemma replay auto junk s n l b l2 b2 rest rate names :
  wf_signal s -> 0 <= n -> Forall (proper (count s) n) l -> proper (count s) n b -> Forall (proper (count s) n) l2 -> 0 < b_frames b2 ->
  0 < total l -> total l < length s < total l + b_frames b -> total l2 = total l -> zlen names = n ->
  exists outs st out, run zero auto (l ++ b :: l2 ++ b2 :: rest) (jack_start junk n s) = Ok (outs ++ map b_out (b2 :: rest), st) /\
    (forall c, 0 <= c < count s -> stream outs c =
       channel s c ++ zrepeat zero (total l + b_frames b - length s) ++ zdrop (length s - total l) (channel s c)) /\
    jack_output rate names st = Some out /\ length out = length s /\
    forall p, 0 <= p < n ->
      channel out p = ztake (length s - total l) (stream (map b_in (l ++ [b])) p) ++ stream (map b_in l2) p.
Proof.
  intros Ws N Hl Pb Hl2 F T0 T T2 Nm.
  destruct (play_record_last auto junk s n l b) as (outs & st & E & Inv1 & S & R); auto.
  destruct (run_full auto s n l2 Ws Hl2 _ _ Inv1) as (outs2 & st2 & E2 & Inv2 & S2 & R2); [lia|lia|].
  destruct (run_finish auto s n _ st2 b2 rest Inv2 F) as (st3 & E3 & Inv3 & C3); [lia|].
  destruct (output_of rate names s n _ st3 Ws Inv3 Nm N) as (out & O & W1 & W2 & W3 & W4 & W5 & W6 & W7).
  exists (outs ++ outs2), st3, out.
  change (l ++ b :: l2 ++ b2 :: rest) with (l ++ [b] ++ (l2 ++ b2 :: rest)). rewrite app_assoc, run_app, E. cbn [bind snd].
  rewrite run_app, E2. cbn [bind snd]. rewrite E3. cbn [bind fst snd]. rewrite <- app_assoc. split; [reflexivity|]. split; [|repeat split; auto].
  - intros c C. pose proof (channel_len s c Ws C). rewrite stream_app, S, S2, <- app_assoc by auto. do 2 f_equal. veq.
  - intros p P. rewrite W7, (recorded_eq st2), R2, R by auto.
    pose proof (stream_in_len l2 p _ _ Hl2 P). assert (Hl' : Forall (proper (count s) n) (l ++ [b])).
    { apply Forall_app. split; auto. }
    pose proof (stream_in_len _ p _ _ Hl' P) as X. rewrite total_app, total_cons in X. change (total none) with 0 in X. veq.
Qed.

End Jack.
