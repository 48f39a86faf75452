(** Saving signals in wav files: the bytes of the file at each moment. *)

From Coq Require Import String ZArith QArith List Bool Lia ZifyBool.
From Verif.Model Require Import Py Numpy Vector Functions Signal Pcm Json Riff.
From Verif.Spec Require Import PcmSpec RiffSpec.
From Verif.Proofs Require Import PyFacts NumpyFacts VectorFacts InterleaveFacts PcmCodes PcmWriting PcmReading PcmResults RiffBytes RiffWriting.
Import ListNotations.
Open Scope list_scope.
Open Scope Z_scope.

Section Saving.
Variable F : pcm.
Hypothesis R : regular F.
Variable junk : Z -> Q.
Variable s : signal Q.
Hypothesis W : wf_signal s.
Hypothesis N : 1 <= count s.

Notation ch := (count s).
Notation width := (p_bytes F).
Notation rate := (Z.max 1 (py_round (sampling_rate s))).
Notation size := (frame ch width).
Notation len := (Signal.length s).

(** The integers of the signal *)
Definition signal_codes : arr Z := PcmWriting.codes F s.
Notation frames := (frames_of F signal_codes).

(** The first frame, that cannot be written *)
Variable limit : Z.
Hypothesis HL : 0 <= limit <= len.
Hypothesis Bad : limit < len -> ~ frame_in_range F s limit.
Notation all := (frames 0 limit).
Notation fits := (header_fits ch width rate).

Lemma width_range : 1 <= width <= 4.
Proof. destruct R as [E | [E | E]]; unfold p_bytes; rewrite E; vm_compute; split; discriminate. Qed.

Lemma rate_pos : 1 <= rate.
Proof. lia. Qed.

Lemma frames_len a b : 0 <= a <= b -> b <= len -> zlen (frames a b) = (b - a) * size.
Proof.
  intros A B. pose proof (chunk_bytes F s W a (b - a) ltac:(lia) ltac:(lia) ltac:(lia)) as C. replace (a + (b - a)) with b in C by lia.
  unfold signal_codes. rewrite <- C, (flat_length _ (wn F)) by (apply Forall_forall; intros; now apply bytes_of_length).
  rewrite (width_nat F R), interleave_len by lia. unfold frame. lia.
Qed.

Lemma frames_split k : 0 <= k <= limit -> frames 0 k ++ frames k limit = all.
Proof. intros K. apply frames_app. lia. Qed.

Lemma reach i k : 0 <= i <= limit -> i + k <= len -> (forall t, i <= t < i + k -> frame_in_range F s t) -> i + k <= limit.
Proof.
  intros I L H. destruct (Z.le_gt_cases (i + k) limit) as [A | A]; [exact A |]. exfalso. apply Bad; [lia |]. apply H. lia.
Qed.

(** [i] frames have been written. *)
Definition state (w : writer) (i : Z) : Prop :=
  (i = 0 /\ w = new_writer ch width rate) \/ at_frame ch width rate all w i (frames 0 i).

Lemma write_step w i k : state w i -> 0 <= i -> 0 < k -> i + k <= limit ->
  (fits (i + k) /\ exists w', write_frames w (frames i (i + k)) = (Ok tt, w') /\ state w' (i + k))
  \/ (~ fits (i + k) /\ exists w', write_frames w (frames i (i + k)) = (Err StructError, w') /\ broken ch width rate all w').
Proof.
  intros [[-> ->] | A] I K L.
  - destruct (write_first ch width rate N width_range rate_pos all (0 + k) (frames 0 (0 + k)) (frames (0 + k) limit)) as [[H1 (w & H2 & H3)] | H].
    + lia.
    + rewrite frames_len; lia.
    + apply frames_split. lia.
    + left. split; [exact H1 |]. exists w. split; [exact H2 | right; exact H3].
    + right. exact H.
  - destruct (write_next ch width rate N width_range all w i k (frames 0 i) (frames i (i + k)) (frames (i + k) limit)) as [[H1 (w' & H2 & H3)] | H]; auto.
    + rewrite frames_len; lia.
    + rewrite !frames_app by lia. reflexivity.
    + left. split; [exact H1 |]. exists w'. split; [exact H2 |]. right. now rewrite frames_app in H3 by lia.
Qed.

Section Loop.
Variable chunk_size : Z.
Hypothesis P : 0 < chunk_size.

Lemma blocks_ok fuel : forall array i w, 0 <= i <= limit -> len - i <= Z.of_nat fuel -> zlen array = ch * chunk_size -> (chunk_size | i) -> state w i ->
  match write_blocks F s fuel chunk_size array i w with
  | (Ok (array', i'), w') =>
      i <= i' <= limit /\ len < i' + chunk_size /\ (chunk_size | i') /\ zlen array' = ch * chunk_size /\ state w' i'
      /\ forall t, i <= t < i' -> frame_in_range F s t
  | (Err e, w') =>
      e = StructError /\
      ((exists k, i <= k /\ k + chunk_size <= len /\ (chunk_size | k) /\ state w' k /\ (forall t, i <= t < k -> frame_in_range F s t)
        /\ exists c t x, k <= t < k + chunk_size /\ el (channels s) c t = Some x /\ ~ in_range F x)
       \/ (broken ch width rate all w' /\ ~ fits len))
  end.
Proof.
  induction fuel as [| fuel IH]; intros array i w I Fu L D St.
  - cbn [write_blocks]. replace (i + chunk_size <=? len) with false by lia.
    repeat split; auto; try lia.
  - cbn [write_blocks]. destruct (Z.leb_spec (i + chunk_size) len) as [Lt | Ge].
    2: { repeat split; auto; try lia. }
    rewrite (fill_ok s W N array _ i chunk_size) by (try apply takes_between; lia). cbn [bind].
    destruct (convert_ok F R s N i chunk_size ltac:(lia)) as (array' & L' & ->).
    destruct (chunk_ok F s i chunk_size) eqn:C.
    + rewrite (chunk_bytes F s W) by lia. fold signal_codes.
      pose proof (proj1 (chunk_range F R s W i chunk_size ltac:(lia) ltac:(lia) ltac:(lia)) C) as Cr.
      pose proof (reach i chunk_size I Lt Cr) as Lr.
      destruct (write_step w i chunk_size St ltac:(lia) P Lr) as [[Hf (w' & -> & St')] | [Hf (w' & -> & Br)]].
      * assert (D' : (chunk_size | i + chunk_size)) by (apply Z.divide_add_r; auto using Z.divide_refl).
        specialize (IH array' (i + chunk_size) w' ltac:(lia) ltac:(lia) L' D' St').
        rewrite (chunk_range F R s W) in C by lia.
        destruct (write_blocks _ _ _ _ _ _ _) as [[[array'' i'] | e] w''].
        -- destruct IH as (H1 & H2 & H3 & H4 & H5 & H6). split; [lia |]. split; [lia |]. split; [exact H3 |]. split; [exact H4 |]. split; [exact H5 |].
           intros t T. destruct (Z.lt_ge_cases t (i + chunk_size)); [apply C; lia | apply H6; lia].
        -- destruct IH as (H1 & [(k & H2 & H3 & H4 & H5 & H6 & H7) | H2]); (split; [exact H1 |]); [left | right; exact H2].
           exists k. split; [lia |]. split; [exact H3 |]. split; [exact H4 |]. split; [exact H5 |]. split; [| exact H7].
           intros t T. destruct (Z.lt_ge_cases t (i + chunk_size)); [apply C; lia | apply H6; lia].
      * split; [reflexivity |]. right. split; [exact Br |]. intros H. apply Hf. apply (fits_less ch width rate N width_range _ len); [lia | exact H].
    + split; [reflexivity |]. left. exists i. split; [lia |]. split; [lia |]. split; [exact D |]. split; [exact St |]. split; [intros; lia |].
      apply (chunk_fails F R s W); auto; lia.
Qed.

(** Leaving the with statement *)
Lemma leave_state r w k : state w k -> 0 <= k <= len ->
  exists h, safe ch width rate all h /\
   ((fits k /\ leave r w = (r, h) /\ contents h = wav_file ch width rate (frames 0 k)) \/ (~ fits len /\ leave r w = (Err StructError, h))).
Proof.
  intros St K. assert (Z : zlen (frames 0 k) = k * size) by (rewrite frames_len; lia).
  unfold leave. destruct St as [[-> ->] | A].
  - destruct (close_fresh ch width rate N width_range rate_pos all) as [[Fk (w & -> & A)] | [Fk (w & -> & S)]].
    + exists (w_history w). destruct A as ((_ & _ & _ & _ & _ & _ & _ & _ & C & S) & _). split; [exact S |]. left. split; [exact Fk |]. split; [reflexivity |].
      rewrite head_wav, C. reflexivity.
    + exists (w_history w). split; [exact S |]. right. split; [| reflexivity]. intros H. apply Fk.
      apply (fits_less ch width rate N width_range _ len); [lia | exact H].
  - rewrite (close_at ch width rate all w k _ A). exists (w_history w). destruct A as ((_ & _ & _ & _ & _ & _ & _ & _ & C & S) & _ & _ & Fk).
    split; [exact S |]. left. split; [exact Fk |]. split; [reflexivity |]. rewrite head_wav, C, Z. reflexivity.
Qed.

Lemma leave_broken r w : broken ch width rate all w -> exists h, leave r w = (Err StructError, h) /\ safe ch width rate all h.
Proof. intros (_ & w' & E & S). unfold leave. rewrite E. eauto. Qed.

Theorem save_result :
  match write_wave_with F junk s chunk_size with
  | (Ok _, h) => (forall t, 0 <= t < len -> frame_in_range F s t) /\ fits len /\ contents h = wav_file ch width rate (frames 0 len) /\ safe ch width rate all h
  | (Err e, h) =>
      e = StructError /\ safe ch width rate all h /\
      (~ fits len \/ exists k, 0 <= k < len /\ (chunk_size | k) /\ fits k /\ contents h = wav_file ch width rate (frames 0 k)
         /\ (forall t, 0 <= t < k -> frame_in_range F s t)
         /\ exists c t x, k <= t < k + chunk_size /\ el (channels s) c t = Some x /\ ~ in_range F x)
  end.
Proof.
  unfold write_wave_with. destruct (vector_ok junk (ch * chunk_size)) as (array & -> & L); [nia |].
  replace (ch <? 1) with false by lia. cbv zeta.
  assert (LN : 0 <= len) by apply (proj1 (proj1 W)).
  pose proof (blocks_ok (Z.to_nat len) array 0 (new_writer ch width rate) ltac:(lia) ltac:(lia) L (Z.divide_0_r _) ltac:(left; auto)) as H.
  destruct (write_blocks _ _ _ _ _ _ _) as [[[array' i] | e] w].
  2: { destruct H as (-> & [(k & H2 & H3 & H4 & H5 & H6 & H7) | [H2 H3]]).
       - destruct (leave_state (Err StructError) w k H5 ltac:(lia)) as (h & S & [(Fk & -> & C) | (Fk & ->)]); (split; [reflexivity |]); (split; [exact S |]).
         + right. exists k. split; [lia |]. auto 10.
         + left. exact Fk.
       - destruct (leave_broken (Err StructError) w H2) as (h & -> & S). auto. }
  destruct H as (H1 & H2 & H3 & H4 & H5 & H6).
  unfold write_remainder. cbv zeta. destruct (Z.eqb_spec (len - i) 0) as [E | E]; cbn [negb].
  - assert (i = len) by lia. subst i. destruct (leave_state (Ok tt) w len H5 ltac:(lia)) as (h & S & [(Fk & -> & C) | (Fk & ->)]); auto.
  - assert (B : exists a, (if zlen array' <? ch * (len - i) then vector junk (ch * (len - i))
                    else Ok (subseq (between 0 (ch * (len - i))) array')) = Ok a /\ zlen a = ch * (len - i)).
    { destruct (Z.ltb_spec (zlen array') (ch * (len - i))).
      - apply vector_ok. nia.
      - eexists. split; [reflexivity |]. rewrite zlen_between; nia. }
    destruct B as (a & -> & La). cbn [bind].
    rewrite (fill_ok s W N a _ i (len - i)) by (try apply takes_from; lia). cbn [bind].
    destruct (convert_ok F R s N i (len - i) ltac:(lia)) as (array'' & L' & ->).
    destruct (chunk_ok F s i (len - i)) eqn:C.
    + rewrite (chunk_bytes F s W) by lia. fold signal_codes.
      pose proof (proj1 (chunk_range F R s W i (len - i) ltac:(lia) ltac:(lia) ltac:(lia)) C) as Cr.
      pose proof (reach i (len - i) ltac:(lia) ltac:(lia) Cr) as Lr.
      destruct (write_step w i (len - i) H5 ltac:(lia) ltac:(lia) Lr) as [[Hf (w' & -> & St')] | [Hf (w' & -> & Br)]];
        replace (i + (len - i)) with len in * by lia.
      * rewrite (chunk_range F R s W) in C by lia.
        destruct (leave_state (Ok tt) w' len St' ltac:(lia)) as (h & S & [(Fk & -> & Ch) | (Fk & _)]); [| contradiction].
        split; [| auto]. intros t T. destruct (Z.lt_ge_cases t i); [apply H6; lia | apply C; lia].
      * destruct (leave_broken (Err StructError) w' Br) as (h & -> & S). auto.
    + destruct (chunk_fails F R s W i (len - i) ltac:(lia) ltac:(lia) ltac:(lia) C) as (c & t & x & T & Hx).
      destruct (leave_state (Err StructError) w i H5 ltac:(lia)) as (h & S & [(Fk & -> & Ch) | (Fk & ->)]); (split; [reflexivity |]); (split; [exact S |]).
      * right. exists i. split; [lia |]. split; [exact H3 |]. split; [exact Fk |]. split; [exact Ch |]. split; [exact H6 |]. exists c, t, x. split; [lia | exact Hx].
      * left. exact Fk.
Qed.
End Loop.
End Saving.

(** There is a first frame, that cannot be written, or each one can be. *)
Lemma limit_exists F s : regular F -> wf_signal s -> exists limit, 0 <= limit <= Signal.length s
  /\ (forall t, 0 <= t < limit -> frame_in_range F s t) /\ (limit < Signal.length s -> ~ frame_in_range F s limit).
Proof.
  intros R W. assert (L : 0 <= Signal.length s) by apply (proj1 (proj1 W)).
  assert (H : forall n, 0 <= n -> n <= Signal.length s -> exists limit, 0 <= limit <= n
    /\ (forall t, 0 <= t < limit -> frame_in_range F s t) /\ (limit < n -> ~ frame_in_range F s limit)).
  { apply (natlike_ind (fun n => n <= Signal.length s -> exists limit, 0 <= limit <= n
      /\ (forall t, 0 <= t < limit -> frame_in_range F s t) /\ (limit < n -> ~ frame_in_range F s limit))).
    - intros _. exists 0. repeat split; intros; lia.
    - intros n Hn IH Hl. destruct IH as (limit & H1 & H2 & H3); [lia |]. destruct (Z.eq_dec limit n) as [-> | Ne].
      + pose proof (chunk_range F R s W n 1 ltac:(lia) ltac:(lia) ltac:(lia)) as C. destruct (chunk_ok F s n 1).
        * exists (Z.succ n). split; [lia |]. split; [| lia]. intros t T. destruct (Z.eq_dec t n) as [-> | N']; [apply C; [reflexivity | lia] | apply H2; lia].
        * exists n. split; [lia |]. split; [exact H2 |]. intros _ H. assert (false = true) by (apply C; intros t T; now replace t with n by lia). discriminate.
      + exists limit. split; [lia |]. split; [exact H2 |]. intros _. apply H3. lia. }
  exact (H (Signal.length s) L (Z.le_refl _)).
Qed.
