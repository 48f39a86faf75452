(** Opening the wav files, that are left by an interrupted program. *)

From Coq Require Import String ZArith QArith List Bool Lia ZifyBool.
From Verif.Model Require Import Py Numpy Vector Functions Signal Pcm Json Riff.
From Verif.Spec Require Import PcmSpec RiffSpec.
From Verif.Proofs Require Import PyFacts NumpyFacts VectorFacts InterleaveFacts PcmCodes PcmWriting PcmReading PcmResults RiffBytes RiffWriting RiffReading RiffData.
Import ListNotations.
Open Scope list_scope.
Open Scope Z_scope.

Notation codes := Json.codes.

(** Reading beyond the end gives fewer bytes. *)
Lemma file_short file n p : 0 <= p -> 0 < n -> zlen file < p + n -> zlen (fst (file_read file n p)) < n.
Proof. intros P N L. unfold file_read. cbn [fst]. rewrite between_len by lia. lia. Qed.

Lemma outer_short file form n p : 0 <= p -> 0 < n -> form < p + n \/ zlen file < 8 + p + n -> zlen (fst (outer_read file form n (plain p))) < n.
Proof.
  intros P N L. unfold outer_read, chunk_read, plain. destruct (Z.leb_spec form p) as [H | H]; [exact N |].
  set (n' := if form - p <? n then form - p else n). assert (N' : n' = Z.min n (form - p)) by (unfold n'; destruct (Z.ltb_spec (form - p) n); lia).
  unfold file_read at 1. set (b := subseq _ _).
  assert (Lb : zlen b < n) by (unfold b; rewrite between_len by lia; lia).
  destruct (_ && _); [destruct (file_read file 1 _) |]; exact Lb.
Qed.

Lemma inner_short file form size n a p : 0 <= p -> 0 < n -> a + n <= size -> form < p + n \/ zlen file < 8 + p + n ->
  zlen (fst (chunk_read (outer_read file form) size n (a, plain p))) < n.
Proof.
  intros P N S L. unfold chunk_read. destruct (Z.leb_spec size a) as [H | H]; [exact N |].
  replace (size - a <? n) with false by lia. pose proof (outer_short file form n p P N L) as Q.
  destruct (outer_read file form n (plain p)) as [b u]. cbn [fst] in Q. destruct (_ && _); [destruct (outer_read file form 1 u) |]; exact Q.
Qed.

Lemma open_short file form p : 0 <= p -> form < p + 8 \/ zlen file < 16 + p -> (p + 4 <= form -> p + 4 < form \/ Z.odd form = false) -> fst (chunk_open (outer_read file form) (plain p)) = None.
Proof.
  intros P L O. unfold chunk_open. destruct (Z_le_gt_dec (p + 4) form) as [A | A].
  2: { pose proof (outer_short file form 4 p P ltac:(lia) ltac:(lia)) as Q. destruct (outer_read _ _ _ _) as [b u]. cbn [fst] in Q.
       replace (zlen b <? 4) with true by lia. reflexivity. }
  destruct (Z_le_gt_dec (8 + p + 4) (zlen file)) as [B | B].
  2: { pose proof (outer_short file form 4 p P ltac:(lia) ltac:(lia)) as Q. destruct (outer_read _ _ _ _) as [b u]. cbn [fst] in Q.
       replace (zlen b <? 4) with true by lia. reflexivity. }
  rewrite outer_exact by (first [lia | auto]). rewrite between_len by lia. replace (_ <? 4) with false by lia.
  pose proof (outer_short file form 4 (p + 4) ltac:(lia) ltac:(lia) ltac:(lia)) as Q. destruct (outer_read _ _ _ _) as [b u]. cbn [fst] in Q.
  replace (zlen b <? 4) with true by lia. reflexivity.
Qed.

Section Opening.
Variable extensible : bool.
Variables ch width rate : Z.
Hypothesis Hc : 1 <= ch < 2 ^ 16.
Hypothesis Hw : 1 <= width <= 4.
Hypothesis Hr : 0 <= rate < 2 ^ 32.
Variables x y all : list Z.
Hypothesis Lx : zlen x = 4.
Hypothesis Ly : zlen y = 4.
Hypothesis Bx : Forall byte x.
Hypothesis Bly : Forall byte y.
Variable k : Z.

Notation full := (head ch width rate x y ++ all).
Notation file := (ztake k full).
Notation form := (little_value x).

Lemma part_of_full a b pre z post : 0 <= a -> a + b <= zlen file -> full = pre ++ z ++ post -> a = zlen pre -> b = zlen z ->
  subseq (between a (a + b)) file = z.
Proof.
  intros A L E Ha Hb. pose proof (zlen_nonneg z) as Z0. rewrite between_take by lia. rewrite zlen_take in L. pose proof (zlen_nonneg full) as F0.
  replace (a + b - a) with b by lia.
  rewrite drop_take, take_take by lia. destruct (Z.eq_dec b 0) as [B0 | B0].
  { rewrite take_neg by lia. symmetry. apply zlen_zero. lia. }
  replace (Z.min _ _) with b by lia. rewrite E, drop_app by lia. apply take_app. lia.
Qed.

Lemma form_range : 0 <= form < 2 ^ 32.
Proof. pose proof (value_range x Bx) as H. rewrite Lx in H. exact H. Qed.

Lemma size_range : 0 <= little_value y < 2 ^ 32.
Proof. pose proof (value_range y Bly) as H. rewrite Ly in H. exact H. Qed.

Lemma mid_parts : full = codes "RIFF" ++ x ++ codes "WAVE" ++ codes "fmt " ++ number 4 16 ++ format ch width rate ++ codes "data" ++ y ++ all.
Proof. unfold head, middle. now rewrite <- !app_assoc. Qed.

Lemma even_end p : Z.even p = true -> p <= form -> p < form \/ Z.odd form = false.
Proof. intros E L. destruct (Z.eq_dec p form) as [<- | N]; [right; now rewrite <- Z.negb_even, E | left; lia]. Qed.

Lemma zlen_format : zlen (format ch width rate) = 16.
Proof. unfold format. rewrite !zlen_app, !zlen_number by lia. reflexivity. Qed.

(** Opening the chunk at a position *)
Lemma open_at p pre name n post : full = pre ++ name ++ n ++ post -> zlen pre = 8 + p -> 0 <= p -> Z.even p = true -> zlen name = 4 -> zlen n = 4 ->
  (p + 8 <= form /\ 16 + p <= zlen file /\ chunk_open (outer_read file form) (plain p) = (Some (name, little_value n), plain (p + 8)))
  \/ (fst (chunk_open (outer_read file form) (plain p)) = None).
Proof.
  intros E Lp P Ev Ln Lm. destruct (Z_le_gt_dec (p + 8) form) as [A | A]; [destruct (Z_le_gt_dec (16 + p) (zlen file)) as [B | B] |].
  2, 3: right; apply open_short; try lia; apply even_end; now rewrite Z.even_add, Ev.
  left. split; [exact A |]. split; [exact B |]. unfold chunk_open.
  rewrite outer_exact by (first [lia | apply even_end; [now rewrite Z.even_add, Ev | lia]]).
  rewrite (part_of_full (8 + p) 4 pre name (n ++ post)) by (first [lia | assumption]). rewrite Ln, Z.ltb_irrefl.
  rewrite outer_exact by (first [lia | apply even_end; [now rewrite !Z.even_add, Ev | lia]]).
  rewrite (part_of_full (8 + (p + 4)) 4 (pre ++ name) n post) by (first [lia | now rewrite <- app_assoc | rewrite zlen_app; lia]). rewrite Lm, Z.ltb_irrefl.
  do 2 f_equal. lia.
Qed.

Notation fields := (number 2 1 ++ number 2 ch ++ number 4 rate ++ number 4 (ch * width * rate) ++ number 2 (ch * width)).

Lemma format_read : 12 <= form -> 
  read_format extensible file form 16 (plain 12) = Err RuntimeError
  \/ (28 <= form /\ 36 <= zlen file /\ read_format extensible file form 16 (plain 12) = Ok (ch, rate, width, (16, plain 28))).
Proof.
  change (2 ^ 16) with 65536 in Hc. change (2 ^ 32) with 4294967296 in Hr.
  intros L. unfold read_format. destruct (Z_le_gt_dec 26 form) as [A | A]; [destruct (Z_le_gt_dec 34 (zlen file)) as [B | B] |].
  2, 3: left; pose proof (inner_short file form 16 14 0 12 ltac:(lia) ltac:(lia) ltac:(lia) ltac:(lia)) as Q;
    destruct (chunk_read _ _ _ _) as [b u]; cbn [fst] in Q; replace (zlen b <? 14) with true by lia; reflexivity.
  rewrite inner_exact by (first [lia | apply even_end; [reflexivity | lia]]).
  rewrite (part_of_full (8 + 12) 14 (codes "RIFF" ++ x ++ codes "WAVE" ++ codes "fmt " ++ number 4 16) fields (number 2 (8 * width) ++ codes "data" ++ y ++ all)).
  2, 3: lia.
  2: { rewrite mid_parts. unfold format. now rewrite <- !app_assoc. }
  2: { rewrite !zlen_app, Lx, !zlen_number by lia. reflexivity. }
  2: { rewrite !zlen_app, !zlen_number by lia. reflexivity. }
  replace (zlen fields) with 14 by (rewrite !zlen_app, !zlen_number by lia; reflexivity). rewrite Z.ltb_irrefl.
  assert (F1 : subseq (between 0 2) fields = number 2 1) by (apply (between_app 0 2 [] (number 2 1)); [reflexivity | rewrite zlen_number; lia]).
  assert (F2 : subseq (between 2 4) fields = number 2 ch) by (apply (between_app 2 4 (number 2 1) (number 2 ch)); rewrite zlen_number; lia).
  assert (F3 : subseq (between 4 8) fields = number 4 rate).
  { rewrite app_assoc. apply (between_app 4 8 (number 2 1 ++ number 2 ch) (number 4 rate)); rewrite ?zlen_app, !zlen_number; lia. }
  rewrite F1, F2, F3, !value_number by (try change (256 ^ 2) with 65536; try change (256 ^ 4) with 4294967296; lia).
  cbn [Z.eqb Pos.eqb orb negb].
  destruct (Z_le_gt_dec 28 form) as [A' | A']; [destruct (Z_le_gt_dec 36 (zlen file)) as [B' | B'] |].
  2, 3: left; pose proof (inner_short file form 16 2 14 26 ltac:(lia) ltac:(lia) ltac:(lia) ltac:(lia)) as Q;
    change (0 + 14) with 14; change (12 + 14) with 26;
    destruct (chunk_read _ _ _ _) as [b u]; cbn [fst] in Q; replace (zlen b <? 2) with true by lia; reflexivity.
  rewrite inner_exact by (first [lia | apply even_end; [reflexivity | lia] | right; reflexivity]).
  rewrite (part_of_full (8 + (12 + 14)) 2 (codes "RIFF" ++ x ++ codes "WAVE" ++ codes "fmt " ++ number 4 16 ++ fields) (number 2 (8 * width)) (codes "data" ++ y ++ all)).
  2, 3: lia.
  2: { rewrite mid_parts. unfold format. now rewrite <- !app_assoc. }
  2: { rewrite !zlen_app, Lx, !zlen_number by lia. reflexivity. }
  2: { rewrite !zlen_number by lia. reflexivity. }
  rewrite zlen_number, Z.ltb_irrefl, value_number by (try change (256 ^ 2) with 65536; lia). cbn [bind].
  replace ((8 * width + 7) / 8) with width by (apply (Z.div_unique _ _ _ 7); lia).
  replace (width =? 0) with false by lia. replace (ch =? 0) with false by lia.
  right. split; [exact A' |]. split; [exact B' |]. do 2 f_equal.
Qed.

Theorem opening : open_wave extensible file = Err RuntimeError
  \/ (36 <= form /\ 44 <= zlen file /\ open_wave extensible file = Ok (form, WaveReader ch rate width (little_value y) (0, plain 36))).
Proof.
  unfold open_wave, chunk_open. pose proof form_range as Hf.
  destruct (Z_le_gt_dec 4 (zlen file)) as [A | A].
  2: { left. pose proof (file_short file 4 0 ltac:(lia) ltac:(lia) ltac:(lia)) as Q. destruct (file_read _ _ _) as [b u]. cbn [fst] in Q.
       replace (zlen b <? 4) with true by lia. reflexivity. }
  assert (E1 : file_read file 4 0 = (codes "RIFF", 4)).
  { unfold file_read. rewrite (part_of_full 0 4 [] (codes "RIFF") (x ++ codes "WAVE" ++ codes "fmt " ++ number 4 16 ++ format ch width rate ++ codes "data" ++ y ++ all)); try lia; try reflexivity. exact mid_parts. }
  rewrite E1. change (zlen (codes "RIFF") <? 4) with false. cbv iota.
  destruct (Z_le_gt_dec 8 (zlen file)) as [B | B].
  2: { left. pose proof (file_short file 4 4 ltac:(lia) ltac:(lia) ltac:(lia)) as Q. destruct (file_read file 4 4) as [b u]. cbn [fst] in Q.
       replace (zlen b <? 4) with true by lia. reflexivity. }
  assert (E2 : file_read file 4 4 = (x, 8 + 0)).
  { unfold file_read. rewrite (part_of_full 4 4 (codes "RIFF") x (codes "WAVE" ++ codes "fmt " ++ number 4 16 ++ format ch width rate ++ codes "data" ++ y ++ all)); try lia; try reflexivity; [now rewrite Lx | exact mid_parts]. }
  rewrite E2, Lx, Z.ltb_irrefl. destruct (list_eq_dec Z.eq_dec (codes "RIFF") (codes "RIFF")) as [_ | N]; [| now destruct N].
  change (0, 8 + 0) with (plain 0).
  destruct (Z_le_gt_dec 4 form) as [A2 | A2]; [destruct (Z_le_gt_dec 12 (zlen file)) as [B2 | B2] |].
  2, 3: left; pose proof (outer_short file form 4 0 ltac:(lia) ltac:(lia) ltac:(lia)) as Q; destruct (outer_read _ _ _ _) as [b u]; cbn [fst] in Q;
    destruct (list_eq_dec Z.eq_dec b (codes "WAVE")) as [-> | _]; [change (zlen (codes "WAVE")) with 4 in Q; lia | reflexivity].
  rewrite outer_exact by (first [lia | apply even_end; [reflexivity | lia]]).
  rewrite (part_of_full (8 + 0) 4 (codes "RIFF" ++ x) (codes "WAVE") (codes "fmt " ++ number 4 16 ++ format ch width rate ++ codes "data" ++ y ++ all)).
  2, 3: lia.
  2: { rewrite mid_parts. now rewrite <- !app_assoc. }
  2: { rewrite !zlen_app, Lx. reflexivity. }
  2: reflexivity.
  destruct (list_eq_dec Z.eq_dec (codes "WAVE") (codes "WAVE")) as [_ | N]; [| now destruct N].
  assert (Fu : exists n, List.length file = S n) by (unfold zlen in B2; destruct (List.length file) as [| n]; [cbn in B2; lia | eauto]).
  destruct Fu as [n Fu]. rewrite Fu. change (0 + 4) with 4.
  destruct (open_at 4 (codes "RIFF" ++ x ++ codes "WAVE") (codes "fmt ") (number 4 16) (format ch width rate ++ codes "data" ++ y ++ all)) as [(A3 & B3 & E3) | E3].
  { rewrite mid_parts. now rewrite <- !app_assoc. } { rewrite !zlen_app, Lx. reflexivity. } { lia. } { reflexivity. } { reflexivity. } { reflexivity. }
  2: { left. cbn [find_data]. destruct (chunk_open (outer_read file form) (plain 4)) as [[[name size] |] u]; cbn [fst] in E3; [discriminate E3 | reflexivity]. }
  cbn [find_data]. rewrite E3. destruct (list_eq_dec Z.eq_dec (codes "fmt ") (codes "fmt ")) as [_ | N]; [| now destruct N].
  change (little_value (number 4 16)) with 16. change (4 + 8) with 12.
  destruct (format_read ltac:(lia)) as [E4 | (A4 & B4 & E4)]; [left; now rewrite E4 |]. rewrite E4. cbn [bind].
  rewrite skip_exact by (try change (16 mod 2) with 0; lia). cbn [bind find_data]. change (28 + (16 - 16) + 16 mod 2) with 28.
  destruct (open_at 28 (codes "RIFF" ++ x ++ codes "WAVE" ++ codes "fmt " ++ number 4 16 ++ format ch width rate) (codes "data") y all) as [(A5 & B5 & E5) | E5].
  { rewrite mid_parts. now rewrite <- !app_assoc. } { rewrite !zlen_app, Lx, zlen_number, zlen_format by lia. reflexivity. } { lia. } { reflexivity. } { reflexivity. } { exact Ly. }
  2: { left. destruct (chunk_open (outer_read file form) (plain 28)) as [[[name size] |] u]; cbn [fst] in E5; [discriminate E5 | reflexivity]. }
  rewrite E5. destruct (list_eq_dec Z.eq_dec (codes "data") (codes "fmt ")) as [N | _]; [discriminate |].
  destruct (list_eq_dec Z.eq_dec (codes "data") (codes "data")) as [_ | N]; [| now destruct N].
  right. split; [lia |]. split; [lia |]. reflexivity.
Qed.
End Opening.
