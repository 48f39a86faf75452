(** Reading wav files byte by byte: finding the data. *)

From Coq Require Import String ZArith QArith List Bool Lia ZifyBool.
From Verif.Model Require Import Py Numpy Vector Functions Signal Pcm Json Riff.
From Verif.Spec Require Import PcmSpec RiffSpec.
From Verif.Proofs Require Import PyFacts NumpyFacts VectorFacts InterleaveFacts PcmCodes PcmWriting PcmReading PcmResults RiffBytes.
Import ListNotations.
Open Scope list_scope.
Open Scope Z_scope.

Notation codes := Json.codes.

Section Reading.
Variable extensible : bool.
Variable file : list Z.

Notation piece a n := (subseq (between a (a + n)) file).
Definition plain (p : Z) : outer := (p, 8 + p).

Lemma outer_exact form n p : 0 <= p -> 0 <= n -> p + n <= form -> 8 + p + n <= zlen file -> p + n < form \/ Z.odd form = false ->
  outer_read file form n (plain p) = (piece (8 + p) n, plain (p + n)).
Proof.
  intros P N L E O. unfold outer_read, chunk_read, plain, file_read.
  destruct (Z.leb_spec form p) as [H | H].
  - assert (n = 0) by lia. subst n. rewrite !Z.add_0_r. f_equal. symmetry. apply zlen_zero.
    replace (8 + p) with (8 + p + 0) at 2 by lia. rewrite between_len; lia.
  - replace (form - p <? n) with false by lia. rewrite between_len by lia. replace (Z.max 0 (Z.min n (zlen file - (8 + p)))) with n by lia.
    replace ((p + n =? form) && Z.odd form) with false by (destruct O as [O | ->]; lia). f_equal. f_equal. lia.
Qed.

Lemma inner_exact form size n a p : 0 <= a -> 0 <= p -> 0 <= n -> a + n <= size -> a + n < size \/ Z.odd size = false ->
  p + n <= form -> 8 + p + n <= zlen file -> p + n < form \/ Z.odd form = false ->
  chunk_read (outer_read file form) size n (a, plain p) = (piece (8 + p) n, (a + n, plain (p + n))).
Proof.
  intros A P N L O L' E O'. unfold chunk_read.
  destruct (Z.leb_spec size a) as [H | H].
  - assert (n = 0) by lia. subst n. rewrite !Z.add_0_r. f_equal. symmetry. apply zlen_zero.
    replace (8 + p) with (8 + p + 0) at 2 by lia. rewrite between_len; lia.
  - replace (size - a <? n) with false by lia. rewrite outer_exact by lia. rewrite between_len by lia.
    replace (Z.max 0 (Z.min n (zlen file - (8 + p)))) with n by lia.
    replace ((a + n =? size) && Z.odd size) with false by (destruct O as [O | ->]; lia). reflexivity.
Qed.

Lemma piece_app pre x post a : file = pre ++ x ++ post -> a = zlen pre -> piece a (zlen x) = x.
Proof. intros E A. rewrite E. now apply between_app. Qed.

Lemma open_exact form p pre name n rest : file = pre ++ name ++ number 4 n ++ rest -> zlen pre = 8 + p -> 0 <= p -> zlen name = 4 -> 0 <= n < 2 ^ 32 ->
  p + 8 <= form -> p + 8 < form \/ Z.odd form = false ->
  chunk_open (outer_read file form) (plain p) = (Some (name, n), plain (p + 8)).
Proof.
  intros E Lp P Ln Hn L O. pose proof (zlen_nonneg rest) as Lr.
  assert (Lf : zlen file = 16 + p + zlen rest) by (rewrite E, !zlen_app, zlen_number by lia; lia).
  unfold chunk_open. rewrite outer_exact by lia.
  replace (piece (8 + p) 4) with name by (symmetry; rewrite <- Ln; apply (piece_app pre _ _ _ E); lia).
  rewrite Ln, Z.ltb_irrefl. rewrite outer_exact by lia.
  assert (E' : file = (pre ++ name) ++ number 4 n ++ rest) by now rewrite <- app_assoc.
  replace (piece (8 + (p + 4)) 4) with (number 4 n).
  2: { pose proof (piece_app _ _ _ (8 + (p + 4)) E' ltac:(rewrite zlen_app; lia)) as Q. rewrite zlen_number in Q by lia. now symmetry. }
  rewrite zlen_number, Z.ltb_irrefl by lia. rewrite value_number by (try change (256 ^ 4) with (2 ^ 32); lia). do 2 f_equal. lia.
Qed.

Lemma chunk_len name body chunk : is_chunk name body chunk -> zlen chunk = 8 + zlen body + zlen body mod 2 /\ Z.even (zlen chunk) = true.
Proof.
  intros (L & _ & pad & P & ->). rewrite !zlen_app, zlen_number, L, P by lia. split; [lia |].
  replace (4 + (4 + (zlen body + zlen body mod 2))) with (8 + (zlen body + zlen body mod 2)) by lia.
  rewrite Z.even_add. rewrite Z.even_add, Zmod_even. destruct (Z.even (zlen body)); reflexivity.
Qed.

Lemma mod2_odd n : n mod 2 = if Z.odd n then 1 else 0.
Proof. rewrite Zmod_odd. reflexivity. Qed.

Lemma skip_exact form size a p : 0 <= p -> 0 <= a <= size -> p + (size - a) + size mod 2 <= form ->
  skip form size a (plain p) = Ok (plain (p + (size - a) + size mod 2)).
Proof.
  intros P A L. unfold skip, plain. cbn [fst]. rewrite <- mod2_odd. pose proof (Z.mod_pos_bound size 2 ltac:(lia)).
  replace (_ || _) with false by lia. f_equal. f_equal; lia.
Qed.

Lemma find_other fuel form fmt p pre chunk post : file = pre ++ chunk ++ post -> zlen pre = 8 + p -> 0 <= p -> other_chunk chunk -> p + zlen chunk < form ->
  find_data extensible file (S fuel) form fmt (plain p) = find_data extensible file fuel form fmt (plain (p + zlen chunk)).
Proof.
  intros E Lp P (name & body & C & N1 & N2) L. destruct (chunk_len _ _ _ C) as [Lc _]. pose proof (Z.mod_pos_bound (zlen body) 2 ltac:(lia)) as M.
  pose proof (zlen_nonneg body) as Lb.
  destruct C as (Ln & Sb & pad & Pd & ->). cbn [find_data].
  assert (E' : file = pre ++ name ++ number 4 (zlen body) ++ ((body ++ pad) ++ post)) by (rewrite E, <- !app_assoc; reflexivity).
  rewrite (open_exact form p _ _ _ _ E' Lp P Ln) by lia.
  destruct (list_eq_dec Z.eq_dec name (codes "fmt ")); [contradiction |]. destruct (list_eq_dec Z.eq_dec name (codes "data")); [contradiction |].
  rewrite skip_exact by lia. cbn [bind]. do 2 f_equal. lia.
Qed.

(** The parts of a list are found at their positions. *)
Lemma part pre x post a n : file = pre ++ x ++ post -> a = zlen pre -> n = zlen x -> piece a n = x.
Proof. intros E A ->. now apply (piece_app pre x post). Qed.

Lemma find_format fuel form fmt p pre chunk body post channels width rate : file = pre ++ chunk ++ post -> zlen pre = 8 + p -> 0 <= p ->
  is_chunk (codes "fmt ") body chunk -> is_format extensible channels width rate body -> 1 <= width -> width <= 4 -> p + zlen chunk < form ->
  find_data extensible file (S fuel) form fmt (plain p) = find_data extensible file fuel form (Some (channels, rate, width)) (plain (p + zlen chunk)).
Proof.
  intros E Lp P C (Hc & Hr & bytes & bits & more & Lb & Hb & D) W1 W4 L. destruct (chunk_len _ _ _ C) as [Lc _].
  pose proof (Z.mod_pos_bound (zlen body) 2 ltac:(lia)) as M.
  change (2 ^ 16) with 65536 in Hc. change (2 ^ 32) with 4294967296 in Hr.
  destruct C as (Ln & Sb & pad & Pd & ->). cbn [find_data].
  assert (E' : file = pre ++ codes "fmt " ++ number 4 (zlen body) ++ (body ++ (pad ++ post))) by (rewrite E, <- !app_assoc; reflexivity).
  pose proof (zlen_nonneg body) as Zb.
  rewrite (open_exact form p _ _ _ _ E' Lp P Ln) by lia.
  destruct (list_eq_dec Z.eq_dec (codes "fmt ") (codes "fmt ")) as [_ | N]; [| now destruct N].
  set (pre' := pre ++ codes "fmt " ++ number 4 (zlen body)).
  assert (Lp' : zlen pre' = 8 + (p + 8)) by (unfold pre'; rewrite !zlen_app, zlen_number by lia; change (zlen (codes "fmt ")) with 4; lia).
  assert (E'' : file = pre' ++ body ++ (pad ++ post)) by (unfold pre'; rewrite E', <- !app_assoc; reflexivity).
  assert (Lf : 8 + (p + 8) + zlen body <= zlen file) by (rewrite E'', !zlen_app; pose proof (zlen_nonneg pad); pose proof (zlen_nonneg post); lia).
  assert (X : exists tag rest, body = number 2 tag ++ number 2 channels ++ number 4 rate ++ bytes ++ number 2 bits ++ rest
     /\ (tag = 1 \/ tag = 65534 /\ extensible = true /\ exists mask, zlen mask = 8 /\ rest = mask ++ pcm_subtype ++ more)).
  { destruct D as [D | (Ex & mask & Lm & D)].
    - exists 1, more. split; [now rewrite D, <- !app_assoc | now left].
    - exists 65534, (mask ++ pcm_subtype ++ more). split; [now rewrite D, <- !app_assoc | right; eauto 10]. }
  clear D. destruct X as (tag & rest & Eb & D).
  assert (Ht : 0 <= tag < 65536) by (destruct D as [-> | [-> _]]; lia).
  assert (Lr : zlen body = 16 + zlen rest) by (rewrite Eb, !zlen_app, !zlen_number, Lb by lia; lia).
  pose proof (zlen_nonneg rest) as Zr.
  unfold read_format.
  assert (B14 : piece (8 + (p + 8)) 14 = number 2 tag ++ number 2 channels ++ number 4 rate ++ bytes).
  { apply (part pre' _ (number 2 bits ++ rest ++ pad ++ post)); [rewrite E'', Eb, <- !app_assoc; reflexivity | lia | rewrite !zlen_app, !zlen_number, Lb by lia; lia]. }
  assert (B2 : piece (8 + (p + 8 + 14)) 2 = number 2 bits).
  { apply (part (pre' ++ number 2 tag ++ number 2 channels ++ number 4 rate ++ bytes) _ (rest ++ pad ++ post));
      [rewrite E'', Eb, <- !app_assoc; reflexivity | rewrite !zlen_app, !zlen_number, Lb, Lp' by lia; lia | rewrite zlen_number; lia]. }
  rewrite inner_exact by lia. rewrite B14.
  set (b := number 2 tag ++ number 2 channels ++ number 4 rate ++ bytes).
  assert (Zl : zlen b = 14) by (unfold b; rewrite !zlen_app, !zlen_number, Lb by lia; lia). rewrite Zl, Z.ltb_irrefl.
  assert (F1 : subseq (between 0 2) b = number 2 tag) by (apply (between_app 0 2 [] (number 2 tag)); [reflexivity | rewrite zlen_number; lia]).
  assert (F2 : subseq (between 2 4) b = number 2 channels) by (apply (between_app 2 4 (number 2 tag) (number 2 channels)); rewrite zlen_number; lia).
  assert (F3 : subseq (between 4 8) b = number 4 rate).
  { unfold b. rewrite app_assoc. apply (between_app 4 8 (number 2 tag ++ number 2 channels) (number 4 rate)); rewrite ?zlen_app, !zlen_number; lia. }
  rewrite F1, F2, F3, !value_number by (try change (256 ^ 2) with 65536; try change (256 ^ 4) with 4294967296; lia).
  replace (negb ((tag =? 1) || extensible && (tag =? 65534))) with false by (destruct D as [-> | (-> & -> & _)]; reflexivity).
  assert (Od : forall k, Z.even k = true -> k <= zlen body -> k < zlen body \/ Z.odd (zlen body) = false).
  { intros k Ek Hk. destruct (Z.eq_dec k (zlen body)) as [<- | Ne]; [right; now rewrite <- Z.negb_even, Ek | left; lia]. }
  replace (0 + 14) with 14 by lia. rewrite inner_exact by (first [lia | apply Od; [reflexivity | lia]]). rewrite B2, zlen_number by lia. rewrite Z.ltb_irrefl.
  rewrite value_number by (try change (256 ^ 2) with 65536; lia).
  assert (Ww : (bits + 7) / 8 = width) by (symmetry; apply (Z.div_unique _ _ _ (bits + 7 - 8 * width)); lia).
  rewrite Ww. replace (width =? 0) with false by lia. replace (channels =? 0) with false by lia.
  replace (14 + 2) with 16 by lia.
  destruct D as [-> | (-> & _ & mask & Lm & ->)].
  - cbn [Z.eqb Pos.eqb bind]. rewrite skip_exact by lia. cbn [bind]. do 2 f_equal. lia.
  - change (65534 =? 65534) with true. cbv iota.
    assert (Ls : zlen pcm_subtype = 16) by reflexivity. pose proof (zlen_nonneg more) as Zm. rewrite !zlen_app, Lm, Ls in Lr.
    rewrite inner_exact by lia. rewrite between_len by lia. replace (Z.max 0 (Z.min 8 (zlen file - _))) with 8 by lia. rewrite Z.ltb_irrefl.
    rewrite inner_exact by (first [lia | apply Od; [reflexivity | lia]]). rewrite between_len by lia. replace (Z.max 0 (Z.min 16 (zlen file - _))) with 16 by lia. rewrite Z.ltb_irrefl.
    replace (piece (8 + (p + 8 + 14 + 2 + 8)) 16) with pcm_subtype.
    2: { symmetry. apply (part (pre' ++ number 2 65534 ++ number 2 channels ++ number 4 rate ++ bytes ++ number 2 bits ++ mask) _ (more ++ pad ++ post));
           [rewrite E'', Eb, <- !app_assoc; reflexivity | rewrite !zlen_app, !zlen_number, Lb, Lp', Lm by lia; lia | reflexivity]. }
    destruct (list_eq_dec Z.eq_dec pcm_subtype pcm_subtype) as [_ | N]; [| now destruct N].
    cbn [negb bind]. rewrite skip_exact by lia. cbn [bind]. do 2 f_equal. lia.
Qed.

Lemma find_end fuel form p pre n rest channels rate width : file = pre ++ codes "data" ++ number 4 n ++ rest -> zlen pre = 8 + p -> 0 <= p ->
  0 <= n < 2 ^ 32 -> p + 8 <= form -> Z.even p = true ->
  find_data extensible file (S fuel) form (Some (channels, rate, width)) (plain p) = Ok (WaveReader channels rate width n (0, plain (p + 8))).
Proof.
  intros E Lp P Hn L Ev. cbn [find_data].
  rewrite (open_exact form p _ _ _ _ E Lp P) ; try lia; [| reflexivity |].
  - destruct (list_eq_dec Z.eq_dec (codes "data") (codes "fmt ")) as [N | _]; [discriminate |].
    destruct (list_eq_dec Z.eq_dec (codes "data") (codes "data")) as [_ | N]; [| now destruct N]. reflexivity.
  - destruct (Z.eq_dec (p + 8) form) as [<- | Ne]; [right | left; lia]. rewrite <- Z.negb_even, Z.even_add, Ev. reflexivity.
Qed.

Lemma find_others l : forall fuel form fmt p pre post, file = pre ++ concat l ++ post -> zlen pre = 8 + p -> 0 <= p -> Forall other_chunk l ->
  p + zlen (concat l) < form ->
  find_data extensible file (List.length l + fuel) form fmt (plain p) = find_data extensible file fuel form fmt (plain (p + zlen (concat l))).
Proof.
  induction l as [| c l IH]; intros fuel form fmt p pre post E Lp P H L; cbn [concat List.length Nat.add app].
  - do 2 f_equal. rewrite zlen_nil. lia.
  - cbn [concat] in E, L. rewrite zlen_app in *. apply Forall_cons_iff in H. destruct H as [Hc H].
    pose proof (zlen_nonneg (concat l)). pose proof (zlen_nonneg c).
    rewrite <- app_assoc in E. rewrite (find_other _ form fmt p pre c (concat l ++ post) E Lp P Hc) by lia.
    rewrite (IH fuel form fmt (p + zlen c) (pre ++ c) post); auto; try lia.
    + do 2 f_equal. lia.
    + now rewrite <- app_assoc.
    + rewrite zlen_app. lia.
Qed.

Lemma others_len l : Forall other_chunk l -> 8 * Z.of_nat (List.length l) <= zlen (concat l) /\ Z.even (zlen (concat l)) = true.
Proof.
  induction 1 as [| c l (name & body & C & _) _ [IH1 IH2]]; cbn [concat List.length]; [change (zlen (@nil Z)) with 0; split; [lia | reflexivity] |].
  rewrite zlen_app. destruct (chunk_len _ _ _ C) as [Lc Ev]. pose proof (zlen_nonneg body). pose proof (Z.mod_pos_bound (zlen body) 2 ltac:(lia)).
  split; [lia |]. rewrite Z.even_add, Ev, IH2. reflexivity.
Qed.

Ltac side := first [assumption | lia | match goal with E : file = _ |- file = _ => rewrite E, <- !app_assoc; reflexivity end
  | rewrite !zlen_app, zlen_number by lia; change (zlen (codes "RIFF")) with 4; change (zlen (codes "WAVE")) with 4; lia].

(** Opening a file *)
Theorem open_wav channels width rate data : 1 <= width <= 4 -> zlen data < 2 ^ 32 -> is_wav extensible channels width rate data file ->
  exists form p pre rest, open_wave extensible file = Ok (form, WaveReader channels rate width (zlen data) (0, plain p))
    /\ 0 <= p /\ file = pre ++ data ++ rest /\ zlen pre = 8 + p /\ p + zlen data <= form.
Proof.
  intros Hw Hd (form & before & fmt & chunk & bet & rest & E & Hf & O1 & O2 & C & D).
  destruct (others_len _ O1) as [N1 V1]. destruct (others_len _ O2) as [N2 V2]. destruct (chunk_len _ _ _ C) as [Lc V3].
  pose proof (zlen_nonneg data) as Zd. pose proof (zlen_nonneg rest) as Zr. pose proof (zlen_nonneg fmt) as Zf. pose proof (Z.mod_pos_bound (zlen fmt) 2 ltac:(lia)) as M.
  assert (Lf : zlen file = 12 + zlen (concat before) + zlen chunk + zlen (concat bet) + 8 + zlen data + zlen rest).
  { rewrite E, !zlen_app, !zlen_number by lia. change (zlen (codes "RIFF")) with 4. change (zlen (codes "WAVE")) with 4. change (zlen (codes "data")) with 4. lia. }
  set (p := 4 + zlen (concat before) + zlen chunk + zlen (concat bet)).
  set (pre := codes "RIFF" ++ number 4 form ++ codes "WAVE" ++ concat before ++ chunk ++ concat bet).
  assert (Lp : zlen pre = 8 + p).
  { unfold pre, p. rewrite !zlen_app, !zlen_number by lia. change (zlen (codes "RIFF")) with 4. change (zlen (codes "WAVE")) with 4. lia. }
  exists form, (p + 8), (pre ++ codes "data" ++ number 4 (zlen data)), rest.
  split; [| split; [lia | split; [| split]]].
  - unfold open_wave. unfold chunk_open, file_read.
    assert (A1 : subseq (between 0 (0 + 4)) file = codes "RIFF") by (apply (part [] _ _ 0 4 E); reflexivity).
    rewrite A1. change (zlen (codes "RIFF")) with 4. rewrite Z.ltb_irrefl.
    assert (A2 : piece (0 + 4) 4 = number 4 form).
    { apply (part (codes "RIFF") _ (codes "WAVE" ++ concat before ++ chunk ++ concat bet ++ codes "data" ++ number 4 (zlen data) ++ data ++ rest));
        [exact E | reflexivity | rewrite zlen_number; lia]. }
    rewrite A2, zlen_number, Z.ltb_irrefl by lia.
    rewrite value_number by (try change (256 ^ 4) with (2 ^ 32); lia).
    destruct (list_eq_dec Z.eq_dec (codes "RIFF") (codes "RIFF")) as [_ | N]; [| now destruct N].
    change (0 + 4 + 4) with (8 + 0). fold (plain 0). rewrite outer_exact by lia.
    replace (piece (8 + 0) 4) with (codes "WAVE").
    2: { symmetry. apply (part (codes "RIFF" ++ number 4 form) _ (concat before ++ chunk ++ concat bet ++ codes "data" ++ number 4 (zlen data) ++ data ++ rest));
           [rewrite E, <- !app_assoc; reflexivity | rewrite zlen_app, zlen_number by lia; reflexivity | reflexivity]. }
    destruct (list_eq_dec Z.eq_dec (codes "WAVE") (codes "WAVE")) as [_ | N]; [| now destruct N].
    assert (Fu : exists k, S (List.length file) = (List.length before + S (List.length bet + S k))%nat).
    { exists (List.length file - List.length before - List.length bet - 1)%nat. unfold zlen in Lf, N1, N2, Lc. unfold zlen in *. lia. }
    destruct Fu as (k & ->).
    rewrite (find_others before (S (List.length bet + S k)) form None (0 + 4) (codes "RIFF" ++ number 4 form ++ codes "WAVE")
               (chunk ++ concat bet ++ codes "data" ++ number 4 (zlen data) ++ data ++ rest)) by side.
    rewrite (find_format (List.length bet + S k) form None _ (codes "RIFF" ++ number 4 form ++ codes "WAVE" ++ concat before) chunk fmt
               (concat bet ++ codes "data" ++ number 4 (zlen data) ++ data ++ rest) channels width rate) by side.
    rewrite (find_others bet (S k) form _ _ (codes "RIFF" ++ number 4 form ++ codes "WAVE" ++ concat before ++ chunk)
               (codes "data" ++ number 4 (zlen data) ++ data ++ rest)) by side.
    replace (0 + 4 + zlen (concat before) + zlen chunk + zlen (concat bet)) with p by (unfold p; lia).
    rewrite (find_end k form p pre (zlen data) (data ++ rest)); [reflexivity | | | | | |]; auto; try (unfold p; lia).
    + unfold pre. rewrite E, <- !app_assoc. reflexivity.
    + unfold p. rewrite !Z.even_add, V1, V2, V3. reflexivity.
  - unfold pre. rewrite E, <- !app_assoc. reflexivity.
  - rewrite !zlen_app, zlen_number, Lp by lia. change (zlen (codes "data")) with 4. lia.
  - unfold p. lia.
Qed.
End Reading.
