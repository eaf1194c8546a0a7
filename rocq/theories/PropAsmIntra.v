(** C76: the assembled intra predictors against the portable ones. *)
From Verif Require Import Base TreeModel MVModel FrameModel RasterModel RasterProofs PredictModel PredictProofs PropInter PropIntra.
From Verif Require Import VarianceModel SimdModel AsmIntraModel SimdProofs AsmTransformProofs AsmInterProofs PropAsmInter.
From Verif Require Import AsmIntraProofs AsmIntraCalls AsmIntraMeans.

(** ** Statements: prediction from the row above [A], the column to the left [Lf]
    and the corner [C], as in RFC 6386, section 12. *)

(** [above], [beside]: there is a block there. *)
Definition whole (n mode : Z) (above beside : bool) (A Lf : Z -> Z) (C c r : Z) : Z :=
  if mode =? DC_PRED then
    match above, beside with
    | true, true => (total n A + total n Lf + n) / (2 * n)
    | true, false => (total n A + n / 2) / n
    | false, true => (total n Lf + n / 2) / n
    | false, false => 128
    end
  else if mode =? V_PRED then A c
  else if mode =? H_PRED then Lf r
  else Z.max 0 (Z.min 255 (Lf r + A c - C)).
(** The four subblock modes that are assembled; [edge] runs from bottom left to
    the end of the row above. *)
Definition edge (A Lf : Z -> Z) (C j : Z) : Z := if j =? 0 then C else if 0 <? j then A (j - 1) else Lf (Z.min 3 (- j - 1)).
Definition part (mode : Z) (A Lf : Z -> Z) (C c r : Z) : Z :=
  let E := edge A Lf C in
  let L' i := Lf (Z.min 3 i) in
  if mode =? B_DC_PRED then (total 4 A + total 4 Lf + 4) / 8
  else if mode =? B_TM_PRED then Z.max 0 (Z.min 255 (Lf r + A c - C))
  else if mode =? B_HD_PRED then
    if 2 * r - c <? -1 then mean3 (E (c - 2)) (E (c - 1)) (E c)
    else if c mod 2 =? 0 then mean2 (E (c / 2 - r - 1)) (E (c / 2 - r))
    else mean3 (E (c / 2 - r - 1)) (E (c / 2 - r)) (E (c / 2 - r + 1))
  else if c mod 2 =? 0 then mean2 (L' (r + c / 2)) (L' (r + c / 2 + 1))
  else mean3 (L' (r + c / 2)) (L' (r + c / 2 + 1)) (L' (r + c / 2 + 2)).
Definition assembled (mode : Z) : Prop := mode = B_DC_PRED \/ mode = B_TM_PRED \/ mode = B_HD_PRED \/ mode = B_HU_PRED.

(** The storage of a Predictors, the block in the segment [d], and what movdqa
    asks for; only the widest ones use it. *)
Definition fits (L : layout) (size : Z) (d : nat) (o st : Z) (a l : nat) : Prop :=
  extent L a = 16 + 2 * size /\ extent L l = size /\ l <> d /\ size <= st /\ 0 <= o /\ o + (size - 1) * st + size <= extent L d /\
  (size = 16 -> base L a mod 16 = 0 /\ base L l mod 16 = 0 /\ (base L d + o) mod 16 = 0 /\ st mod 16 = 0).

(** ** Proof *)

Lemma laid_block : forall m d o st w f rs m', laid m d o st w f rs m' ->
  (forall r, 0 <= r < Z.of_nat w -> In r rs) -> (forall r, In r rs -> 0 <= r < Z.of_nat w) ->
  (forall r c, 0 <= r < Z.of_nat w -> 0 <= c < Z.of_nat w -> m' d (o + r * st + c) = f r c) /\
  (forall s a, s <> d \/ ~ in_rows o st (Z.of_nat w) (Z.of_nat w) a -> m' s a = m s a).
Proof.
  intros m d o st w f rs m' [F1 F2] I1 I2. split.
  - intros r c Hr Hc. apply F1; [apply I1, Hr|exact Hc].
  - intros s a O. apply F2. destruct O as [O|O]; [left; exact O|right]. intros r c I C E. apply O. exists r, c. auto.
Qed.
Lemma all4 : forall r, 0 <= r < 4 -> In r [3; 2; 1; 0].
Proof. intros r H. cbn. lia. Qed.
Lemma all8 : forall r, 0 <= r < 8 -> In r [7; 6; 5; 4; 3; 2; 1; 0].
Proof. intros r H. cbn. lia. Qed.
Lemma all16 : forall r, 0 <= r < 16 -> In r [15; 14; 13; 12; 11; 10; 9; 8; 7; 6; 5; 4; 3; 2; 1; 0].
Proof. intros r H. cbn. lia. Qed.

Lemma sum_total4 : forall m s o, sum_at m s o 4 = total 4 (fun i => m s (o + i)).
Proof. intros. rewrite total4. unfold sum_at. cbn. ring. Qed.
Lemma sum_total8 : forall m s o, sum_at m s o 8 = total 8 (fun i => m s (o + i)).
Proof. intros. unfold total. change (zseq 8) with [0; 1; 2; 3; 4; 5; 6; 7]. unfold sum_at. cbn. ring. Qed.
Lemma sum_total16 : forall m s o o', o' = o + 8 -> sum_at m s o 8 + sum_at m s o' 8 = total 16 (fun i => m s (o + i)).
Proof.
  intros m s o o' ->. unfold total. change (zseq 16) with [0; 1; 2; 3; 4; 5; 6; 7; 8; 9; 10; 11; 12; 13; 14; 15]. unfold sum_at. cbn [seq map fold_right fold_left].
  repeat match goal with |- context [o + 8 + Z.of_nat ?k] => replace (o + 8 + Z.of_nat k) with (o + Z.of_nat (8 + k)) by lia end.
  cbn [Nat.add]. change (Z.of_nat 0) with 0. change (Z.of_nat 1) with 1. change (Z.of_nat 2) with 2. change (Z.of_nat 3) with 3.
  change (Z.of_nat 4) with 4. change (Z.of_nat 5) with 5. change (Z.of_nat 6) with 6. change (Z.of_nat 7) with 7.
  change (Z.of_nat 8) with 8. change (Z.of_nat 9) with 9. change (Z.of_nat 10) with 10. change (Z.of_nat 11) with 11.
  change (Z.of_nat 12) with 12. change (Z.of_nat 13) with 13. change (Z.of_nat 14) with 14. change (Z.of_nat 15) with 15. ring.
Qed.

Lemma mod16 : forall z, z mod 16 = 0 -> exists q, z = 16 * q.
Proof. intros z H. exists (z / 16). pose proof (Z.div_mod z 16 ltac:(lia)). lia. Qed.

(** One predictor does what a mode asks for. *)
Definition meets (x : list Z) (L : layout) (size column row mode : Z) (d : nat) (o st : Z) (a l : nat) (m : nat -> Z -> Z) : Prop :=
  exists code rs, block_code size column row mode = Some code /\
    predicts x L d o st a l m code (Z.to_nat size) rs
      (fun r c => whole size mode (negb (row =? 0)) (negb (column =? 0)) (fun i => m a (16 + i)) (m l) (m a 15) c r) /\
    (forall r, 0 <= r < size -> In r rs) /\ (forall r, In r rs -> 0 <= r < size).
Lemma pick : forall rs code f w x L size column row mode d o st a l m,
  predicts x L d o st a l m code w rs f -> Z.to_nat size = w ->
  (forall r, 0 <= r < size -> In r rs) -> (forall r, In r rs -> 0 <= r < size) ->
  block_code size column row mode = Some code ->
  (forall r c, f r c = whole size mode (negb (row =? 0)) (negb (column =? 0)) (fun i => m a (16 + i)) (m l) (m a 15) c r) ->
  meets x L size column row mode d o st a l m.
Proof.
  intros rs code f w x L size column row mode d o st a l m (m' & E' & F) <- I1 I2 E X. exists code, rs. split; [exact E|]. split; [|split; assumption].
  exists m'. split; [exact E'|]. apply (laid_ext _ _ _ _ _ _ _ _ _ F). intros r c _ _. apply X.
Qed.
Lemma code_dc : forall size column row, block_code size column row DC_PRED = Some (dc_code size column row).
Proof. reflexivity. Qed.
Lemma dc_which : forall size column row, 0 <= column -> 0 <= row -> dc_code size column row =
  match negb (row =? 0), negb (column =? 0) with
  | true, true => by_size size dc_4 dc_8 dc_16
  | true, false => by_size size (dc_side_4 false) (dc_side_8 false) (dc_side_16 false)
  | false, true => by_size size (dc_side_4 true) (dc_side_8 true) (dc_side_16 true)
  | false, false => by_size size dc_128_4 dc_128_8 dc_128_16
  end.
Proof.
  intros size column row Hc Hr. unfold dc_code. replace (0 <? row) with (negb (row =? 0)) by lia. replace (0 <? column) with (negb (column =? 0)) by lia.
  destruct (column =? 0), (row =? 0); reflexivity.
Qed.
Ltac chosen H all := eapply pick; [apply H; assumption|reflexivity|exact all|intros ? I; cbn in I; lia|..].

Lemma block_4 : forall x L column row mode d o st a l m,
  block_mode mode -> 0 <= column -> 0 <= row -> bytes_ok m -> fits L 4 d o st a l -> meets x L 4 column row mode d o st a l m.
Proof.
  intros x L column row mode d o st a l m Md Hc Hr Bm (Ea & El & N & Ss & O1 & O2 & _).
  change (16 + 2 * 4) with 24 in Ea. change (4 - 1) with 3 in O2.
  destruct Md as [-> |[-> |[-> | ->]]].
  - destruct (negb (row =? 0)) eqn:Er, (negb (column =? 0)) eqn:Ec;
    [ chosen dc_4_ok all4 | chosen (dc_side_4_ok x L d o st a l m false) all4
    | chosen (dc_side_4_ok x L d o st a l m true) all4 | chosen dc_128_4_ok all4 ].
    1, 3, 5, 7: rewrite code_dc, dc_which, Er, Ec by assumption; reflexivity.
    all: intros r c; rewrite Er, Ec, ?sum_total4; reflexivity.
  - chosen v_4_ok all4; reflexivity.
  - chosen h_4_ok all4; reflexivity.
  - chosen tm_4_ok all4; [reflexivity|]. intros r c. apply clamp255_spec.
Qed.
Lemma block_8 : forall x L column row mode d o st a l m,
  block_mode mode -> 0 <= column -> 0 <= row -> bytes_ok m -> fits L 8 d o st a l -> meets x L 8 column row mode d o st a l m.
Proof.
  intros x L column row mode d o st a l m Md Hc Hr Bm (Ea & El & N & Ss & O1 & O2 & _).
  change (16 + 2 * 8) with 32 in Ea. change (8 - 1) with 7 in O2.
  destruct Md as [-> |[-> |[-> | ->]]].
  - destruct (negb (row =? 0)) eqn:Er, (negb (column =? 0)) eqn:Ec;
    [ chosen dc_8_ok all8 | chosen (dc_side_8_ok x L d o st a l m false) all8
    | chosen (dc_side_8_ok x L d o st a l m true) all8 | chosen dc_128_8_ok all8 ].
    1, 3, 5, 7: rewrite code_dc, dc_which, Er, Ec by assumption; reflexivity.
    all: intros r c; rewrite Er, Ec, ?sum_total8; reflexivity.
  - chosen v_8_ok all8; reflexivity.
  - chosen h_8_ok all8; reflexivity.
  - chosen tm_8_ok all8; [reflexivity|]. intros r c. apply clamp255_spec.
Qed.
Lemma all16' : forall r, 0 <= r < 16 -> In r [15; 7; 14; 6; 13; 5; 12; 4; 11; 3; 10; 2; 9; 1; 8; 0].
Proof. intros r H. cbn. lia. Qed.
Ltac value16 m l := unfold whole; change (DC_PRED =? DC_PRED) with true; cbv iota beta; change (2 * 16) with 32; change (16 / 2) with 8;
  change (fun i => m l (0 + i)) with (m l); reflexivity.
Lemma block_16 : forall x L column row mode d o st a l m,
  block_mode mode -> 0 <= column -> 0 <= row -> length x = 16%nat -> bytes_ok m -> fits L 16 d o st a l -> meets x L 16 column row mode d o st a l m.
Proof.
  intros x L column row mode d o st a l m Md Hc Hr Lx Bm (Ea & El & N & Ss & O1 & O2 & Al).
  change (16 + 2 * 16) with 48 in Ea. change (16 - 1) with 15 in O2.
  destruct (Al eq_refl) as (A1 & A2 & A3 & A4). apply mod16 in A1 as (q1 & A1), A2 as (q2 & A2), A3 as (q3 & A3), A4 as (q4 & A4).
  destruct Md as [-> |[-> |[-> | ->]]].
  - destruct (negb (row =? 0)) eqn:Er, (negb (column =? 0)) eqn:Ec;
    [ chosen (dc_16_ok x L d o st a l m q1 q2 q3 q4) all16
    | chosen (dc_side_16_ok x L d o st a l m false q1 q2 q3 q4) all16
    | chosen (dc_side_16_ok x L d o st a l m true q1 q2 q3 q4) all16
    | chosen (dc_128_16_ok x L d o st a l m q3 q4) all16 ].
    1, 3, 5, 7: rewrite code_dc, dc_which, Er, Ec by assumption; reflexivity.
    all: intros r c; rewrite Er, Ec.
    + replace (sum_at m a 16 8 + sum_at m l 0 8 + (sum_at m a 24 8 + sum_at m l 8 8)) with ((sum_at m a 16 8 + sum_at m a 24 8) + (sum_at m l 0 8 + sum_at m l 8 8)) by ring.
      rewrite (sum_total16 m a 16 24), (sum_total16 m l 0 8) by reflexivity. value16 m l.
    + rewrite (sum_total16 m a 16 24) by reflexivity. value16 m l.
    + rewrite (sum_total16 m l 0 8) by reflexivity. value16 m l.
    + reflexivity.
  - chosen (v_16_ok x L d o st a l m q1 q3 q4) all16; reflexivity.
  - chosen (h_16_ok x L d o st a l m q3 q4) all16; reflexivity.
  - chosen (tm_16_ok x L d o st a l m q1 q2 q3 q4) all16'; [reflexivity|]. intros r c. apply clamp255_spec.
Qed.

Lemma part_hu : forall (A Lf : Z -> Z) C r c, (forall i, 0 <= i < 4 -> byte_ok (Lf i)) -> 0 <= r < 4 -> 0 <= c < 4 ->
  nth (Z.to_nat (2 * r + c)) (hu_list Lf) 0 = part B_HU_PRED A Lf C c r.
Proof.
  intros A Lf C r c B Hr Hc.
  pose proof (B 0 ltac:(lia)). pose proof (B 1 ltac:(lia)). pose proof (B 2 ltac:(lia)). pose proof (B 3 ltac:(lia)).
  assert (Same : forall v, byte_ok v -> v = mean3 v v v /\ v = mean2 v v) by (unfold byte_ok, mean3, mean2; intros; lia).
  destruct (lt4 r Hr) as [-> |[-> |[-> | ->]]], (lt4 c Hc) as [-> |[-> |[-> | ->]]]; cbn -[avg3 mean3 avg2 mean2];
    first [apply avg3_mean; assumption|apply avg2_mean; assumption|apply Same; assumption].
Qed.
Lemma part_hd : forall m a l r c, bytes_ok m -> 0 <= r < 4 -> 0 <= c < 4 ->
  nth (Z.to_nat (2 * (3 - r) + c)) (hd_list (east_at m a l)) 0 = part B_HD_PRED (fun i => m a (16 + i)) (m l) (m a 15) c r.
Proof.
  intros m a l r c Bm Hr Hc. assert (B : forall s i, byte_ok (m s i)) by (intros s i; pose proof (Bm s i); unfold byte_ok; lia).
  destruct (lt4 r Hr) as [-> |[-> |[-> | ->]]], (lt4 c Hc) as [-> |[-> |[-> | ->]]]; cbn -[avg3 mean3 avg2 mean2 east_at edge];
    unfold edge; cbn -[avg3 mean3 avg2 mean2]; first [apply avg3_mean; apply B|apply avg2_mean; apply B].
Qed.

(** ** Theorems *)

(** Whole blocks from memory to memory, for any content [x] of the registers. *)
Theorem C76_block :
  forall x L size column row mode d o st a l m,
  block_size size -> block_mode mode -> 0 <= column -> 0 <= row -> length x = 16%nat -> bytes_ok m -> fits L size d o st a l ->
  exists code m', block_code size column row mode = Some code /\ predictor_call x L code d o st a l m = Some m' /\
    (forall r c, 0 <= r < size -> 0 <= c < size ->
       m' d (o + r * st + c) = whole size mode (0 <? row) (0 <? column) (fun i => m a (16 + i)) (m l) (m a 15) c r) /\
    (forall s b, s <> d \/ ~ in_rows o st size size b -> m' s b = m s b).
Proof.
  intros x L size column row mode d o st a l m Sz Md Hc Hr Lx Bm Ft.
  replace (0 <? row) with (negb (row =? 0)) by lia. replace (0 <? column) with (negb (column =? 0)) by lia.
  assert (M : meets x L size column row mode d o st a l m).
  { destruct Sz as [-> |[-> | ->]]; [apply block_4|apply block_8|apply block_16]; assumption. }
  destruct M as (code & rs & E & (m' & Ec & F) & I1 & I2). exists code, m'. split; [exact E|]. split; [exact Ec|].
  assert (P : Z.of_nat (Z.to_nat size) = size) by (unfold block_size in Sz; lia).
  destruct (laid_block _ _ _ _ _ _ _ _ F) as [G1 G2]; rewrite P in *; [assumption|assumption|]. split; assumption.
Qed.

(** Subblocks. *)
Theorem C76_subblock :
  forall x L mode d o st a l m,
  assembled mode -> bytes_ok m -> fits L 4 d o st a l ->
  exists code m', sub_code mode = Some code /\ predictor_call x L code d o st a l m = Some m' /\
    (forall r c, 0 <= r < 4 -> 0 <= c < 4 -> m' d (o + r * st + c) = part mode (fun i => m a (16 + i)) (m l) (m a 15) c r) /\
    (forall s b, s <> d \/ ~ in_rows o st 4 4 b -> m' s b = m s b).
Proof.
  intros x L mode d o st a l m Md Bm (Ea & El & N & Ss & O1 & O2 & _).
  change (16 + 2 * 4) with 24 in Ea. change (4 - 1) with 3 in O2.
  assert (B : forall i, 0 <= i < 4 -> byte_ok (m l i)) by (intros i _; pose proof (Bm l i); unfold byte_ok; lia).
  assert (G : forall code f rs, sub_code mode = Some code -> predicts x L d o st a l m code 4 rs f -> (forall r, 0 <= r < 4 -> In r rs) -> (forall r, In r rs -> 0 <= r < 4) ->
    (forall r c, 0 <= r < 4 -> 0 <= c < 4 -> f r c = part mode (fun i => m a (16 + i)) (m l) (m a 15) c r) ->
    exists code m', sub_code mode = Some code /\ predictor_call x L code d o st a l m = Some m' /\
    (forall r c, 0 <= r < 4 -> 0 <= c < 4 -> m' d (o + r * st + c) = part mode (fun i => m a (16 + i)) (m l) (m a 15) c r) /\
    (forall s b, s <> d \/ ~ in_rows o st 4 4 b -> m' s b = m s b)).
  { intros code f rs E (m' & Ec & F) I1 I2 X. exists code, m'. split; [exact E|]. split; [exact Ec|].
    destruct (laid_block _ _ _ _ _ _ _ _ F) as [G1 G2]; [exact I1|exact I2|]. split; [|exact G2].
    intros r c Hr Hc. rewrite G1 by assumption. apply X; assumption. }
  destruct Md as [-> |[-> |[-> | ->]]].
  - eapply G; [reflexivity|apply dc_4_ok; assumption|exact all4|intros r I; cbn in I; lia|]. intros r c _ _. rewrite !sum_total4. reflexivity.
  - eapply G; [reflexivity|apply tm_4_ok; assumption|exact all4|intros r I; cbn in I; lia|]. intros r c _ _. apply clamp255_spec.
  - eapply G; [reflexivity|apply d153_4_ok; assumption|intros r I; cbn; lia|intros r I; cbn in I; lia|]. intros r c Hr Hc. apply part_hd; assumption.
  - eapply G; [reflexivity|apply d207_4_ok; assumption|exact all4|intros r I; cbn in I; lia|]. intros r c Hr Hc. apply part_hu; assumption.
Qed.

(** The Predictors of the block at (x0, y0) in memory. *)
Definition around (m : nat -> Z -> Z) (a l : nat) (n : Z) (p : plane) (x0 y0 : Z) : Prop :=
  (forall i, 0 <= i < n -> m a (16 + i) = row_above p x0 y0 i) /\ (forall i, 0 <= i < n -> m l i = col_left p x0 y0 i) /\
  m a 15 = bordered p (x0 - 1) (y0 - 1).

Lemma total_ext : forall n f g, (forall i, 0 <= i < n -> f i = g i) -> total n f = total n g.
Proof. intros n f g H. unfold total. f_equal. apply map_ext_in. intros i I. apply H, zseq_in, I. Qed.
Lemma block_here : forall size x0 y0 p, plane_ok p -> 0 < size -> 0 <= x0 -> 0 <= y0 -> x0 + size <= pl_w p -> y0 + size <= pl_h p ->
  0 <= y0 * pl_w p + x0 /\ y0 * pl_w p + x0 + (size - 1) * pl_w p + size <= pl_w p * pl_h p.
Proof. intros size x0 y0 p Hp S X Y W H. assert ((y0 + size - 1) * pl_w p <= (pl_h p - 1) * pl_w p) by nia. split; nia. Qed.
(** A plane whose block has been replaced. *)
Lemma holds_block : forall m m' d p p' size x0 y0 f, plane_ok p -> holds m d p -> same_dims p' p -> 0 < size ->
  0 <= x0 -> 0 <= y0 -> x0 + size <= pl_w p -> y0 + size <= pl_h p ->
  (forall r c, 0 <= r < size -> 0 <= c < size -> m' d (y0 * pl_w p + x0 + r * pl_w p + c) = f c r) ->
  (forall s b, s <> d \/ ~ in_rows (y0 * pl_w p + x0) (pl_w p) size size b -> m' s b = m s b) ->
  (forall x y, inside p x y = true -> at_px p' x y = if in_block x0 y0 size x y then f (x - x0) (y - y0) else at_px p x y) ->
  holds m' d p'.
Proof.
  intros m m' d p p' size x0 y0 f Hp Hd [Dw Dh] S X Y W H In Out At x y I.
  assert (I' : inside p x y = true) by (apply inside_iff; apply inside_iff in I; rewrite Dw, Dh in I; exact I).
  rewrite Dw, At by exact I'. apply inside_iff in I'. unfold in_block.
  destruct ((x0 <=? x) && (x <? x0 + size) && (y0 <=? y) && (y <? y0 + size)) eqn:B.
  - rewrite <- In by lia. f_equal. ring.
  - rewrite Out; [apply Hd, inside_iff, I'|]. right. intros (r & c & Hr & Hc & E).
    assert (y = y0 + r) by (clear - E I' Hr Hc X Y W H; nia). subst y.
    assert (x = x0 + c) by (clear - E; nia). lia.
Qed.

(** Both builds leave the same plane: luma and chroma macroblocks. *)
Theorem C76_same_plane :
  forall x L size column row mode p d a l m,
  size = 8 \/ size = 16 -> plane_ok p -> block_mode mode ->
  0 <= column -> 0 <= row -> size * (column + 1) <= pl_w p -> size * (row + 1) <= pl_h p ->
  length x = 16%nat -> bytes_ok m -> holds m d p -> around m a l size p (size * column) (size * row) ->
  extent L a = 16 + 2 * size -> extent L l = size -> pl_w p * pl_h p <= extent L d -> l <> d ->
  (size = 16 -> base L a mod 16 = 0 /\ base L l mod 16 = 0 /\ base L d mod 16 = 0 /\ pl_w p mod 16 = 0) ->
  exists code m' p', block_code size column row mode = Some code /\
    predictor_call x L code d (size * row * pl_w p + size * column) (pl_w p) a l m = Some m' /\
    intra_predict size column row mode p = Some p' /\ holds m' d p' /\ plane_ok p' /\ same_dims p' p /\
    forall s b, s <> d -> m' s b = m s b.
Proof.
  intros x L size column row mode p d a l m Sz Hp Md Hc Hr Hw Hh Lx Bm Hd (Ra & Rl & Rc) Ea El Ed N Al.
  assert (S : 0 < size) by lia. assert (X0 : 0 <= size * column) by nia. assert (Y0 : 0 <= size * row) by nia.
  destruct (block_here size (size * column) (size * row) p Hp S X0 Y0 ltac:(lia) ltac:(lia)) as [O1 O2].
  destruct (C53_block size column row mode p Sz Hp Md Hc Hr Hw Hh) as (p' & Ep & Hp' & Dm & At).
  destruct (C76_block x L size column row mode d (size * row * pl_w p + size * column) (pl_w p) a l m) as (code & m' & E & Ec & In & Out); try assumption.
  { unfold block_size. lia. }
  { unfold fits. do 6 (split; [assumption || lia|]). intros E16. destruct (Al E16) as (A1 & A2 & A3 & A4). do 2 (split; [assumption|]). split; [|assumption].
    rewrite E16. apply mod16 in A3 as (q & ->). replace (16 * q + (16 * row * pl_w p + 16 * column)) with ((q + row * pl_w p + column) * 16) by ring. apply Z.mod_mul. lia. }
  exists code, m', p'. split; [exact E|]. split; [exact Ec|]. split; [exact Ep|]. split; [|split; [exact Hp'|split; [exact Dm|]]].
  - apply (holds_block m m' d p p' size (size * column) (size * row) (block_spec size mode p (size * column) (size * row))); try assumption; try lia.
    intros r c Ir Ic. rewrite In by assumption. unfold whole, block_spec. cbv zeta.
    rewrite (total_ext size (fun i => m a (16 + i)) _ Ra), (total_ext size (m l) _ Rl), Ra, Rl, Rc by assumption.
    replace (size * column =? 0) with (negb (0 <? column)) by nia. replace (size * row =? 0) with (negb (0 <? row)) by nia.
    destruct (mode =? DC_PRED); [|reflexivity]. destruct (0 <? row), (0 <? column); reflexivity.
  - intros s b Ns. apply Out. left. exact Ns.
Qed.

(** And 4x4 subblocks. *)
Theorem C76_same_subblock :
  forall x L column row mode p d a l m,
  plane_ok p -> pl_w p mod 16 = 0 -> assembled mode ->
  0 <= column -> 0 <= row -> 4 * (column + 1) <= pl_w p -> 4 * (row + 1) <= pl_h p ->
  bytes_ok m -> holds m d p -> around m a l 4 p (4 * column) (4 * row) ->
  extent L a = 24 -> extent L l = 4 -> pl_w p * pl_h p <= extent L d -> l <> d ->
  exists code m' p', sub_code mode = Some code /\
    predictor_call x L code d (4 * row * pl_w p + 4 * column) (pl_w p) a l m = Some m' /\
    intra_predict 4 column row mode p = Some p' /\ holds m' d p' /\ plane_ok p' /\ same_dims p' p /\
    forall s b, s <> d -> m' s b = m s b.
Proof.
  intros x L column row mode p d a l m Hp H16 Md Hc Hr Hw Hh Bm Hd (Ra & Rl & Rc) Ea El Ed N.
  destruct (block_here 4 (4 * column) (4 * row) p Hp ltac:(lia) ltac:(lia) ltac:(lia) ltac:(lia) ltac:(lia)) as [O1 O2].
  assert (Sm : sub_mode mode) by (unfold assembled, sub_mode, B_DC_PRED, B_TM_PRED, B_HD_PRED, B_HU_PRED in *; lia).
  destruct (C53_subblock column row mode p Hp H16 Sm Hc Hr Hw Hh) as (p' & Ep & Hp' & Dm & At).
  destruct (C76_subblock x L mode d (4 * row * pl_w p + 4 * column) (pl_w p) a l m Md Bm) as (code & m' & E & Ec & In & Out).
  { unfold fits. do 6 (split; [assumption || lia|]). lia. }
  exists code, m', p'. split; [exact E|]. split; [exact Ec|]. split; [exact Ep|]. split; [|split; [exact Hp'|split; [exact Dm|]]].
  - apply (holds_block m m' d p p' 4 (4 * column) (4 * row) (sub_spec mode p (4 * column) (4 * row))); try assumption; try lia.
    intros r c Ir Ic. rewrite In by assumption.
    assert (Ra' : forall i, 0 <= i < 4 -> m a (16 + i) = row_above8 p (4 * column) (4 * row) i).
    { intros i I. rewrite Ra by exact I. unfold row_above8. replace (i <? 4) with true by lia. reflexivity. }
    clear Ra. pose proof (Ra' 0 ltac:(lia)) as Q0. pose proof (Ra' 1 ltac:(lia)) as Q1. pose proof (Ra' 2 ltac:(lia)) as Q2.
    change (16 + 0) with 16 in Q0. change (16 + 1) with 17 in Q1. change (16 + 2) with 18 in Q2. clear Ep At In Out O1 O2 Ec Hw Hh.
    set (x0 := 4 * column) in *. set (y0 := 4 * row) in *. clearbody x0 y0.
    unfold part, sub_spec, edge. cbv zeta.
    destruct Md as [-> |[-> |[-> | ->]]]; cbn [Z.eqb Pos.eqb B_DC_PRED B_TM_PRED B_VE_PRED B_HE_PRED B_LD_PRED B_RD_PRED B_VR_PRED B_VL_PRED B_HD_PRED B_HU_PRED].
    + rewrite !total4, !Ra', !Rl by lia. reflexivity.
    + rewrite Ra', Rl, Rc by lia. replace (Z.min 3 r) with r by lia. reflexivity.
    + destruct (lt4 r Ir) as [-> |[-> |[-> | ->]]], (lt4 c Ic) as [-> |[-> |[-> | ->]]]; cbn -[mean3 mean2 col_left row_above8 bordered];
        rewrite ?Rl, ?Rc, ?Q0, ?Q1, ?Q2 by lia; reflexivity.
    + destruct (lt4 r Ir) as [-> |[-> |[-> | ->]]], (lt4 c Ic) as [-> |[-> |[-> | ->]]]; cbn -[mean3 mean2 col_left row_above8 bordered];
        rewrite ?Rl by lia; reflexivity.
  - intros s b Ns. apply Out. left. exact Ns.
Qed.

(** ** Examples *)

(** Memory with a plane (0) and the Predictors of a block (1 and 2); the rest is
    a pattern. *)
Definition with_plane (p : plane) (x0 y0 : Z) (s : nat) (b : Z) : Z :=
  match s with
  | O => nth (Z.to_nat b) (pl_px p) 0
  | 1%nat => if b =? 15 then bordered p (x0 - 1) (y0 - 1) else row_above p x0 y0 (b - 16)
  | _ => col_left p x0 y0 b
  end.
Definition seen (n : Z) (o : option (nat -> Z -> Z)) : list Z := match o with Some m => map (fun k => m O (Z.of_nat k)) (seq 0 (Z.to_nat n)) | None => [] end.
Definition same_as (n : Z) (code : option (list block)) (L : layout) (o st : Z) (m : nat -> Z -> Z) (p : option plane) : bool :=
  match code, p with
  | Some c, Some p => forallb (fun '(u, v) => u =? v) (combine (seen n (predictor_call (repeat 255 16) L c 0 o st 1 2 m)) (pl_px p)) && (zlen (pl_px p) =? n) &&
      (zlen (seen n (predictor_call (repeat 255 16) L c 0 o st 1 2 m)) =? n)
  | _, _ => false
  end.
Definition store16 (size : Z) : layout := mkLayout (fun s => match s with O => 256 | 1%nat => 16 + 2 * size | _ => size end) (fun _ => 32).

(** A true-motion block in which both ends of the range are cut off. *)
Example C76_block_example :
  let m s b := match s with O => 7 | 1%nat => if b =? 15 then 100 else (b * 37) mod 256 | _ => (b * 90) mod 256 end in
  fits (store16 8) 8 0 3 20 1 2 /\ length (repeat 255 16) = 16%nat /\
  match block_code 8 2 3 TM_PRED with
  | Some code =>
    let m' := predictor_call (repeat 255 16) (store16 8) code 0 3 20 1 2 m in
    row_of m' 0 (3 + 2 * 20) 9 = [160; 197; 234; 255; 255; 89; 126; 163; 7] /\ row_of m' 0 (3 + 20) 8 = [70; 107; 144; 181; 218; 0; 36; 73]
  | None => False end.
Proof.
  cbv zeta. split; [unfold fits, store16; cbn; repeat split; try lia; discriminate|]. split; [reflexivity|]. vm_compute. repeat split.
Qed.
(** Means of the three kinds, from a register that held ones. *)
Example C76_means_example :
  let p := dotted_plane 0 16 16 in
  forallb (fun '(c, r) => same_as 256 (block_code 8 c r DC_PRED) (store16 8) (8 * r * 16 + 8 * c) 16 (with_plane p (8 * c) (8 * r)) (intra_predict 8 c r DC_PRED p))
    [(0, 0); (1, 0); (0, 1); (1, 1)] = true.
Proof. vm_compute. reflexivity. Qed.
Example C76_same_plane_example :
  let p := dotted_plane 0 16 16 in
  same_as 256 (block_code 16 0 0 H_PRED) (store16 16) 0 16 (with_plane p 0 0) (intra_predict 16 0 0 H_PRED p) = true /\
  same_as 256 (block_code 8 1 1 TM_PRED) (store16 8) (8 * 16 + 8) 16 (with_plane p 8 8) (intra_predict 8 1 1 TM_PRED p) = true.
Proof. vm_compute. split; reflexivity. Qed.
Example C76_subblock_example :
  let m s b := match s with O => 7 | 1%nat => if b =? 15 then 100 else (b * 37) mod 256 | _ => (b * 90 + 5) mod 256 end in
  fits (store16 4) 4 0 1 9 1 2 /\
  match sub_code B_HU_PRED with
  | Some code => row_of (predictor_call [] (store16 4) code 0 1 9 1 2 m) 0 (1 + 9) 4 = [140; 121; 102; 61]
  | None => False end.
Proof. cbv zeta. split; [unfold fits, store16; cbn; repeat split; try lia; discriminate|]. vm_compute. reflexivity. Qed.
Example C76_same_subblock_example :
  let p := dotted_plane 0 16 16 in
  forallb (fun mode => same_as 256 (sub_code mode) (store16 4) (8 * 16 + 4) 16 (with_plane p 4 8) (intra_predict 4 1 2 mode p)) [B_DC_PRED; B_TM_PRED; B_HD_PRED; B_HU_PRED] = true.
Proof. vm_compute. reflexivity. Qed.

Print Assumptions C76_block.
Print Assumptions C76_subblock.
Print Assumptions C76_same_plane.
Print Assumptions C76_same_subblock.
