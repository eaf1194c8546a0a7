(** C53: intra prediction. *)
From Verif Require Import Base TreeModel MVModel FrameModel RasterModel RasterProofs PredictModel PredictProofs PropInter.

(** ** Independent description *)

(** The picture with its border: 127 above it, 129 to the left of it. *)
Definition bordered (p : plane) (x y : Z) : Z := if y <? 0 then 127 else if x <? 0 then 129 else at_px p x y.

(** Row above, column to the left and corner of the block at (x0, y0). *)
Definition row_above (p : plane) (x0 y0 i : Z) : Z := bordered p (x0 + i) (y0 - 1).
Definition col_left (p : plane) (x0 y0 i : Z) : Z := bordered p (x0 - 1) (y0 + i).

(** The row above a 4x4 block continues to the right of the block.  In the
    last column of a macroblock it is the row above the macroblock; beyond
    the right edge of the picture the last pixel repeats. *)
Definition row_above8 (p : plane) (x0 y0 i : Z) : Z :=
  if i <? 4 then row_above p x0 y0 i
  else bordered p (Z.min (x0 + i) (pl_w p - 1)) ((if x0 mod 16 =? 12 then y0 / 16 * 16 else y0) - 1).

Definition total (n : Z) (f : Z -> Z) : Z := fold_left Z.add (map f (zseq n)) 0.
Definition mean3 (x y z : Z) : Z := (x + 2 * y + z + 2) / 4.
Definition mean2 (x y : Z) : Z := (x + y + 1) / 2.

(** Whole blocks: value at column c, row r. *)
Definition block_spec (n mode : Z) (p : plane) (x0 y0 c r : Z) : Z :=
  let A := row_above p x0 y0 in
  let L := col_left p x0 y0 in
  if mode =? DC_PRED then
    if (x0 =? 0) && (y0 =? 0) then 128
    else if y0 =? 0 then (total n L + n / 2) / n
    else if x0 =? 0 then (total n A + n / 2) / n
    else (total n A + total n L + n) / (2 * n)
  else if mode =? V_PRED then A c
  else if mode =? H_PRED then L r
  else Z.max 0 (Z.min 255 (L r + A c - bordered p (x0 - 1) (y0 - 1))).

(** 4x4 blocks. [E]: the pixels around the block from bottom left (-4) over
    the corner (0) to top right (8). *)
Definition sub_spec (mode : Z) (p : plane) (x0 y0 c r : Z) : Z :=
  let A := row_above8 p x0 y0 in
  let L i := col_left p x0 y0 (Z.min 3 i) in
  let E j := if j =? 0 then bordered p (x0 - 1) (y0 - 1) else if 0 <? j then A (j - 1) else L (- j - 1) in
  if mode =? B_DC_PRED then (total 4 A + total 4 L + 4) / 8
  else if mode =? B_TM_PRED then Z.max 0 (Z.min 255 (L r + A c - E 0))
  else if mode =? B_VE_PRED then mean3 (E c) (E (c + 1)) (E (c + 2))
  else if mode =? B_HE_PRED then mean3 (E (- r)) (E (- r - 1)) (L (r + 1))
  else if mode =? B_LD_PRED then mean3 (A (c + r)) (A (c + r + 1)) (A (Z.min 7 (c + r + 2)))
  else if mode =? B_RD_PRED then mean3 (E (c - r - 1)) (E (c - r)) (E (c - r + 1))
  else if mode =? B_VR_PRED then
    let j := c - r / 2 in
    if 2 * c - r <? -1 then mean3 (E (- r)) (E (1 - r)) (E (2 - r))
    else if r mod 2 =? 0 then mean2 (E j) (E (j + 1))
    else mean3 (E (j - 1)) (E j) (E (j + 1))
  else if mode =? B_VL_PRED then
    let j := c + r / 2 in
    if (c =? 3) && (2 <=? r) then mean3 (A (c + r - 1)) (A (c + r)) (A (c + r + 1))
    else if r mod 2 =? 0 then mean2 (A j) (A (j + 1))
    else mean3 (A j) (A (j + 1)) (A (j + 2))
  else if mode =? B_HD_PRED then
    let j := c / 2 - r in
    if 2 * r - c <? -1 then mean3 (E (c - 2)) (E (c - 1)) (E c)
    else if c mod 2 =? 0 then mean2 (E (j - 1)) (E j)
    else mean3 (E (j - 1)) (E j) (E (j + 1))
  else
    let j := r + c / 2 in
    if c mod 2 =? 0 then mean2 (L j) (L (j + 1))
    else mean3 (L j) (L (j + 1)) (L (j + 2)).

Definition block_mode (mode : Z) : Prop := mode = DC_PRED \/ mode = V_PRED \/ mode = H_PRED \/ mode = TM_PRED.
Definition sub_mode (mode : Z) : Prop := B_DC_PRED <= mode <= B_HU_PRED.

(** ** Predictors *)
Lemma bordered_byte p x y : plane_ok p -> x < pl_w p -> y < pl_h p -> byte_ok (bordered p x y).
Proof.
  intros Hp Hx Hy. unfold bordered. destruct (y <? 0) eqn:?; [unfold byte_ok; lia|]. destruct (x <? 0) eqn:?; [unfold byte_ok; lia|].
  apply at_px_byte; [exact Hp|apply inside_iff; lia].
Qed.
Lemma repeat_zseq (v n : Z) : repeat v (Z.to_nat n) = map (fun _ => v) (zseq n).
Proof.
  unfold zseq. rewrite map_map. generalize 0%nat. induction (Z.to_nat n) as [|k IH]; intros s; cbn; [reflexivity|].
  f_equal. apply IH.
Qed.
Lemma map_zseq_ext {B} (f g : Z -> B) n : (forall i, 0 <= i < n -> f i = g i) -> map f (zseq n) = map g (zseq n).
Proof. intros H. apply map_ext_in. intros i Hi. apply H, zseq_in, Hi. Qed.

Lemma left_part size column row p : block_size size -> shaped p -> 0 <= column -> 0 <= row ->
  size * (column + 1) <= pl_w p -> size * (row + 1) <= pl_h p ->
  (if 0 <? column then omap (fun i => pget p (size * column - 1) (size * row + i)) (zseq size) else Some (repeat 129 (Z.to_nat size)))
  = Some (map (col_left p (size * column) (size * row)) (zseq size)).
Proof.
  intros Hs Hp Hc Hr Hw Hh. assert (4 <= size) by (unfold block_size in Hs; lia).
  assert (0 <= size * row) by (apply Z.mul_nonneg_nonneg; lia).
  destruct (0 <? column) eqn:E.
  - assert (size <= size * column) by nia. apply omap_zseq. intros i Hi. unfold col_left, bordered.
    replace (size * row + i <? 0) with false by lia. replace (size * column - 1 <? 0) with false by lia.
    apply pget_some; [exact Hp|apply inside_iff; lia].
  - rewrite repeat_zseq. f_equal. apply map_zseq_ext. intros i Hi. assert (column = 0) as -> by lia. unfold col_left, bordered.
    replace (size * row + i <? 0) with false by lia. replace (size * 0 - 1 <? 0) with true by lia. reflexivity.
Qed.
Lemma above_part size column row p : block_size size -> shaped p -> 0 <= column -> 0 <= row ->
  size * (column + 1) <= pl_w p -> size * (row + 1) <= pl_h p ->
  (if 0 <? row then read_run p (size * column) (size * row - 1) size else Some (repeat 127 (Z.to_nat size)))
  = Some (map (row_above p (size * column) (size * row)) (zseq size)).
Proof.
  intros Hs Hp Hc Hr Hw Hh. assert (4 <= size) by (unfold block_size in Hs; lia).
  assert (0 <= size * column) by (apply Z.mul_nonneg_nonneg; lia).
  destruct (0 <? row) eqn:E.
  - assert (size <= size * row) by nia. rewrite read_run_some by (try exact Hp; lia).
    f_equal. apply map_zseq_ext. intros i Hi. unfold row_above, bordered.
    replace (size * row - 1 <? 0) with false by lia. replace (size * column + i <? 0) with false by lia. reflexivity.
  - rewrite repeat_zseq. f_equal. apply map_zseq_ext. intros i Hi. assert (row = 0) as -> by lia. unfold row_above, bordered.
    replace (size * 0 - 1 <? 0) with true by lia. reflexivity.
Qed.
Lemma corner_part size column row p : block_size size -> shaped p -> 0 <= column -> 0 <= row ->
  size * (column + 1) <= pl_w p -> size * (row + 1) <= pl_h p ->
  (if (0 <? column) && (0 <? row) then pget p (size * column - 1) (size * row - 1) else if 0 <? row then Some 129 else Some 127)
  = Some (bordered p (size * column - 1) (size * row - 1)).
Proof.
  intros Hs Hp Hc Hr Hw Hh. assert (4 <= size) by (unfold block_size in Hs; lia). unfold bordered.
  destruct (0 <? row) eqn:E.
  - assert (size <= size * row) by nia. replace (size * row - 1 <? 0) with false by lia.
    destruct (0 <? column) eqn:F; cbn [andb].
    + assert (size <= size * column) by nia. replace (size * column - 1 <? 0) with false by lia. apply pget_some; [exact Hp|apply inside_iff; lia].
    + assert (column = 0) as -> by lia. replace (size * 0 - 1 <? 0) with true by lia. reflexivity.
  - rewrite andb_false_r. assert (row = 0) as -> by lia. replace (size * 0 - 1 <? 0) with true by lia. reflexivity.
Qed.

Lemma predictors_block size column row p : size = 8 \/ size = 16 -> shaped p -> 0 <= column -> 0 <= row ->
  size * (column + 1) <= pl_w p -> size * (row + 1) <= pl_h p ->
  get_predictors size column row p =
  Some (mkPred (map (col_left p (size * column) (size * row)) (zseq size))
               (bordered p (size * column - 1) (size * row - 1))
               (map (row_above p (size * column) (size * row)) (zseq size))).
Proof.
  intros Hs Hp Hc Hr Hw Hh. unfold get_predictors. assert (block_size size) by (unfold block_size; lia).
  rewrite left_part, above_part, corner_part by assumption. cbn [obind].
  replace (size =? 4) with false by lia. reflexivity.
Qed.

Lemma predictors_sub column row p : shaped p -> 0 <= column -> 0 <= row -> pl_w p mod 16 = 0 ->
  4 * (column + 1) <= pl_w p -> 4 * (row + 1) <= pl_h p ->
  get_predictors 4 column row p =
  Some (mkPred (map (col_left p (4 * column) (4 * row)) (zseq 4))
               (bordered p (4 * column - 1) (4 * row - 1))
               (map (row_above8 p (4 * column) (4 * row)) (zseq 8))).
Proof.
  intros Hp Hc Hr H16 Hw Hh. unfold get_predictors. assert (block_size 4) by (unfold block_size; lia).
  rewrite left_part, above_part, corner_part by assumption. cbn [obind].
  change (4 =? 4) with true. cbn [negb].
  assert (R : (if row =? 0 then Some (repeat 127 (Z.to_nat 4))
       else if pl_w p <=? 4 * (column + 1) then
         if 4 <=? row then let? v := pget p (4 * (column + 1) - 1) (4 * ((row / 4) * 4) - 1) in Some (repeat v (Z.to_nat 4))
         else Some (repeat 127 (Z.to_nat 4))
       else if (column mod 4 =? 3) && negb (row mod 4 =? 0) then
         if 4 <=? row then read_run p (4 * (column + 1)) (4 * ((row / 4) * 4) - 1) 4
         else Some (repeat 127 (Z.to_nat 4))
       else read_run p (4 * (column + 1)) (4 * row - 1) 4) =
       Some (map (fun i => row_above8 p (4 * column) (4 * row) (4 + i)) (zseq 4))).
  { assert (P : forall i, 0 <= i < 4 -> row_above8 p (4 * column) (4 * row) (4 + i) =
        bordered p (Z.min (4 * column + (4 + i)) (pl_w p - 1)) ((if 4 * column mod 16 =? 12 then 4 * row / 16 * 16 else 4 * row) - 1)).
    { intros i Hi. unfold row_above8. replace (4 + i <? 4) with false by lia. reflexivity. }
    assert (M : (4 * column mod 16 =? 12) = (column mod 4 =? 3)) by (destruct (column mod 4 =? 3) eqn:?; lia).
    assert (D : 4 * row / 16 * 16 = 4 * ((row / 4) * 4)) by lia.
    assert (P' : forall i, 0 <= i < 4 -> row_above8 p (4 * column) (4 * row) (4 + i) =
        bordered p (Z.min (4 * column + (4 + i)) (pl_w p - 1)) ((if column mod 4 =? 3 then 4 * ((row / 4) * 4) else 4 * row) - 1)).
    { intros i Hi. rewrite P by exact Hi. rewrite M, D. reflexivity. }
    clear P M D.
    assert (F : forall v, (forall i, 0 <= i < 4 -> row_above8 p (4 * column) (4 * row) (4 + i) = v) ->
       Some (repeat v (Z.to_nat 4)) = Some (map (fun i => row_above8 p (4 * column) (4 * row) (4 + i)) (zseq 4))).
    { intros v Hv. rewrite repeat_zseq. f_equal. apply map_zseq_ext. intros i Hi. rewrite Hv by exact Hi. reflexivity. }
    destruct (row =? 0) eqn:R0.
    - apply F. intros i Hi. rewrite P' by exact Hi. assert (row = 0) as -> by lia. unfold bordered.
      replace ((if column mod 4 =? 3 then 4 * (0 / 4 * 4) else 4 * 0) - 1 <? 0) with true; [reflexivity|]. destruct (column mod 4 =? 3); reflexivity.
    - destruct (pl_w p <=? 4 * (column + 1)) eqn:RE.
      + assert (C3 : (column mod 4 =? 3) = true) by lia.
        destruct (4 <=? row) eqn:R4.
        * rewrite pget_some by (try exact Hp; apply inside_iff; lia). cbn [obind]. apply F. intros i Hi. rewrite P' by exact Hi. rewrite C3.
          unfold bordered. replace (4 * (row / 4 * 4) - 1 <? 0) with false by lia.
          replace (Z.min (4 * column + (4 + i)) (pl_w p - 1)) with (4 * (column + 1) - 1) by lia.
          replace (4 * (column + 1) - 1 <? 0) with false by lia. reflexivity.
        * apply F. intros i Hi. rewrite P' by exact Hi. rewrite C3. unfold bordered. replace (4 * (row / 4 * 4) - 1 <? 0) with true by lia. reflexivity.
      + assert (W4 : 4 * (column + 1) + 4 <= pl_w p) by lia.
        assert (G : forall y, 0 <= y < pl_h p -> (forall i, 0 <= i < 4 -> row_above8 p (4 * column) (4 * row) (4 + i) = bordered p (4 * column + (4 + i)) y) ->
            read_run p (4 * (column + 1)) y 4 = Some (map (fun i => row_above8 p (4 * column) (4 * row) (4 + i)) (zseq 4))).
        { intros y Hy Hb. rewrite read_run_some by (try exact Hp; lia). f_equal. apply map_zseq_ext. intros i Hi. rewrite Hb by exact Hi.
          unfold bordered. replace (y <? 0) with false by lia. replace (4 * column + (4 + i) <? 0) with false by lia. f_equal. lia. }
        destruct (column mod 4 =? 3) eqn:C3; cbn [andb].
        * destruct (row mod 4 =? 0) eqn:M4; cbn [negb].
          -- apply G; [lia|]. intros i Hi. rewrite P' by exact Hi. f_equal; lia.
          -- destruct (4 <=? row) eqn:R4.
             ++ apply G; [lia|]. intros i Hi. rewrite P' by exact Hi. f_equal; lia.
             ++ apply F. intros i Hi. rewrite P' by exact Hi. unfold bordered. replace (4 * (row / 4 * 4) - 1 <? 0) with true by lia. reflexivity.
        * apply G; [lia|]. intros i Hi. rewrite P' by exact Hi. f_equal; lia. }
  rewrite R. cbn [obind]. f_equal.
Qed.

(** ** Values *)
Lemma avg3_mean x y z : byte_ok x -> byte_ok y -> byte_ok z -> avg3 x y z = mean3 x y z.
Proof. unfold byte_ok, avg3, mean3, wrap. intros. rewrite Z.shiftr_div_pow2 by lia. change (2 ^ 2) with 4. change (2 ^ 8) with 256. apply Z.mod_small. lia. Qed.
Lemma avg2_mean x y : byte_ok x -> byte_ok y -> avg2 x y = mean2 x y.
Proof. unfold byte_ok, avg2, mean2, wrap. intros. rewrite Z.shiftr_div_pow2 by lia. change (2 ^ 1) with 2. change (2 ^ 8) with 256. apply Z.mod_small. lia. Qed.
Lemma mean3_byte x y z : byte_ok x -> byte_ok y -> byte_ok z -> byte_ok (mean3 x y z).
Proof. unfold byte_ok, mean3. intros. lia. Qed.
Lemma mean2_byte x y : byte_ok x -> byte_ok y -> byte_ok (mean2 x y).
Proof. unfold byte_ok, mean2. intros. lia. Qed.

Lemma fold_add_range l : forall s, (forall x, In x l -> byte_ok x) -> s <= fold_left Z.add l s <= s + 255 * zlen l.
Proof.
  unfold zlen. induction l as [|a l IH]; intros s H; cbn [fold_left length]; [lia|].
  assert (byte_ok a) as B by (apply H; left; reflexivity). unfold byte_ok in B.
  specialize (IH (s + a) (fun x Hx => H x (or_intror Hx))). lia.
Qed.
Lemma total_range n f : 0 <= n -> (forall i, 0 <= i < n -> byte_ok (f i)) -> 0 <= total n f <= 255 * n.
Proof.
  intros Hn H. unfold total. pose proof (fold_add_range (map f (zseq n)) 0) as R.
  assert (zlen (map f (zseq n)) = n) by (unfold zlen, zseq; rewrite !map_length, seq_length; lia).
  enough (0 <= fold_left Z.add (map f (zseq n)) 0 <= 0 + 255 * zlen (map f (zseq n))) by lia. apply R.
  intros x Hx. apply in_map_iff in Hx. destruct Hx as (i & <- & Hi). apply H, zseq_in, Hi.
Qed.

Lemma total4 f : total 4 f = f 0 + f 1 + f 2 + f 3.
Proof. unfold total. change (zseq 4) with [0; 1; 2; 3]. cbn [map fold_left]. lia. Qed.

Lemma lt4 c : 0 <= c < 4 -> c = 0 \/ c = 1 \/ c = 2 \/ c = 3.
Proof. lia. Qed.

(** The pixel lists of the 4x4 modes, for predictors [L], [C], [A]. *)
Lemma sub_pixels_spec mode (L A : Z -> Z) (C : Z) : sub_mode mode ->
  (forall i, 0 <= i < 4 -> byte_ok (L i)) -> (forall i, 0 <= i < 8 -> byte_ok (A i)) -> byte_ok C ->
  let L' i := L (Z.min 3 i) in
  let E j := if j =? 0 then C else if 0 <? j then A (j - 1) else L' (- j - 1) in
  exists l, sub_pixels mode (mkPred (map L (zseq 4)) C (map A (zseq 8))) = Some l /\
    covers 4 l (fun c r =>
      if mode =? B_DC_PRED then (total 4 A + total 4 L' + 4) / 8
      else if mode =? B_TM_PRED then Z.max 0 (Z.min 255 (L' r + A c - E 0))
      else if mode =? B_VE_PRED then mean3 (E c) (E (c + 1)) (E (c + 2))
      else if mode =? B_HE_PRED then mean3 (E (- r)) (E (- r - 1)) (L' (r + 1))
      else if mode =? B_LD_PRED then mean3 (A (c + r)) (A (c + r + 1)) (A (Z.min 7 (c + r + 2)))
      else if mode =? B_RD_PRED then mean3 (E (c - r - 1)) (E (c - r)) (E (c - r + 1))
      else if mode =? B_VR_PRED then
        let j := c - r / 2 in
        if 2 * c - r <? -1 then mean3 (E (- r)) (E (1 - r)) (E (2 - r))
        else if r mod 2 =? 0 then mean2 (E j) (E (j + 1))
        else mean3 (E (j - 1)) (E j) (E (j + 1))
      else if mode =? B_VL_PRED then
        let j := c + r / 2 in
        if (c =? 3) && (2 <=? r) then mean3 (A (c + r - 1)) (A (c + r)) (A (c + r + 1))
        else if r mod 2 =? 0 then mean2 (A j) (A (j + 1))
        else mean3 (A j) (A (j + 1)) (A (j + 2))
      else if mode =? B_HD_PRED then
        let j := c / 2 - r in
        if 2 * r - c <? -1 then mean3 (E (c - 2)) (E (c - 1)) (E c)
        else if c mod 2 =? 0 then mean2 (E (j - 1)) (E j)
        else mean3 (E (j - 1)) (E j) (E (j + 1))
      else
        let j := r + c / 2 in
        if c mod 2 =? 0 then mean2 (L' j) (L' (j + 1))
        else mean3 (L' j) (L' (j + 1)) (L' (j + 2))).
Proof.
  intros Hm HL HA HC.
  assert (L0 : byte_ok (L 0)) by (apply HL; lia). assert (L1 : byte_ok (L 1)) by (apply HL; lia).
  assert (L2 : byte_ok (L 2)) by (apply HL; lia). assert (L3 : byte_ok (L 3)) by (apply HL; lia).
  assert (A0 : byte_ok (A 0)) by (apply HA; lia). assert (A1 : byte_ok (A 1)) by (apply HA; lia).
  assert (A2 : byte_ok (A 2)) by (apply HA; lia). assert (A3 : byte_ok (A 3)) by (apply HA; lia).
  assert (A4 : byte_ok (A 4)) by (apply HA; lia). assert (A5 : byte_ok (A 5)) by (apply HA; lia).
  assert (A6 : byte_ok (A 6)) by (apply HA; lia). assert (A7 : byte_ok (A 7)) by (apply HA; lia).
  clear HL HA.
  unfold sub_mode in Hm.
  assert (M : mode = 0 \/ mode = 1 \/ mode = 2 \/ mode = 3 \/ mode = 4 \/ mode = 5 \/ mode = 6 \/ mode = 7 \/ mode = 8 \/ mode = 9)
    by (unfold B_DC_PRED, B_HU_PRED in Hm; lia).
  clear Hm. intros L' E.
  repeat (destruct M as [-> |M]); [..|subst mode]; eexists; (split; [reflexivity|]); subst E L';
    unfold B_DC_PRED, B_TM_PRED, B_VE_PRED, B_HE_PRED, B_LD_PRED, B_RD_PRED, B_VR_PRED, B_VL_PRED, B_HD_PRED.
  - split; [apply (covers_fill 4)|]. intros c r Hc Hr. rewrite (proj2 (covers_fill 4 _) c r Hc Hr). f_equal.
    cbn [Z.eqb Pos.eqb]. rewrite !total4. unfold dc_simple_value, sumz. cbn [pr_above pr_left].
    change (firstn (Z.to_nat 4) (map A (zseq 8))) with [A 0; A 1; A 2; A 3]. change (map L (zseq 4)) with [L 0; L 1; L 2; L 3]. cbn [fold_left].
    change (Z.min 3 0) with 0. change (Z.min 3 1) with 1. change (Z.min 3 2) with 2. change (Z.min 3 3) with 3.
    unfold byte_ok in *. assert (s16 (0 + A 0 + A 1 + A 2 + A 3) = A 0 + A 1 + A 2 + A 3) as -> by (unfold s16; lia).
    assert (s16 (0 + L 0 + L 1 + L 2 + L 3) = L 0 + L 1 + L 2 + L 3) as -> by (unfold s16; lia).
    change (log2size 4) with 2. change (Z.shiftl 1 2) with 4. change (2 + 1) with 3. rewrite Z.shiftr_div_pow2 by lia. change (2 ^ 3) with 8.
    unfold wrap. change (2 ^ 8) with 256. apply Z.mod_small. lia.
  - split; [apply (covers_fill 4)|]. intros c r Hc Hr. rewrite (proj2 (covers_fill 4 _) c r Hc Hr). f_equal.
    cbn [Z.eqb Pos.eqb]. unfold tm_value. cbn [pr_left pr_above pr_corner]. rewrite !nthz_zseq by lia. rewrite clamp255_spec. do 4 f_equal. f_equal. lia.
  - unfold ve_pixels; cbv zeta. split; [apply (covers_fill 4)|]. intros c r Hc Hr. rewrite (proj2 (covers_fill 4 _) c r Hc Hr). f_equal.
    destruct (lt4 c Hc) as [-> |[-> |[-> | ->]]]; cbn -[avg3 mean3]; apply avg3_mean; assumption.
  - unfold he_pixels; cbv zeta. split; [apply (covers_fill 4)|]. intros c r Hc Hr. rewrite (proj2 (covers_fill 4 _) c r Hc Hr). f_equal.
    destruct (lt4 r Hr) as [-> |[-> |[-> | ->]]]; cbn -[avg3 mean3]; apply avg3_mean; assumption.
  - split; [intros c r v H; cbn in H; repeat destruct H as [[= <- <- _]|H]; [..|contradiction]; lia|].
    intros c r Hc Hr. destruct (lt4 c Hc) as [-> |[-> |[-> | ->]]], (lt4 r Hr) as [-> |[-> |[-> | ->]]]; cbn -[avg3 mean3]; f_equal; apply avg3_mean; assumption.
  - split; [intros c r v H; cbn in H; repeat destruct H as [[= <- <- _]|H]; [..|contradiction]; lia|].
    intros c r Hc Hr. destruct (lt4 c Hc) as [-> |[-> |[-> | ->]]], (lt4 r Hr) as [-> |[-> |[-> | ->]]]; cbn -[avg3 mean3]; f_equal; apply avg3_mean; assumption.
  - split; [intros c r v H; cbn in H; repeat destruct H as [[= <- <- _]|H]; [..|contradiction]; lia|].
    intros c r Hc Hr. destruct (lt4 c Hc) as [-> |[-> |[-> | ->]]], (lt4 r Hr) as [-> |[-> |[-> | ->]]]; cbn -[avg3 mean3 avg2 mean2]; f_equal;
      first [apply avg3_mean; assumption|apply avg2_mean; assumption].
  - split; [intros c r v H; cbn in H; repeat destruct H as [[= <- <- _]|H]; [..|contradiction]; lia|].
    intros c r Hc Hr. destruct (lt4 c Hc) as [-> |[-> |[-> | ->]]], (lt4 r Hr) as [-> |[-> |[-> | ->]]]; cbn -[avg3 mean3 avg2 mean2]; f_equal;
      first [apply avg3_mean; assumption|apply avg2_mean; assumption].
  - split; [intros c r v H; cbn in H; repeat destruct H as [[= <- <- _]|H]; [..|contradiction]; lia|].
    intros c r Hc Hr. destruct (lt4 c Hc) as [-> |[-> |[-> | ->]]], (lt4 r Hr) as [-> |[-> |[-> | ->]]]; cbn -[avg3 mean3 avg2 mean2]; f_equal;
      first [apply avg3_mean; assumption|apply avg2_mean; assumption].
  - split; [intros c r v H; cbn in H; repeat destruct H as [[= <- <- _]|H]; [..|contradiction]; lia|].
    intros c r Hc Hr. destruct (lt4 c Hc) as [-> |[-> |[-> | ->]]], (lt4 r Hr) as [-> |[-> |[-> | ->]]]; cbn -[avg3 mean3 avg2 mean2]; f_equal;
      first [apply avg3_mean; assumption|apply avg2_mean; assumption|change (nth (Pos.to_nat 3) (map L (map Z.of_nat (seq 0 (Pos.to_nat 4)))) 0) with (L 3); unfold mean2, mean3, byte_ok in *; lia].
Qed.

Lemma block_pixels_spec size column row mode p : size = 8 \/ size = 16 -> plane_ok p -> block_mode mode ->
  0 <= column -> 0 <= row -> size * (column + 1) <= pl_w p -> size * (row + 1) <= pl_h p ->
  let x0 := size * column in
  let y0 := size * row in
  exists l, block_pixels size column row mode (mkPred (map (col_left p x0 y0) (zseq size)) (bordered p (x0 - 1) (y0 - 1)) (map (row_above p x0 y0) (zseq size))) = Some l /\
    covers size l (block_spec size mode p x0 y0).
Proof.
  intros Hs Hp Hm Hc Hr Hw Hh x0 y0.
  assert (X0 : 0 <= x0 /\ x0 + size <= pl_w p) by (subst x0; nia). assert (Y0 : 0 <= y0 /\ y0 + size <= pl_h p) by (subst y0; nia).
  assert (BA : forall i, 0 <= i < size -> byte_ok (row_above p x0 y0 i)) by (intros; apply bordered_byte; [exact Hp|lia|lia]).
  assert (BL : forall i, 0 <= i < size -> byte_ok (col_left p x0 y0 i)) by (intros; apply bordered_byte; [exact Hp|lia|lia]).
  assert (Hs0 : 0 <= size) by lia.
  pose proof (total_range size _ Hs0 BA) as TA. pose proof (total_range size _ Hs0 BL) as TL.
  assert (SA : sumz (firstn (Z.to_nat size) (map (row_above p x0 y0) (zseq size))) = total size (row_above p x0 y0)).
  { rewrite firstn_all2; [reflexivity|]. unfold zseq. rewrite !map_length, seq_length. lia. }
  assert (SL : sumz (map (col_left p x0 y0) (zseq size)) = total size (col_left p x0 y0)) by reflexivity.
  assert (CX : (column =? 0) = (x0 =? 0)) by (subst x0; destruct (column =? 0) eqn:?; nia).
  assert (CY : (row =? 0) = (y0 =? 0)) by (subst y0; destruct (row =? 0) eqn:?; nia).
  assert (S16 : forall z, 0 <= z <= 255 * size -> s16 z = z) by (intros z Hz; unfold s16; lia).
  unfold block_pixels, block_spec. destruct Hm as [-> |[-> |[-> | ->]]]; unfold DC_PRED, V_PRED, H_PRED, TM_PRED; cbn [Z.eqb Pos.eqb]; eexists; (split; [reflexivity|]).
  - split; [apply (covers_fill size)|]. intros c r Hc' Hr'. rewrite (proj2 (covers_fill size _) c r Hc' Hr'). f_equal.
    unfold dc_value, dc_simple_value. cbn [pr_above pr_left]. rewrite SA, SL, !S16 by assumption. rewrite CX, CY.
    replace (0 <? row) with (negb (y0 =? 0)) by lia. replace (0 <? column) with (negb (x0 =? 0)) by lia.
    generalize dependent (total size (row_above p x0 y0)). intros a Ha _. generalize dependent (total size (col_left p x0 y0)). intros b Hb _.
    clear BA BL S16 Hw Hh.
    destruct (x0 =? 0), (y0 =? 0); cbn [negb andb]; try reflexivity; unfold wrap; change (2 ^ 8) with 256; destruct Hs as [-> | ->];
      cbn [log2size Z.eqb Pos.eqb]; change (Z.shiftl 1 (3 - 1)) with 4; change (Z.shiftl 1 (4 - 1)) with 8; change (Z.shiftl 1 3) with 8; change (Z.shiftl 1 4) with 16;
      rewrite Z.shiftr_div_pow2 by lia; change (2 ^ 3) with 8; change (2 ^ 4) with 16; change (2 ^ (3 + 1)) with 16; change (2 ^ (4 + 1)) with 32;
      change (8 / 2) with 4; change (16 / 2) with 8; change (2 * 8) with 16; change (2 * 16) with 32; apply Z.mod_small; lia.
  - split; [apply (covers_fill size)|]. intros c r Hc' Hr'. rewrite (proj2 (covers_fill size _) c r Hc' Hr'). f_equal.
    cbn [pr_above]. apply nthz_zseq. lia.
  - split; [apply (covers_fill size)|]. intros c r Hc' Hr'. rewrite (proj2 (covers_fill size _) c r Hc' Hr'). f_equal.
    cbn [pr_left]. apply nthz_zseq. lia.
  - split; [apply (covers_fill size)|]. intros c r Hc' Hr'. rewrite (proj2 (covers_fill size _) c r Hc' Hr'). f_equal.
    unfold tm_value. cbn [pr_left pr_above pr_corner]. rewrite !nthz_zseq by lia. apply clamp255_spec.
Qed.

Lemma clip_byte x : byte_ok (Z.max 0 (Z.min 255 x)).
Proof. unfold byte_ok. lia. Qed.
Lemma block_spec_byte n mode p x0 y0 c r : n = 8 \/ n = 16 -> plane_ok p -> block_mode mode -> 0 <= c < n -> 0 <= r < n ->
  0 <= x0 -> 0 <= y0 -> x0 + n <= pl_w p -> y0 + n <= pl_h p -> byte_ok (block_spec n mode p x0 y0 c r).
Proof.
  intros Hn Hp Hm Hc Hr Hx Hy Hw Hh. assert (Hn0 : 0 <= n) by lia.
  assert (BA : forall i, 0 <= i < n -> byte_ok (row_above p x0 y0 i)) by (intros; apply bordered_byte; [exact Hp|lia|lia]).
  assert (BL : forall i, 0 <= i < n -> byte_ok (col_left p x0 y0 i)) by (intros; apply bordered_byte; [exact Hp|lia|lia]).
  pose proof (total_range n _ Hn0 BA) as TA. pose proof (total_range n _ Hn0 BL) as TL.
  unfold block_spec. destruct Hm as [-> |[-> |[-> | ->]]]; unfold DC_PRED, V_PRED, H_PRED, TM_PRED; cbn [Z.eqb Pos.eqb]; auto using clip_byte.
  generalize dependent (total n (row_above p x0 y0)). intros a Ha. generalize dependent (total n (col_left p x0 y0)). intros b Hb.
  destruct (x0 =? 0), (y0 =? 0); cbn [andb]; unfold byte_ok; destruct Hn as [-> | ->]; lia.
Qed.

(** ** Theorems *)

(** Whole luma (16) and chroma (8) blocks. *)
Theorem C53_block :
  forall size column row mode p,
  size = 8 \/ size = 16 -> plane_ok p -> block_mode mode ->
  0 <= column -> 0 <= row -> size * (column + 1) <= pl_w p -> size * (row + 1) <= pl_h p ->
  exists p', intra_predict size column row mode p = Some p' /\ plane_ok p' /\ same_dims p' p /\
    forall x y, inside p x y = true ->
      at_px p' x y =
      if in_block (size * column) (size * row) size x y
      then block_spec size mode p (size * column) (size * row) (x - size * column) (y - size * row)
      else at_px p x y.
Proof.
  intros size column row mode p Hs Hp Hm Hc Hr Hw Hh.
  unfold intra_predict. rewrite predictors_block by (try assumption; apply Hp). cbn [obind].
  replace (size =? 4) with false by lia.
  destruct (block_pixels_spec size column row mode p Hs Hp Hm Hc Hr Hw Hh) as (l & -> & Hl). cbn [obind].
  apply assign_covers; try assumption; try (apply Z.mul_nonneg_nonneg; lia); try lia.
  intros c r Hc' Hr'. apply block_spec_byte; try assumption; try (apply Z.mul_nonneg_nonneg; lia); lia.
Qed.

Lemma sub_parts_byte p x0 y0 : plane_ok p -> 0 <= x0 -> 0 <= y0 -> x0 + 4 <= pl_w p -> y0 + 4 <= pl_h p ->
  (forall i, 0 <= i < 4 -> byte_ok (col_left p x0 y0 i)) /\ (forall i, 0 <= i < 8 -> byte_ok (row_above8 p x0 y0 i)) /\ byte_ok (bordered p (x0 - 1) (y0 - 1)).
Proof.
  intros Hp Hx Hy Hw Hh. split; [|split].
  - intros i Hi. apply bordered_byte; [exact Hp|lia|lia].
  - intros i Hi. unfold row_above8. destruct (i <? 4) eqn:?; apply bordered_byte; try exact Hp; try lia.
    destruct (x0 mod 16 =? 12); lia.
  - apply bordered_byte; [exact Hp|lia|lia].
Qed.

Lemma sub_spec_byte mode p x0 y0 c r : plane_ok p -> sub_mode mode -> 0 <= c < 4 -> 0 <= r < 4 ->
  0 <= x0 -> 0 <= y0 -> x0 + 4 <= pl_w p -> y0 + 4 <= pl_h p -> byte_ok (sub_spec mode p x0 y0 c r).
Proof.
  intros Hp Hm Hc Hr Hx Hy Hw Hh.
  destruct (sub_parts_byte p x0 y0 Hp Hx Hy Hw Hh) as (BL & BA & BC).
  assert (BL' : forall i, 0 <= i -> byte_ok (col_left p x0 y0 (Z.min 3 i))) by (intros; apply BL; lia).
  set (E := fun j => if j =? 0 then bordered p (x0 - 1) (y0 - 1) else if 0 <? j then row_above8 p x0 y0 (j - 1) else col_left p x0 y0 (Z.min 3 (- j - 1))).
  assert (BE : forall j, j <= 8 -> byte_ok (E j)).
  { intros j Hj. unfold E. destruct (j =? 0) eqn:?; [exact BC|]. destruct (0 <? j) eqn:?; [apply BA; lia|apply BL'; lia]. }
  unfold sub_spec. fold E. cbv zeta.
  repeat match goal with |- byte_ok (if ?b then _ else _) => destruct b eqn:? end; auto using clip_byte;
    try (first [apply mean3_byte|apply mean2_byte]; first [apply BE; lia|apply BA; lia|apply BL'; lia]).
  rewrite !total4. pose proof (BA 0 ltac:(lia)). pose proof (BA 1 ltac:(lia)). pose proof (BA 2 ltac:(lia)). pose proof (BA 3 ltac:(lia)).
  pose proof (BL' 0 ltac:(lia)). pose proof (BL' 1 ltac:(lia)). pose proof (BL' 2 ltac:(lia)). pose proof (BL' 3 ltac:(lia)).
  clear BA BL BL' BE. clearbody E. unfold byte_ok in *. lia.
Qed.

(** 4x4 luma blocks. *)
Theorem C53_subblock :
  forall column row mode p,
  plane_ok p -> pl_w p mod 16 = 0 -> sub_mode mode ->
  0 <= column -> 0 <= row -> 4 * (column + 1) <= pl_w p -> 4 * (row + 1) <= pl_h p ->
  exists p', intra_predict 4 column row mode p = Some p' /\ plane_ok p' /\ same_dims p' p /\
    forall x y, inside p x y = true ->
      at_px p' x y =
      if in_block (4 * column) (4 * row) 4 x y
      then sub_spec mode p (4 * column) (4 * row) (x - 4 * column) (y - 4 * row)
      else at_px p x y.
Proof.
  intros column row mode p Hp H16 Hm Hc Hr Hw Hh.
  unfold intra_predict. rewrite predictors_sub by (try assumption; apply Hp). cbn [obind]. change (4 =? 4) with true. cbv iota.
  destruct (sub_parts_byte p (4 * column) (4 * row) Hp ltac:(lia) ltac:(lia) ltac:(lia) ltac:(lia)) as (BL & BA & BC).
  destruct (sub_pixels_spec mode _ _ _ Hm BL BA BC) as (l & -> & Hl). cbn [obind].
  apply (assign_covers 4 l (sub_spec mode p (4 * column) (4 * row))); try assumption; try lia.
  intros c r Hc' Hr'. apply sub_spec_byte; try assumption; lia.
Qed.

(** Modes that do not exist are refused. *)
Theorem C53_other_modes :
  forall size column row mode p,
  (size <> 4 -> ~ block_mode mode) -> (size = 4 -> ~ sub_mode mode) -> intra_predict size column row mode p = None.
Proof.
  intros size column row mode p H1 H2. unfold intra_predict. destruct (get_predictors size column row p) as [pr|]; [|reflexivity]. cbn [obind].
  destruct (size =? 4) eqn:E.
  - assert (N : ~ sub_mode mode) by (apply H2; lia). unfold sub_mode, B_DC_PRED, B_HU_PRED in N. unfold sub_pixels.
    unfold B_DC_PRED, B_TM_PRED, B_VE_PRED, B_HE_PRED, B_LD_PRED, B_RD_PRED, B_VR_PRED, B_VL_PRED, B_HD_PRED, B_HU_PRED.
    repeat (match goal with |- context [mode =? ?k] => destruct (mode =? k) eqn:?; [lia|] end). reflexivity.
  - assert (N : ~ block_mode mode) by (apply H1; lia). unfold block_mode in N. unfold block_pixels.
    repeat (match goal with |- context [mode =? ?k] => destruct (mode =? k) eqn:?; [lia|] end). reflexivity.
Qed.

(** The border and the four modes on a 16x16 picture; a B_LD_PRED block in the
    last column, second row of macroblocks. *)
Example C53_example :
  option_map (fun p => at_px p 3 3) (intra_predict 16 0 0 DC_PRED (ramp 16 16)) = Some 128 /\
  option_map (fun p => at_px p 3 3) (intra_predict 16 0 0 V_PRED (ramp 16 16)) = Some 127 /\
  option_map (fun p => at_px p 3 3) (intra_predict 16 0 0 H_PRED (ramp 16 16)) = Some 129 /\
  option_map (fun p => at_px p 3 3) (intra_predict 16 0 0 TM_PRED (ramp 16 16)) = Some 129 /\
  option_map (fun p => map (fun c => at_px p (12 + c) 20) (zseq 4)) (intra_predict 4 3 5 B_LD_PRED (ramp 16 32)) = Some [82; 89; 81; 57].
Proof. repeat split; vm_compute; reflexivity. Qed.

Print Assumptions C53_block.
Print Assumptions C53_subblock.
Print Assumptions C53_other_modes.
