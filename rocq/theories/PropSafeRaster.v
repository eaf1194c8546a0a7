(** C62: the encoder's copies of reference pictures with margins. *)
From Verif Require Import Base TreeModel MVModel FrameModel RasterModel RasterProofs PredictModel PredictProofs SafeRasterModel PropInter SafeRasterProofs.

(** ** Independent description *)

(** A picture whose displayed part is at most as large as its Y plane, by less
    than a macroblock. *)
Definition raster_dims (r : raster) : Prop :=
  shaped (ra_y r) /\
  0 < ra_dw r <= pl_w (ra_y r) /\ pl_w (ra_y r) < ra_dw r + 16 /\
  0 < ra_dh r <= pl_h (ra_y r) /\ pl_h (ra_y r) < ra_dh r + 16.

(** Reads up to [mw] pixels outside of the displayed part give the reference
    picture continued without end. *)
Definition shows (mw dw dh : Z) (ref safe : plane) : Prop :=
  forall x y, -mw <= x < dw + mw -> -mw <= y < dh + mw -> safe_at mw safe x y = Some (edge ref x y).

(** ** Proof *)
Lemma rows_done_shows mw dw dh ref p : 0 < mw -> pl_w p = dw + mw * 2 -> pl_h p = dh + mw * 2 ->
  rows_done mw ref p (pl_h p) -> shows mw dw dh ref p.
Proof.
  intros Hm Ew Eh R x y Hx Hy. unfold safe_at. replace ((mw + x <? 0) || (mw + y <? 0)) with false by lia.
  unfold pget. replace (inside p (mw + x) (mw + y)) with true by (symmetry; apply inside_iff; lia).
  unfold pix_index. rewrite R by lia. do 2 f_equal; lia.
Qed.
Lemma shows_praw mw dw dh ref p X Y : 0 < mw -> pl_w p = dw + mw * 2 -> pl_h p = dh + mw * 2 ->
  shows mw dw dh ref p -> -mw <= X < dw + mw -> -mw <= Y < dh + mw ->
  praw p ((mw + Y) * pl_w p + (mw + X)) = Some (edge ref X Y).
Proof.
  intros Hm Ew Eh H HX HY. specialize (H X Y HX HY). unfold safe_at in H.
  replace ((mw + X <? 0) || (mw + Y <? 0)) with false in H by lia. unfold pget in H.
  replace (inside p (mw + X) (mw + Y)) with true in H by (symmetry; apply inside_iff; lia).
  unfold praw. replace ((mw + Y) * pl_w p + (mw + X) <? 0) with false by nia. exact H.
Qed.

Lemma six_tap_ext f v w : (forall k, 0 <= k < 6 -> v k = w k) -> six_tap f v = six_tap f w.
Proof. intros H. unfold six_tap. rewrite !H by lia. reflexivity. Qed.

Lemma safe_predict_spec mw dw dh size column row m ref safe out :
  0 < mw -> 0 < size -> plane_ok ref -> pl_w safe = dw + mw * 2 -> pl_h safe = dh + mw * 2 -> shows mw dw dh ref safe ->
  let sc := column * size + fst m / 8 in let sr := row * size + snd m / 8 in
  -mw <= sc - 2 -> sc + size + 3 <= dw + mw -> -mw <= sr - 2 -> sr + size + 3 <= dh + mw ->
  safe_predict mw size column row m safe out =
  assign_block (size * column) (size * row)
    (fill_cells size (fun c r => displaced ref (fst m mod 8) (snd m mod 8) (sc + c) (sr + r))) out.
Proof.
  intros Hm Hs Hr Ew Eh H sc sr H1 H2 H3 H4. unfold safe_predict. rewrite !Z.shiftr_div_pow2 by lia. change (2 ^ 3) with 8.
  fold sc sr. rewrite !land7. clearbody sc sr.
  rewrite H by lia. cbn [obind].
  assert (P : forall X Y, -mw <= X < dw + mw -> -mw <= Y < dh + mw -> praw safe ((mw + Y) * pl_w safe + (mw + X)) = Some (edge ref X Y)).
  { intros. eapply shows_praw; eassumption. }
  set (stride := pl_w safe) in *. clearbody stride.
  destruct (filter_taps (fst m mod 8)) as [Fx Lx]. destruct (filter_taps (snd m mod 8)) as [Fy Ly]. rewrite Zmod_mod in Fx, Lx, Fy, Ly. rewrite Fx, Fy. cbn [obind].
  destruct (fst m mod 8 =? 0) eqn:Ex, (snd m mod 8 =? 0) eqn:Ey; cbn [andb negb].
  - apply predict_cells_assign. intros c r Hc Hr2.
    replace ((mw + sr) * stride + (mw + sc) + stride * r + c) with ((mw + (sr + r)) * stride + (mw + (sc + c))) by ring.
    rewrite P by lia. f_equal. rewrite displaced_whole by (try exact Hr; lia). f_equal; lia.
  - apply predict_cells_assign. intros c r Hc Hr2. unfold sse_vert.
    rewrite (six_tap_some _ _ (fun k => edge ref (sc + c) (sr + r + (k - 2))) Ly).
    + f_equal. rewrite tapped_rounded by exact Ly.
      rewrite (proj1 (C32_one_pass ref _ _ _ _ Hr)) by lia. rewrite Zmod_mod. f_equal. apply weighted_ext. intros j. f_equal; lia.
    + intros k Hk. replace ((mw + sr) * stride + (mw + sc) - 2 * stride + (stride * (r + k) + c)) with ((mw + (sr + r + (k - 2))) * stride + (mw + (sc + c))) by ring.
      apply P; lia.
  - apply predict_cells_assign. intros c r Hc Hr2. unfold sse_horiz.
    rewrite (six_tap_some _ _ (fun k => edge ref (sc + c + (k - 2)) (sr + r)) Lx).
    + f_equal. rewrite tapped_rounded by exact Lx.
      rewrite (proj2 (C32_one_pass ref _ _ _ _ Hr)) by lia. rewrite Zmod_mod. f_equal. apply weighted_ext. intros i. f_equal; lia.
    + intros k Hk. replace ((mw + sr) * stride + (mw + sc) + (stride * r + c + (k - 2))) with ((mw + (sr + r)) * stride + (mw + (sc + c + (k - 2)))) by ring.
      apply P; lia.
  - destruct (two_pass size (fst m) (snd m) (fun x y => praw safe ((mw + (sr + y - 2)) * stride + (mw + (sc + x - 2)))) (fun x y => edge ref (sc + x - 2) (sr + y - 2)) Hs)
      as (mid & G & _ & Q); [intros x y Hx Hy; apply P; lia|].
    assert (G' : grid size (size + 5) (sse_horiz (taps (fst m mod 8)) (fun i => praw safe ((mw + sr) * stride + (mw + sc) - 2 * stride + i)) stride) = Some mid).
    { rewrite <- G. apply grid_ext. intros c r. apply six_tap_ext. intros k Hk. f_equal. ring. }
    rewrite G'. cbn [obind]. apply predict_cells_assign. intros c r Hc Hr2. unfold sse_vert.
    rewrite (six_tap_ext _ _ (fun k => nth_error (concat mid) (Z.to_nat (size * r + c + size * k)))).
    + rewrite Q by assumption. f_equal.
      unfold displaced. rewrite !Zmod_mod. f_equal. apply weighted_ext. intros j. f_equal. apply weighted_ext. intros i. f_equal; lia.
    + intros k Hk. replace (size * (r + k) + c <? 0) with false by nia. do 2 f_equal. ring.
Qed.

(** ** Theorems *)

(** If the displayed width is the width of the Y plane, the copy succeeds in an
    allocation of exactly the size that is asked for, whatever it held before,
    and shows the reference picture continued without end. The displayed height
    may be smaller than that of the Y plane. *)
Theorem C62_load :
  forall r old, raster_dims r -> ra_dw r = pl_w (ra_y r) ->
  zlen old = (ra_dw r + 512) * (ra_dh r + 512) ->
  exists safe, load MARGIN_WIDTH r old = Some safe /\ shaped safe /\
    pl_w safe = ra_dw r + 512 /\ pl_h safe = ra_dh r + 512 /\
    shows MARGIN_WIDTH (ra_dw r) (ra_dh r) (ra_y r) safe.
Proof.
  intros r old (Hs & Hw & Hw' & Hh & Hh') E L. unfold load, safe_dims, MARGIN_WIDTH.
  set (safe := mkPlane (ra_dw r + 256 * 2) (ra_dh r + 256 * 2) old).
  destruct (copy_raster_some 256 (ra_y r) ltac:(lia) Hs safe) as (p & C & D & Zl & R & _); cbn [safe pl_w pl_h pl_px] in *; try lia.
  exists p. split; [exact C|]. destruct D as [D1 D2]. cbn [safe pl_w pl_h pl_px] in D1, D2. split.
  - unfold shaped. rewrite Zl, D1, D2. cbn [safe pl_w pl_h pl_px]. lia.
  - split; [lia|]. split; [lia|]. apply rows_done_shows; try lia. rewrite D2. exact R.
Qed.

(** The constructor from a picture takes the dimensions of the Y plane, and
    succeeds for every picture. *)
Theorem C62_construct :
  forall r old, raster_dims r ->
  zlen old = (pl_w (ra_y r) + 512) * (pl_h (ra_y r) + 512) ->
  exists safe, safe_of MARGIN_WIDTH r old = Some safe /\ shaped safe /\
    pl_w safe = pl_w (ra_y r) + 512 /\ pl_h safe = pl_h (ra_y r) + 512 /\
    shows MARGIN_WIDTH (pl_w (ra_y r)) (pl_h (ra_y r)) (ra_y r) safe.
Proof.
  intros r old (Hs & Hw & Hw' & Hh & Hh') L. unfold safe_of, safe_dims, MARGIN_WIDTH.
  set (safe := mkPlane (pl_w (ra_y r) + 256 * 2) (pl_h (ra_y r) + 256 * 2) old).
  destruct (copy_raster_some 256 (ra_y r) ltac:(lia) Hs safe) as (p & C & D & Zl & R & _); cbn [safe pl_w pl_h pl_px] in *; try lia.
  exists p. split; [exact C|]. destruct D as [D1 D2]. cbn [safe pl_w pl_h pl_px] in D1, D2. split.
  - unfold shaped. rewrite Zl, D1, D2. cbn [safe pl_w pl_h pl_px]. lia.
  - split; [lia|]. split; [lia|]. apply rows_done_shows; try lia. rewrite D2. exact R.
Qed.

(** Any other width: the last row is written past the end of the allocation, by
    exactly the difference of the two widths. If the allocation happens to be
    followed by that many bytes, nothing else after it changes and all reads
    are right. *)
Theorem C62_overrun :
  forall r old slack, raster_dims r -> 0 <= slack ->
  zlen old = (ra_dw r + 512) * (ra_dh r + 512) + slack ->
  let over := pl_w (ra_y r) - ra_dw r in
  (load MARGIN_WIDTH r old = None <-> slack < over) /\
  (forall safe, load MARGIN_WIDTH r old = Some safe ->
     shows MARGIN_WIDTH (ra_dw r) (ra_dh r) (ra_y r) safe /\
     forall i, (ra_dw r + 512) * (ra_dh r + 512) + over <= i -> nth_error (pl_px safe) (Z.to_nat i) = nth_error old (Z.to_nat i)).
Proof.
  intros r old slack (Hs & Hw & Hw' & Hh & Hh') Hk L over. unfold load, safe_dims, MARGIN_WIDTH.
  set (safe := mkPlane (ra_dw r + 256 * 2) (ra_dh r + 256 * 2) old).
  destruct (slack <? over) eqn:K.
  - rewrite (copy_raster_none 256 (ra_y r) ltac:(lia) safe) by (cbn [safe pl_w pl_h pl_px]; lia). split; [split; [lia|reflexivity]|]. intros s F. discriminate F.
  - destruct (copy_raster_some 256 (ra_y r) ltac:(lia) Hs safe) as (p & C & D & Zl & R & N); cbn [safe pl_w pl_h pl_px] in *; try lia.
    rewrite C. split; [split; [discriminate|lia]|]. intros s F. injection F as <-. destruct D as [D1 D2]. cbn [safe pl_w pl_h pl_px] in D1, D2. split.
    + apply rows_done_shows; try lia. rewrite D2. exact R.
    + intros i Hi. apply N. lia.
Qed.

(** So the copy is not safe for every picture: one of 24 by 16 pixels. *)
Theorem C62_every_width_refuted :
  ~ (forall r old, raster_dims r -> zlen old = (ra_dw r + 512) * (ra_dh r + 512) -> load MARGIN_WIDTH r old <> None).
Proof.
  intros H. set (r := mkRaster 24 16 (blank_plane 32 16) (blank_plane 16 8) (blank_plane 16 8)).
  assert (D : raster_dims r) by (unfold raster_dims; cbn [ra_y ra_dw ra_dh r blank_plane pl_w pl_h]; split; [apply shaped_blank; lia|lia]).
  set (old := repeat 0 (Z.to_nat (536 * 528))).
  assert (L : zlen old = (ra_dw r + 512) * (ra_dh r + 512) + 0) by (unfold old; rewrite zlen_repeat by lia; reflexivity).
  apply (H r old D); [rewrite L; apply Z.add_0_r|].
  apply (proj1 (C62_overrun r old 0 D ltac:(lia) L)). cbn [ra_y ra_dw r blank_plane pl_w]. lia.
Qed.

(** Prediction from the copy is that of the decoder: whenever the pixels that
    the filters read (two before and three after the block) are in the
    margins, it does not fail and gives the same picture. *)
Theorem C62_predict :
  forall r safe column row m out,
  raster_dims r -> plane_ok (ra_y r) -> plane_ok out -> same_dims (ra_y r) out -> mv_int16 m ->
  pl_w safe = ra_dw r + 512 -> pl_h safe = ra_dh r + 512 ->
  shows MARGIN_WIDTH (ra_dw r) (ra_dh r) (ra_y r) safe ->
  0 <= column -> 0 <= row -> 16 * (column + 1) <= pl_w out -> 16 * (row + 1) <= pl_h out ->
  pl_w out <= 2 ^ 30 -> pl_h out <= 2 ^ 30 ->
  -254 <= 16 * column + fst m / 8 <= ra_dw r + 237 -> -254 <= 16 * row + snd m / 8 <= ra_dh r + 237 ->
  exists out', safe_predict MARGIN_WIDTH 16 column row m safe out = Some out' /\
               inter_predict 16 column row m (ra_y r) out = Some out'.
Proof.
  intros r safe column row m out Hd Hr Ho Hsd Hm Ew Eh H Hc Hrow Hw Hh Bw Bh Bx By.
  destruct (C32_inter_predict 16 column row m (ra_y r) out) as (o & E & Ok & Od & At); try assumption; [right; right; reflexivity|].
  rewrite (safe_predict_spec MARGIN_WIDTH (ra_dw r) (ra_dh r) 16 column row m (ra_y r) safe out); unfold MARGIN_WIDTH in *; try assumption; try lia.
  destruct (assign_covers 16 _ _ (16 * column) (16 * row) out (covers_fill 16 (fun c r0 => displaced (ra_y r) (fst m mod 8) (snd m mod 8) (column * 16 + fst m / 8 + c) (row * 16 + snd m / 8 + r0))) Ho)
    as (p & A1 & A2 & A3 & A4); try lia; [intros; apply displaced_byte|].
  exists p. split; [exact A1|]. rewrite E. f_equal. apply plane_ext; [apply Ok|apply A2|eapply same_dims_trans; [exact Od|apply same_dims_sym, A3]|].
  intros x y I. assert (I' : inside out x y = true) by (rewrite <- I; symmetry; apply inside_dims, Od).
  rewrite At, A4 by exact I'. destruct (in_block _ _ _ x y); [|reflexivity].
  unfold displaced. rewrite !Zmod_mod. f_equal. apply weighted_ext. intros j. f_equal. apply weighted_ext. intros i.
  rewrite !(Z.div_small (_ mod 8)) by lia. f_equal; lia.
Qed.

(** A picture of 4 by 2 of which 3 by 2 are displayed, margins of 2: with the
    allocation of 7 by 6 bytes the copy fails; one byte more and all rows are
    right (the last byte is the one past the end). *)
Definition small_raster (dw : Z) : raster := mkRaster dw 2 (mkPlane 4 2 [1; 2; 3; 4; 5; 6; 7; 8]) (blank_plane 2 1) (blank_plane 2 1).
Example C62_example :
  load 2 (small_raster 3) (repeat 9 42) = None /\
  option_map pl_px (load 2 (small_raster 3) (repeat 9 43)) =
    Some [1; 1; 1; 2; 3; 4; 4;  1; 1; 1; 2; 3; 4; 4;  1; 1; 1; 2; 3; 4; 4;
          5; 5; 5; 6; 7; 8; 8;  5; 5; 5; 6; 7; 8; 8;  5; 5; 5; 6; 7; 8; 8;  8] /\
  option_map pl_px (load 2 (small_raster 4) (repeat 9 48)) =
    Some [1; 1; 1; 2; 3; 4; 4; 4;  1; 1; 1; 2; 3; 4; 4; 4;  1; 1; 1; 2; 3; 4; 4; 4;
          5; 5; 5; 6; 7; 8; 8; 8;  5; 5; 5; 6; 7; 8; 8; 8;  5; 5; 5; 6; 7; 8; 8; 8].
Proof. repeat split; vm_compute; reflexivity. Qed.

(** The hypotheses of the theorems: pictures of 24 by 10 (padded to 32 by 16)
    and of 32 by 10. *)
Example C62_dims_example : raster_dims (blank_raster 24 10) /\ raster_dims (blank_raster 32 10) /\
  ra_dw (blank_raster 32 10) = pl_w (ra_y (blank_raster 32 10)) /\ ra_dw (blank_raster 24 10) <> pl_w (ra_y (blank_raster 24 10)).
Proof. unfold raster_dims, shaped. repeat split; vm_compute; reflexivity || discriminate. Qed.

(** Prediction of blocks of 4 from a copy with margins of 6, with vectors that
    take each of the four paths, and one that leaves the margins. *)
Definition small_ref : plane := Eval vm_compute in ramp 8 4.
Definition small_safe : option plane := Eval vm_compute in copy_raster 6 small_ref (blank_plane 20 16).
Definition by_copy (m : mv) : option plane :=
  match small_safe with Some s => safe_predict 6 4 1 0 m s (blank_plane 8 4) | None => None end.
Example C62_predict_example :
  map by_copy [(8, -16); (-13, 8); (16, 3); (-33, 21)] =
  map (fun m => inter_predict 4 1 0 m small_ref (blank_plane 8 4)) [(8, -16); (-13, 8); (16, 3); (-33, 21)] /\
  map (fun m => match by_copy m with Some p => at_px p 4 0 | None => -1 end) [(8, -16); (-13, 8); (16, 3); (-128, 0)] = [35; 30; 46; -1].
Proof. split; vm_compute; reflexivity. Qed.

Print Assumptions C62_load.
Print Assumptions C62_construct.
Print Assumptions C62_overrun.
Print Assumptions C62_every_width_refuted.
Print Assumptions C62_predict.
