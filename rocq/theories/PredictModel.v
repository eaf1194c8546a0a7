(** Intra and inter prediction. Sources: src/decoder/prediction.cc (portable
    branches), src/decoder/vp8_raster.hh. *)
From Verif Require Import Base TreeModel MVModel FrameModel RasterModel.

(** ** What surrounds a block *)

(** vp8_raster.hh l.72-84: left[ i ], above[ -1 ] and above[ i ]. Storage that
    predictors() does not fill is not part of the lists. *)
Record predictors : Type := mkPred { pr_left : list Z; pr_corner : Z; pr_above : list Z }.

(** memcpy from &at( x, y ): consecutive bytes of the storage. *)
Definition read_run (p : plane) (x y n : Z) : option (list Z) :=
  if inside p x y then omap (fun i => praw p (y * pl_w p + x + i)) (zseq n) else None.

(** prediction.cc l.99-167. *)
Definition get_predictors (size column row : Z) (p : plane) : option predictors :=
  let? lf := (if 0 <? column then omap (fun i => pget p (size * column - 1) (size * row + i)) (zseq size)
                else Some (repeat 129 (Z.to_nat size))) in
  let? ab := (if 0 <? row then read_run p (size * column) (size * row - 1) size
                 else Some (repeat 127 (Z.to_nat size))) in
  let? corner := (if (0 <? column) && (0 <? row) then pget p (size * column - 1) (size * row - 1)
                  else if 0 <? row then Some 129 else Some 127) in
  if negb (size =? 4) then Some (mkPred lf corner ab)
  else
    let fill v := repeat v (Z.to_nat size) in
    let above_mb := size * ((row / 4) * 4) - 1 in
    let? ri :=
      (if row =? 0 then Some (fill 127)
       else if pl_w p <=? size * (column + 1) then
         if 4 <=? row then let? v := pget p (size * (column + 1) - 1) above_mb in Some (fill v)
         else Some (fill 127)
       else if (column mod 4 =? 3) && negb (row mod 4 =? 0) then
         if 4 <=? row then read_run p (size * (column + 1)) above_mb size
         else Some (fill 127)
       else read_run p (size * (column + 1)) (size * row - 1) size) in
    Some (mkPred lf corner (ab ++ ri)).

Definition nthz (l : list Z) (i : Z) : Z := nth (Z.to_nat i) l 0.
Definition sumz (l : list Z) : Z := fold_left Z.add l 0.

(** ** Modes for whole blocks: the values assigned, as (column, row, value) *)

Definition fill_cells (size : Z) (f : Z -> Z -> Z) : list (Z * Z * Z) := map (fun '(c, r) => (c, r, f c r)) (cells size).

Definition log2size (size : Z) : Z := if size =? 4 then 2 else if size =? 8 then 3 else if size =? 16 then 4 else 0.

(** l.385-404; the sums are int16_t, the value uint8_t. *)
Definition dc_simple_value (size : Z) (pr : predictors) : Z :=
  let above_sum := s16 (sumz (firstn (Z.to_nat size) (pr_above pr))) in
  let left_sum := s16 (sumz (pr_left pr)) in
  wrap 8 (Z.shiftr (above_sum + left_sum + Z.shiftl 1 (log2size size)) (log2size size + 1)).
(** l.406-431. *)
Definition dc_value (size column row : Z) (pr : predictors) : Z :=
  let half := Z.shiftl 1 (log2size size - 1) in
  if negb (column =? 0) && negb (row =? 0) then dc_simple_value size pr
  else if 0 <? row then wrap 8 (Z.shiftr (s16 (sumz (firstn (Z.to_nat size) (pr_above pr))) + half) (log2size size))
  else if 0 <? column then wrap 8 (Z.shiftr (s16 (sumz (pr_left pr)) + half) (log2size size))
  else 128.

(** l.197-209. *)
Definition tm_value (pr : predictors) (c r : Z) : Z := clamp255 (nthz (pr_left pr) r + nthz (pr_above pr) c - pr_corner pr).

(** l.435-467; [None]: LogicError. *)
Definition block_pixels (size column row mode : Z) (pr : predictors) : option (list (Z * Z * Z)) :=
  if mode =? DC_PRED then Some (fill_cells size (fun _ _ => dc_value size column row pr))
  else if mode =? V_PRED then Some (fill_cells size (fun c _ => nthz (pr_above pr) c))
  else if mode =? H_PRED then Some (fill_cells size (fun _ r => nthz (pr_left pr) r))
  else if mode =? TM_PRED then Some (fill_cells size (tm_value pr))
  else None.

(** ** Modes for 4x4 blocks *)

(** l.469-477. *)
Definition avg3 (x y z : Z) : Z := wrap 8 (Z.shiftr (x + 2 * y + z + 2) 2).
Definition avg2 (x y : Z) : Z := wrap 8 (Z.shiftr (x + y + 1) 1).

(** vp8_raster.hh l.83; above[ -1 ] is the corner. *)
Definition above_at (pr : predictors) (i : Z) : Z := if i =? -1 then pr_corner pr else nthz (pr_above pr) i.
Definition east (pr : predictors) (i : Z) : Z := if i <=? 3 then nthz (pr_left pr) (3 - i) else above_at pr (i - 5).

(** l.479-487. *)
Definition ve_pixels (pr : predictors) : list (Z * Z * Z) :=
  let a := above_at pr in
  fill_cells 4 (fun c _ => nthz [avg3 (a (-1)) (a 0) (a 1); avg3 (a 0) (a 1) (a 2); avg3 (a 1) (a 2) (a 3); avg3 (a 2) (a 3) (a 4)] c).
(** l.489-498. *)
Definition he_pixels (pr : predictors) : list (Z * Z * Z) :=
  let l := nthz (pr_left pr) in
  fill_cells 4 (fun _ r => nthz [avg3 (pr_corner pr) (l 0) (l 1); avg3 (l 0) (l 1) (l 2); avg3 (l 1) (l 2) (l 3); avg3 (l 2) (l 3) (l 3)] r).
(** l.500-514. *)
Definition ld_pixels (pr : predictors) : list (Z * Z * Z) :=
  let a := above_at pr in
  [(0, 0, avg3 (a 0) (a 1) (a 2));
   (0, 1, avg3 (a 1) (a 2) (a 3)); (1, 0, avg3 (a 1) (a 2) (a 3));
   (0, 2, avg3 (a 2) (a 3) (a 4)); (1, 1, avg3 (a 2) (a 3) (a 4)); (2, 0, avg3 (a 2) (a 3) (a 4));
   (0, 3, avg3 (a 3) (a 4) (a 5)); (1, 2, avg3 (a 3) (a 4) (a 5)); (2, 1, avg3 (a 3) (a 4) (a 5)); (3, 0, avg3 (a 3) (a 4) (a 5));
   (1, 3, avg3 (a 4) (a 5) (a 6)); (2, 2, avg3 (a 4) (a 5) (a 6)); (3, 1, avg3 (a 4) (a 5) (a 6));
   (2, 3, avg3 (a 5) (a 6) (a 7)); (3, 2, avg3 (a 5) (a 6) (a 7));
   (3, 3, avg3 (a 6) (a 7) (a 7))].
(** l.516-527. *)
Definition rd_pixels (pr : predictors) : list (Z * Z * Z) :=
  let e := east pr in
  [(0, 3, avg3 (e 0) (e 1) (e 2));
   (0, 2, avg3 (e 1) (e 2) (e 3)); (1, 3, avg3 (e 1) (e 2) (e 3));
   (0, 1, avg3 (e 2) (e 3) (e 4)); (1, 2, avg3 (e 2) (e 3) (e 4)); (2, 3, avg3 (e 2) (e 3) (e 4));
   (0, 0, avg3 (e 3) (e 4) (e 5)); (1, 1, avg3 (e 3) (e 4) (e 5)); (2, 2, avg3 (e 3) (e 4) (e 5)); (3, 3, avg3 (e 3) (e 4) (e 5));
   (1, 0, avg3 (e 4) (e 5) (e 6)); (2, 1, avg3 (e 4) (e 5) (e 6)); (3, 2, avg3 (e 4) (e 5) (e 6));
   (2, 0, avg3 (e 5) (e 6) (e 7)); (3, 1, avg3 (e 5) (e 6) (e 7));
   (3, 0, avg3 (e 6) (e 7) (e 8))].
(** l.529-543. *)
Definition vr_pixels (pr : predictors) : list (Z * Z * Z) :=
  let e := east pr in
  [(0, 3, avg3 (e 1) (e 2) (e 3));
   (0, 2, avg3 (e 2) (e 3) (e 4));
   (0, 1, avg3 (e 3) (e 4) (e 5)); (1, 3, avg3 (e 3) (e 4) (e 5));
   (0, 0, avg2 (e 4) (e 5)); (1, 2, avg2 (e 4) (e 5));
   (1, 1, avg3 (e 4) (e 5) (e 6)); (2, 3, avg3 (e 4) (e 5) (e 6));
   (1, 0, avg2 (e 5) (e 6)); (2, 2, avg2 (e 5) (e 6));
   (2, 1, avg3 (e 5) (e 6) (e 7)); (3, 3, avg3 (e 5) (e 6) (e 7));
   (2, 0, avg2 (e 6) (e 7)); (3, 2, avg2 (e 6) (e 7));
   (3, 1, avg3 (e 6) (e 7) (e 8));
   (3, 0, avg2 (e 7) (e 8))].
(** l.545-559. *)
Definition vl_pixels (pr : predictors) : list (Z * Z * Z) :=
  let a := above_at pr in
  [(0, 0, avg2 (a 0) (a 1));
   (0, 1, avg3 (a 0) (a 1) (a 2));
   (1, 0, avg2 (a 1) (a 2)); (0, 2, avg2 (a 1) (a 2));
   (0, 3, avg3 (a 1) (a 2) (a 3)); (1, 1, avg3 (a 1) (a 2) (a 3));
   (2, 0, avg2 (a 2) (a 3)); (1, 2, avg2 (a 2) (a 3));
   (2, 1, avg3 (a 2) (a 3) (a 4)); (1, 3, avg3 (a 2) (a 3) (a 4));
   (3, 0, avg2 (a 3) (a 4)); (2, 2, avg2 (a 3) (a 4));
   (3, 1, avg3 (a 3) (a 4) (a 5)); (2, 3, avg3 (a 3) (a 4) (a 5));
   (3, 2, avg3 (a 4) (a 5) (a 6));
   (3, 3, avg3 (a 5) (a 6) (a 7))].
(** l.573-588. *)
Definition hd_pixels (pr : predictors) : list (Z * Z * Z) :=
  let e := east pr in
  [(0, 3, avg2 (e 0) (e 1));
   (1, 3, avg3 (e 0) (e 1) (e 2));
   (2, 3, avg2 (e 1) (e 2)); (0, 2, avg2 (e 1) (e 2));
   (3, 3, avg3 (e 1) (e 2) (e 3)); (1, 2, avg3 (e 1) (e 2) (e 3));
   (0, 1, avg2 (e 2) (e 3)); (2, 2, avg2 (e 2) (e 3));
   (1, 1, avg3 (e 2) (e 3) (e 4)); (3, 2, avg3 (e 2) (e 3) (e 4));
   (0, 0, avg2 (e 3) (e 4)); (2, 1, avg2 (e 3) (e 4));
   (1, 0, avg3 (e 3) (e 4) (e 5)); (3, 1, avg3 (e 3) (e 4) (e 5));
   (2, 0, avg3 (e 4) (e 5) (e 6));
   (3, 0, avg3 (e 5) (e 6) (e 7))].
(** l.603-619. *)
Definition hu_pixels (pr : predictors) : list (Z * Z * Z) :=
  let l := nthz (pr_left pr) in
  [(0, 0, avg2 (l 0) (l 1));
   (1, 0, avg3 (l 0) (l 1) (l 2));
   (0, 1, avg2 (l 1) (l 2)); (2, 0, avg2 (l 1) (l 2));
   (1, 1, avg3 (l 1) (l 2) (l 3)); (3, 0, avg3 (l 1) (l 2) (l 3));
   (0, 2, avg2 (l 2) (l 3)); (2, 1, avg2 (l 2) (l 3));
   (1, 2, avg3 (l 2) (l 3) (l 3)); (3, 1, avg3 (l 2) (l 3) (l 3));
   (3, 3, l 3); (2, 3, l 3); (1, 3, l 3); (0, 3, l 3); (3, 2, l 3); (2, 2, l 3)].

(** l.622-643. *)
Definition sub_pixels (mode : Z) (pr : predictors) : option (list (Z * Z * Z)) :=
  if mode =? B_DC_PRED then Some (fill_cells 4 (fun _ _ => dc_simple_value 4 pr))
  else if mode =? B_TM_PRED then Some (fill_cells 4 (tm_value pr))
  else if mode =? B_VE_PRED then Some (ve_pixels pr)
  else if mode =? B_HE_PRED then Some (he_pixels pr)
  else if mode =? B_LD_PRED then Some (ld_pixels pr)
  else if mode =? B_RD_PRED then Some (rd_pixels pr)
  else if mode =? B_VR_PRED then Some (vr_pixels pr)
  else if mode =? B_VL_PRED then Some (vl_pixels pr)
  else if mode =? B_HD_PRED then Some (hd_pixels pr)
  else if mode =? B_HU_PRED then Some (hu_pixels pr)
  else None.

(** vp8_raster.hh l.121-122: predict a block in place. [column] and [row]
    count blocks of this size. *)
Definition intra_predict (size column row mode : Z) (p : plane) : option plane :=
  let? pr := get_predictors size column row p in
  let? l := (if size =? 4 then sub_pixels mode pr else block_pixels size column row mode pr) in
  assign_block (size * column) (size * row) l p.

(** ** Inter prediction *)

(** l.645-653. *)
Definition sixtap_filters : list (list Z) :=
  [[0; 0; 128; 0; 0; 0]; [0; -6; 123; 12; -1; 0]; [2; -11; 108; 36; -8; 1]; [0; -9; 93; 50; -6; 0];
   [3; -16; 77; 77; -16; 3]; [0; -6; 50; 93; -9; 0]; [1; -8; 36; 108; -11; 2]; [0; -1; 12; 123; -6; 0]].

(** l.883-890, l.903-910, l.943-949, l.960-966. The sum is an int; its size is
    below 2^17 for bytes, so overflow is not modelled. *)
Definition six_tap (f : list Z) (v : Z -> option Z) : option Z :=
  let? f0 := nth_error f 0 in let? f1 := nth_error f 1 in let? f2 := nth_error f 2 in
  let? f3 := nth_error f 3 in let? f4 := nth_error f 4 in let? f5 := nth_error f 5 in
  let? a := v 0 in let? b := v 1 in let? c := v 2 in let? d := v 3 in let? e := v 4 in let? g := v 5 in
  Some (clamp255 (Z.shiftr (a * f0 + b * f1 + c * f2 + d * f3 + e * f4 + g * f5 + 64) 7)).

Definition filter_for (m : Z) : option (list Z) := nth_error sixtap_filters (Z.to_nat (Z.land m 7)).

(** vp8_raster.hh l.331-351: EdgeExtendedRaster::at. *)
Definition bounded (n x : Z) : Z :=
  let b := if x <? 0 then 0 else x in if n - 1 <? b then n - 1 else b.
Definition extended_at (p : plane) (x y : Z) : option Z := pget p (bounded (pl_w p) x) (bounded (pl_h p) y).

(** Rows of values: intermediate.at( row ).at( column ). *)
Definition grid (w h : Z) (f : Z -> Z -> option Z) : option (list (list Z)) :=
  omap (fun r => omap (fun c => f c r) (zseq w)) (zseq h).
Definition grid_at (g : list (list Z)) (c r : Z) : option Z :=
  if (c <? 0) || (r <? 0) then None
  else match nth_error g (Z.to_nat r) with Some l => nth_error l (Z.to_nat c) | None => None end.

(** Assign f(c, r) to each pixel of the block at (x0, y0). *)
Definition predict_cells (size x0 y0 : Z) (f : Z -> Z -> option Z) (out : plane) : option plane :=
  ofold (fun p '(c, r) => let? v := f c r in pset p (x0 + c) (y0 + r) v) (cells size) out.

(** l.918-969. The reference is never the plane that is written to. *)
Definition safe_inter_predict (size : Z) (m : mv) (ref : plane) (sc sr x0 y0 : Z) (out : plane) : option plane :=
  if (Z.land (fst m) 7 =? 0) && (Z.land (snd m) 7 =? 0)
  then predict_cells size x0 y0 (fun c r => extended_at ref (sc + c) (sr + r)) out
  else
    let? hf := filter_for (fst m) in
    let? mid := grid size (size + 5) (fun c r => six_tap hf (fun k => extended_at ref (sc + c + (k - 2)) (sr + r - 2))) in
    let? vf := filter_for (snd m) in
    predict_cells size x0 y0 (fun c r => six_tap vf (fun k => grid_at mid c (r + k))) out.

(** l.813-916: pointers into the reference ([stride] apart from row to row) and
    into the intermediate rows. *)
Definition unsafe_inter_predict (size : Z) (m : mv) (ref : plane) (sc sr x0 y0 : Z) (out : plane) : option plane :=
  if negb (pl_w out =? pl_w ref) then None
  else
    let stride := pl_w out in
    if (Z.land (fst m) 7 =? 0) && (Z.land (snd m) 7 =? 0)
    then
      if negb (inside ref sc sr) then None
      else predict_cells size x0 y0 (fun c r => praw ref (sr * pl_w ref + sc + stride * r + c)) out
    else
      let? hf := filter_for (fst m) in
      if negb (inside ref (sc - 2) (sr - 2)) then None
      else
        let start := (sr - 2) * pl_w ref + (sc - 2) in
        let? mid := grid size (size + 5) (fun c r => six_tap hf (fun k => praw ref (start + stride * r + c + k))) in
        let? vf := filter_for (snd m) in
        predict_cells size x0 y0 (fun c r => six_tap vf (fun k => nth_error (concat mid) (Z.to_nat (size * r + c + size * k)))) out.

(** l.655-674. int + unsigned is unsigned in the second and fourth
    comparison. *)
Definition inter_predict (size column row : Z) (m : mv) (ref out : plane) : option plane :=
  let sc := column * size + Z.shiftr (fst m) 3 in
  let sr := row * size + Z.shiftr (snd m) 3 in
  let x0 := size * column in
  let y0 := size * row in
  if (sc - 2 <? 0) || (pl_w ref <? wrap 32 (sc + size + 3)) || (sr - 2 <? 0) || (pl_h ref <? wrap 32 (sr + size + 3))
  then safe_inter_predict size m ref sc sr x0 y0 out
  else unsafe_inter_predict size m ref sc sr x0 y0 out.
