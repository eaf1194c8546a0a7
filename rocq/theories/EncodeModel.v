(** Encoding of the macroblocks of a frame: prediction, choice of modes,
    residue and reconstruction. Sources: src/encoder/encode_intra.cc,
    src/encoder/encode_inter.cc l.232-437, l.439-507, l.576-654,
    src/encoder/encoder.cc l.631-658.

    What decisions are based on but what only they depend on is a parameter:
    the tables of costs, the contexts for the search of a cheaper quantisation.
    Fields of a macroblock that are left over from earlier frames and neither
    written nor read again have fixed values here: the vectors and partition of
    intra-coded macroblocks, the modes of the sub-blocks and of chroma of
    inter-coded ones, the Y2 coefficients of macroblocks without Y2. *)
From Verif Require Import Base TreeModel MVModel MBModel TokenModel FrameModel QuantModel RasterModel TransformModel.
From Verif Require Import PredictModel LoopFilterModel ReconModel ResidueModel SafeRasterModel MotionModel VarianceModel.

(** ** Blocks of a plane *)

(** contents(): the rows of the n x n pixels at (x, y). *)
Definition block_at (n x y : Z) (p : plane) : option (list (list Z)) := grid n n (fun c r => pget p (x + c) (y + r)).

(** 2d.hh: copy_from, between blocks at the same place. *)
Definition copy_block (n x y : Z) (src dst : plane) : option plane :=
  predict_cells n x y (fun c r => pget src (x + c) (y + r)) dst.

(** vp8_raster.hh: intra_predict( mode, predictors, output ). *)
Definition predict_with (size column row mode : Z) (pr : predictors) (out : plane) : option plane :=
  let? l := (if size =? 4 then sub_pixels mode pr else block_pixels size column row mode pr) in
  assign_block (size * column) (size * row) l out.

(** ** Parameters *)

(** For one macroblock in one pass: mbmode_costs.at( interframe ), the row of
    bmode_costs for a sub-block (it depends on the modes of the neighbours, of
    which some may be left over from an earlier frame), the multipliers; the pass
    ([None]: FIRST_PASS) and the contexts of trellis_quantize, by type and number of the
    block (V blocks follow U blocks). *)
Record mb_costs : Type := mkMC {
  mc_mode : Z -> Z;
  mc_sub : nat -> Z -> Z;
  mc_rm : Z;
  mc_dm : Z;
  mc_pass : option costs;
  mc_ctx : Z -> nat -> Z
}.
Definition cost_of (mc : mb_costs) (rate distortion : Z) : Z := MotionModel.rdcost rate distortion (mc_rm mc) (mc_dm mc).

(** ** Luma, intra *)

(** encode_intra.cc l.355-386. [column], [row] count sub-blocks; [p] is the
    reconstructed plane, [t] the temporary one. *)
Definition sub_best (mc : mb_costs) (k : nat) (orig : list (list Z)) (column row : Z) (p t : plane) : option (Z * plane * plane) :=
  let? pr := get_predictors 4 column row p in
  let? s := ofold (fun s mode =>
    let '(best, cost, p, t) := s in
    let? t := predict_with 4 column row mode pr t in
    let? pred := block_at 4 (4 * column) (4 * row) t in
    let err := cost_of mc (mc_sub mc k mode) (sse 4 orig pred) in
    if err <? cost then let? p := copy_block 4 (4 * column) (4 * row) t p in Some (mode, err, p, t)
    else Some (best, cost, p, t)) (zseq 10) (B_DC_PRED, UINT32_MAX, p, t) in
  let '(best, _, p, t) := s in Some (best, p, t).

(** l.48-71. *)
Definition sub_code (mc : mb_costs) (q : Quantizer) (k : nat) (orig : list (list Z)) (column row mode : Z) (p : plane) : option (block * plane) :=
  let? pred := block_at 4 (4 * column) (4 * row) p in
  let? b := code_block (mc_pass mc) (mc_ctx mc Y_without_Y2 k) q Y_without_Y2 (concat orig) (concat pred) in
  let? p := intra_predict 4 column row mode p in
  let? p := idct_add (4 * column) (4 * row) (dequant (y_factors q) b) p in
  Some (b, p).

(** l.107-141: what B_PRED has given so far. *)
Record trial : Type := mkTrial { tr_modes : list Z; tr_blocks : list block; tr_rate : Z; tr_dist : Z; tr_p : plane; tr_t : plane }.
Definition try_sub (mc : mb_costs) (q : Quantizer) (o : plane) (column row : Z) (s : trial) (cell : Z * Z) : option trial :=
  let k := Z.to_nat (4 * snd cell + fst cell) in
  let x := 4 * column + fst cell in
  let y := 4 * row + snd cell in
  let? orig := block_at 4 (4 * x) (4 * y) o in
  let? b := sub_best mc k orig x y (tr_p s) (tr_t s) in
  let '(mode, p, t) := b in
  let? pred := block_at 4 (4 * x) (4 * y) p in
  let? c := sub_code mc q k orig x y mode p in
  let '(bl, p) := c in
  Some (mkTrial (tr_modes s ++ [mode]) (tr_blocks s ++ [bl])
                (wrap 32 (tr_rate s + mc_sub mc k mode)) (wrap 32 (tr_dist s + sse 4 orig pred)) p t).

(** l.106-161: the best mode so far with its cost, the modes and blocks that
    B_PRED has given, both planes. *)
Record luma_pick : Type := mkLP { lp_mode : Z; lp_cost : Z; lp_modes : list Z; lp_blocks : list block; lp_p : plane; lp_t : plane }.
Definition try_mode (mc : mb_costs) (q : Quantizer) (o : plane) (column row : Z) (pr : predictors) (s : luma_pick) (mode : Z) : option luma_pick :=
  let? r :=
    (if mode =? B_PRED then
       let? t := ofold (try_sub mc q o column row) (cells 4) (mkTrial [] [] (mc_mode mc B_PRED) 0 (lp_p s) (lp_t s)) in
       Some (cost_of mc (tr_rate t) (tr_dist t), tr_modes t, tr_blocks t, tr_p t, tr_t t)
     else
       let? t := predict_with 16 column row mode pr (lp_t s) in
       let? a := block_at 16 (16 * column) (16 * row) o in
       let? b := block_at 16 (16 * column) (16 * row) t in
       Some (cost_of mc (mc_mode mc mode) (variance 16 a b), lp_modes s, lp_blocks s, lp_p s, t)) in
  let '(cost, modes, blocks, p, t) := r in
  if cost <? lp_cost s then let? p := copy_block 16 (16 * column) (16 * row) t p in Some (mkLP mode cost modes blocks p t)
  else Some (mkLP (lp_mode s) (lp_cost s) modes blocks p t).

(** l.82-163. [bpred]: B_PRED is considered. *)
Definition luma_modes (bpred : bool) : list Z := if bpred then [B_PRED; TM_PRED; H_PRED; V_PRED; DC_PRED] else [TM_PRED; H_PRED; V_PRED; DC_PRED].
Definition luma_best (mc : mb_costs) (q : Quantizer) (bpred : bool) (o : plane) (column row : Z) (p t : plane) : option luma_pick :=
  let? pr := get_predictors 16 column row p in
  ofold (try_mode mc q o column row pr) (luma_modes bpred) (mkLP DC_PRED UINT32_MAX [] [] p t).

(** l.183-221 (also encode_inter.cc l.409-433, with [pass] None): the Y2 and Y
    blocks for the prediction in [p]. *)
Definition code_luma (pass : option costs) (ctx : Z -> nat -> Z) (q : Quantizer) (o : plane) (column row : Z) (p : plane) : option (block * list block) :=
  let? l := omap (fun cell =>
      let x := 16 * column + 4 * fst cell in
      let y := 16 * row + 4 * snd cell in
      let? a := block_at 4 x y o in
      let? b := block_at 4 x y p in
      code_block_y2 pass (ctx Y_after_Y2 (Z.to_nat (4 * snd cell + fst cell))) q (concat a) (concat b)) (cells 4) in
  let? y2 := code_y2 pass (ctx Y2_type 0%nat) q (map snd l) in
  Some (y2, map fst l).

(** What is decided about luma: mode, modes of the sub-blocks, Y2 block, Y
    blocks. *)
Record luma : Type := mkLuma { lu_mode : Z; lu_bmodes : list Z; lu_y2 : block; lu_y : list block }.

(** l.170-222. *)
Definition luma_apply_intra (mc : mb_costs) (q : Quantizer) (o : plane) (column row : Z) (s : luma_pick) : option luma :=
  if lp_mode s =? B_PRED then Some (mkLuma B_PRED (lp_modes s) fresh_block (lp_blocks s))
  else
    let? r := code_luma (mc_pass mc) (mc_ctx mc) q o column row (lp_p s) in
    Some (mkLuma (lp_mode s) (repeat (implied_subblock_mode (lp_mode s)) 16) (fst r) (snd r)).

(** ** Chroma, intra *)

(** l.245-283. *)
Record chroma_pick : Type := mkCP { cp_mode : Z; cp_dist : Z; cp_u : plane; cp_v : plane; cp_tu : plane; cp_tv : plane }.
Definition try_chroma (ou ov : plane) (column row : Z) (pu pv : predictors) (s : chroma_pick) (mode : Z) : option chroma_pick :=
  let? tu := predict_with 8 column row mode pu (cp_tu s) in
  let? tv := predict_with 8 column row mode pv (cp_tv s) in
  let? au := block_at 8 (8 * column) (8 * row) ou in
  let? bu := block_at 8 (8 * column) (8 * row) tu in
  let? av := block_at 8 (8 * column) (8 * row) ov in
  let? bv := block_at 8 (8 * column) (8 * row) tv in
  let dist := wrap 32 (sse 8 au bu + sse 8 av bv) in
  if dist <? cp_dist s then
    let? u := copy_block 8 (8 * column) (8 * row) tu (cp_u s) in
    let? v := copy_block 8 (8 * column) (8 * row) tv (cp_v s) in
    Some (mkCP mode dist u v tu tv)
  else Some (mkCP (cp_mode s) (cp_dist s) (cp_u s) (cp_v s) tu tv).
Definition chroma_best (ou ov : plane) (column row : Z) (u v tu tv : plane) : option chroma_pick :=
  let? pu := get_predictors 8 column row u in
  let? pv := get_predictors 8 column row v in
  ofold (try_chroma ou ov column row pu pv) [DC_PRED; V_PRED; H_PRED; TM_PRED] (mkCP DC_PRED UINT32_MAX u v tu tv).

(** l.297-333; encode_inter.cc l.479-503. [first]: number of the first block. *)
Definition code_chroma (pass : option costs) (ctx : Z -> nat -> Z) (first : nat) (q : Quantizer) (o : plane) (column row : Z) (p : plane) : option (list block) :=
  omap (fun cell =>
      let x := 8 * column + 4 * fst cell in
      let y := 8 * row + 4 * snd cell in
      let? a := block_at 4 x y o in
      let? b := block_at 4 x y p in
      code_block pass (ctx UV_type (first + Z.to_nat (2 * snd cell + fst cell))%nat) q UV_type (concat a) (concat b)) (cells 2).

(** ** Macroblocks *)

(** encoder.cc l.631-658: calculate_has_nonzero, and mb_skip_coeff. *)
Definition skip_for (ymode : Z) (c : mbcoef) : bool :=
  negb ((negb ((ymode =? B_PRED) || (ymode =? SPLITMV)) && snd (co_y2 c)) || existsb snd (co_y c) || existsb snd (co_u c) || existsb snd (co_v c)).

Definition intra_mb (l : luma) (uvmode : Z) (c : mbcoef) : mbinfo :=
  mkMB None (Some (skip_for (lu_mode l) c)) false None None false None (lu_mode l) (lu_bmodes l) (repeat mv_zero 16) uvmode.

(** Luma chosen, chroma and reconstruction of an intra-coded macroblock:
    encode_intra.cc l.337-352, l.427-432; encode_inter.cc l.618-633. *)
Definition finish_intra (mc : mb_costs) (q : Quantizer) (o : raster) (column row : Z) (l : luma) (r t : raster) : option (mbinfo * mbcoef * raster * raster) :=
  let? cp := chroma_best (ra_u o) (ra_v o) column row (ra_u r) (ra_v r) (ra_u t) (ra_v t) in
  let? us := code_chroma (mc_pass mc) (mc_ctx mc) 0 q (ra_u o) column row (cp_u cp) in
  let? vs := code_chroma (mc_pass mc) (mc_ctx mc) 4 q (ra_v o) column row (cp_v cp) in
  let c := mkCoef (lu_y2 l) (lu_y l) us vs in
  let m := intra_mb l (cp_mode cp) c in
  let? r := reconstruct_intra q m c column row (mkRaster (ra_dw r) (ra_dh r) (ra_y r) (cp_u cp) (cp_v cp)) in
  Some (m, c, r, mkRaster (ra_dw t) (ra_dh t) (ra_y t) (cp_tu cp) (cp_tv cp)).

(** A key frame's: encode_intra.cc l.224-242, l.417-435. *)
Definition key_mb (mc : mb_costs) (q : Quantizer) (o : raster) (column row : Z) (r t : raster) : option (mbinfo * mbcoef * raster * raster) :=
  let? lp := luma_best mc q true (ra_y o) column row (ra_y r) (ra_y t) in
  let? l := luma_apply_intra mc q (ra_y o) column row lp in
  finish_intra mc q o column row l (mkRaster (ra_dw r) (ra_dh r) (lp_p lp) (ra_u r) (ra_v r))
                                   (mkRaster (ra_dw t) (ra_dh t) (lp_t lp) (ra_u t) (ra_v t)).

(** For the search: references_, the luma of safe_references_, the tables and
    whether real time encoding was asked for. *)
Record search_env : Type := mkSE {
  se_refs : references;
  se_safe : plane;
  se_sads : list Z;
  se_mv_costs : list (list (list Z));
  se_weight : Z;
  se_realtime : bool
}.

(** sad and variance of the prediction. The block is in the plane, so that
    the other branch is not taken. *)
Definition distortion (f : nat -> list (list Z) -> list (list Z) -> Z) (o : plane) (column row : Z) (t : plane) : Z :=
  match block_at 16 (16 * column) (16 * row) o, block_at 16 (16 * column) (16 * row) t with
  | Some a, Some b => f 16%nat a b
  | _, _ => 0
  end.

Definition search_for (env : search_env) (mc : mb_costs) (W H : nat) (o t : plane) (column row : Z) : mb_search :=
  mkSearch column row (Z.of_nat W) (Z.of_nat H) (se_safe env) t
           (distortion sad o column row) (distortion variance o column row)
           (se_sads env) (map (mc_mode mc) (zseq 10)) (se_mv_costs env) (se_weight env) (mc_rm mc) (mc_dm mc).

Definition inter_mb_of (mode : Z) (v : mv) (c : mbcoef) : mbinfo :=
  mkMB None (Some (skip_for mode c)) true (Some false) None false None mode (repeat 0 16) (repeat v 16) 0.

(** Chroma of an inter-coded macroblock, one plane: encode_inter.cc l.465-503. *)
Definition chroma_inter (q : Quantizer) (o : plane) (column row : Z) (v : mv) (ref p : plane) : option (list block * plane) :=
  let? p := inter_predict 8 column row (luma_to_chroma v v v v) ref p in
  let? bl := code_chroma None (fun _ _ => 0) 0 q o column row p in
  Some (bl, p).

(** encode_inter.cc l.232-367, l.375-433, l.439-507, l.603-633. [l]: the
    macroblocks so far (the census looks at them). The temporary plane is left
    as the intra modes have left it: every prediction of the search overwrites
    what it is used for. *)
Definition inter_mb (env : search_env) (mc : mb_costs) (q : Quantizer) (W H : nat) (l : list mbinfo) (i : nat)
           (o : raster) (r t : raster) : option (mbinfo * mbcoef * raster * raster) :=
  let column := column_of W i in
  let row := row_of W i in
  let? lp := luma_best mc q (negb (se_realtime env)) (ra_y o) column row (ra_y r) (ra_y t) in
  let s := search_for env mc W H (ra_y o) (lp_t lp) column row in
  let? b := choose_mode s (se_realtime env) (census_at W false l i) (lp_mode lp) (lp_cost lp) in
  let '(mode, v, _) := b in
  let t := mkRaster (ra_dw t) (ra_dh t) (lp_t lp) (ra_u t) (ra_v t) in
  if mode <=? B_PRED then
    let? lu := luma_apply_intra mc q (ra_y o) column row lp in
    finish_intra mc q o column row lu (mkRaster (ra_dw r) (ra_dh r) (lp_p lp) (ra_u r) (ra_v r)) t
  else
    let? pred := predict_in s v in
    let? y := copy_block 16 (16 * column) (16 * row) pred (lp_p lp) in
    let? lu := code_luma None (mc_ctx mc) q (ra_y o) column row y in
    let? u := chroma_inter q (ra_u o) column row v (ra_u (rf_last (se_refs env))) (ra_u r) in
    let? w := chroma_inter q (ra_v o) column row v (ra_v (rf_last (se_refs env))) (ra_v r) in
    let c := mkCoef (fst lu) (snd lu) (fst u) (fst w) in
    let m := inter_mb_of mode v c in
    let? r := reconstruct_inter q (se_refs env) m c column row (mkRaster (ra_dw r) (ra_dh r) y (snd u) (snd w)) in
    Some (m, c, r, t).

(** ** Frames *)

(** The macroblocks with their coefficients so far, the reconstructed and the
    temporary raster. *)
Record encoding : Type := mkEnc { ec_ms : list mbinfo; ec_cs : list mbcoef; ec_r : raster; ec_t : raster }.
Definition add_mb (s : encoding) (x : mbinfo * mbcoef * raster * raster) : encoding :=
  let '(m, c, r, t) := x in mkEnc (ec_ms s ++ [m]) (ec_cs s ++ [c]) r t.

(** encode_intra.cc l.417-438: one pass over a frame of n macroblocks. *)
Definition key_pass (mcs : nat -> mb_costs) (q : Quantizer) (W n : nat) (o r t : raster) : option encoding :=
  ofold (fun s i => let? x := key_mb (mcs i) q o (column_of W i) (row_of W i) (ec_r s) (ec_t s) in Some (add_mb s x))
        (seq 0 n) (mkEnc [] [] r t).

(** l.404-441: the passes, each beginning with the pictures that the one before has left. *)
Definition encode_key (passes : list (nat -> mb_costs)) (q : Quantizer) (W n : nat) (o r t : raster) : option encoding :=
  ofold (fun s mcs => key_pass mcs q W n o (ec_r s) (ec_t s)) passes (mkEnc [] [] r t).

(** encode_inter.cc l.603-638. *)
Definition encode_inter (env : search_env) (mcs : nat -> mb_costs) (q : Quantizer) (W H : nat) (o r t : raster) : option encoding :=
  ofold (fun s i => let? x := inter_mb env (mcs i) q W H (ec_ms s) i o (ec_r s) (ec_t s) in Some (add_mb s x))
        (seq 0 (W * H)) (mkEnc [] [] r t).
