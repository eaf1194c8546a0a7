(** From a parsed frame to a picture. Sources: src/decoder/macroblock.cc
    l.289-299, l.444-454, l.504-641, src/decoder/frame.cc l.139-253,
    src/decoder/decoder.hh l.77-122. *)
From Verif Require Import Base TreeModel HeaderModel MVModel MBModel FrameModel QuantModel RasterModel TransformModel PredictModel LoopFilterModel.

(** ** State a frame is decoded with *)

(** decoder.hh l.93-122: Segmentation. The map has one entry per pixel column
    and row of the picture (decoder.cc l.457-471), of which only the
    macroblock coordinates are used. *)
Record Segmentation : Type := mkSeg {
  sg_absolute : bool;
  sg_quant : list Z;
  sg_filter : list Z;
  sg_map : plane
}.

(** decoder.hh l.77-91: FilterAdjustments. *)
Record FilterAdjustments : Type := mkFA { fa_ref : list Z; fa_mode : list Z }.

(** decoder.hh: References; at( reference_frame ). *)
Record references : Type := mkRefs { rf_last : raster; rf_golden : raster; rf_alt : raster }.
Definition ref_at (refs : references) (k : Z) : option raster :=
  if k =? LAST_FRAME then Some (rf_last refs)
  else if k =? GOLDEN_FRAME then Some (rf_golden refs)
  else if k =? ALTREF_FRAME then Some (rf_alt refs)
  else None.

(** ** Residue *)

Definition y_factors (q : Quantizer) : Z * Z := (q_y_dc q, q_y_ac q).
Definition y2_factors (q : Quantizer) : Z * Z := (q_y2_dc q, q_y2_ac q).
Definition uv_factors (q : Quantizer) : Z * Z := (q_uv_dc q, q_uv_ac q).
Definition dequant (f : Z * Z) (b : block) : list Z := dequantize (fst f) (snd f) (fst b).

(** The blocks [bl] of a square of w x w 4x4 blocks whose top left pixel is
    (x0, y0), added in raster order. *)
Definition add_blocks (w x0 y0 : Z) (bl : list (list Z)) (p : plane) : option plane :=
  ofold (fun p '(c, r) => idct_add (x0 + 4 * c) (y0 + 4 * r) (nth (Z.to_nat (w * r + c)) bl []) p) (cells w) p.

(** block.hh: set_dc_coefficient. *)
Definition set_dc (c : list Z) (dc : Z) : list Z := match c with [] => [] | _ :: r => dc :: r end.

(** macroblock.cc l.504-522. Y2Block::dequantize asserts that the block is
    coded. *)
Definition apply_walsh (q : Quantizer) (m : mbinfo) (c : mbcoef) (x0 y0 : Z) (p : plane) : option plane :=
  if negb (y2_coded m) then None
  else
    let? dcs := iwht (dequant (y2_factors q) (co_y2 c)) in
    add_blocks 4 x0 y0 (map (fun '(b, dc) => set_dc (dequant (y_factors q) b) dc) (combine (co_y c) dcs)) p.

Definition chroma_residue (q : Quantizer) (bl : list block) (x0 y0 : Z) (p : plane) : option plane :=
  add_blocks 2 x0 y0 (map (dequant (uv_factors q)) bl) p.

(** ** Macroblocks *)

(** l.524-553, one chroma plane. *)
Definition intra_chroma (q : Quantizer) (m : mbinfo) (nz : bool) (bl : list block) (column row : Z) (p : plane) : option plane :=
  let? p := intra_predict 8 column row (mb_uvmode m) p in
  if nz then chroma_residue q bl (8 * column) (8 * row) p else Some p.

(** l.538-545: prediction and residue of sub-block (c, r). *)
Definition intra_sub (q : Quantizer) (m : mbinfo) (nz : bool) (bl : list block) (column row c r : Z) (p : plane) : option plane :=
  let k := Z.to_nat (4 * r + c) in
  let? p := intra_predict 4 (4 * column + c) (4 * row + r) (nth k (mb_bmodes m) 0) p in
  if nz then idct_add (16 * column + 4 * c) (16 * row + 4 * r) (dequant (y_factors q) (nth k bl fresh_block)) p else Some p.

(** l.537-552. *)
Definition intra_luma (q : Quantizer) (m : mbinfo) (c : mbcoef) (column row : Z) (p : plane) : option plane :=
  let nz := has_nonzero m c in
  if mb_ymode m =? B_PRED then
    ofold (fun p '(sc, sr) => intra_sub q m nz (co_y c) column row sc sr p) (cells 4) p
  else
    let? p := intra_predict 16 column row (mb_ymode m) p in
    if nz then apply_walsh q m c (16 * column) (16 * row) p else Some p.

(** macroblock.cc l.524-553. *)
Definition reconstruct_intra (q : Quantizer) (m : mbinfo) (c : mbcoef) (column row : Z) (r : raster) : option raster :=
  let nz := has_nonzero m c in
  let? u := intra_chroma q m nz (co_u c) column row (ra_u r) in
  let? v := intra_chroma q m nz (co_v c) column row (ra_v r) in
  let? y := intra_luma q m c column row (ra_y r) in
  Some (mkRaster (ra_dw r) (ra_dh r) y u v).

(** l.444-454: the vector of chroma block (c, r). *)
Definition chroma_mv (m : mbinfo) (c r : Z) : mv :=
  let at4 x y := nth (Z.to_nat (4 * y + x)) (mb_mvs m) mv_zero in
  luma_to_chroma (at4 (2 * c) (2 * r)) (at4 (2 * c + 1) (2 * r)) (at4 (2 * c) (2 * r + 1)) (at4 (2 * c + 1) (2 * r + 1)).

(** l.561-600, luma: prediction from [ref], then residue. *)
Definition inter_luma (q : Quantizer) (m : mbinfo) (c : mbcoef) (column row : Z) (ref p : plane) : option plane :=
  let nz := has_nonzero m c in
  if mb_ymode m =? SPLITMV then
    let? p := ofold (fun p '(sc, sr) =>
                       inter_predict 4 (4 * column + sc) (4 * row + sr) (nth (Z.to_nat (4 * sr + sc)) (mb_mvs m) mv_zero) ref p) (cells 4) p in
    if nz then add_blocks 4 (16 * column) (16 * row) (map (dequant (y_factors q)) (co_y c)) p else Some p
  else
    let? p := inter_predict 16 column row (base_mv m) ref p in
    if nz then apply_walsh q m c (16 * column) (16 * row) p else Some p.

(** l.561-600, one chroma plane. *)
Definition inter_chroma (q : Quantizer) (m : mbinfo) (nz : bool) (bl : list block) (column row : Z) (ref p : plane) : option plane :=
  let? p := (if mb_ymode m =? SPLITMV then
               ofold (fun p '(sc, sr) => inter_predict 4 (2 * column + sc) (2 * row + sr) (chroma_mv m sc sr) ref p) (cells 2) p
             else inter_predict 8 column row (chroma_mv m 0 0) ref p) in
  if nz then chroma_residue q bl (8 * column) (8 * row) p else Some p.

(** macroblock.cc l.555-600. *)
Definition reconstruct_inter (q : Quantizer) (refs : references) (m : mbinfo) (c : mbcoef) (column row : Z) (r : raster) : option raster :=
  let nz := has_nonzero m c in
  let? ref := ref_at refs (mb_reference m) in
  let? y := inter_luma q m c column row (ra_y ref) (ra_y r) in
  let? u := inter_chroma q m nz (co_u c) column row (ra_u ref) (ra_u r) in
  let? v := inter_chroma q m nz (co_v c) column row (ra_v ref) (ra_v r) in
  Some (mkRaster (ra_dw r) (ra_dh r) y u v).

(** ** Frames *)

(** The parts of a parsed frame that the picture depends on. [pc_mbs]: the
    macroblocks in raster order with their coefficients and cached segment
    ids. *)
Record picture : Type := mkPic {
  pc_key : bool;
  pc_qi : QuantIndices;
  pc_simple : bool;
  pc_level : Z;
  pc_sharpness : Z;
  pc_W : nat;
  pc_mbs : list (mbinfo * mbcoef * Z)
}.

(** frame.cc l.184-206. *)
Definition segment_quantizers (seg : option Segmentation) (qi : QuantIndices) : option (list Quantizer) :=
  match seg with
  | None => Some []
  | Some s => omap (fun adj => make_quantizer (segment_indices (sg_absolute s) adj qi)) (sg_quant s)
  end.

Definition column_of (W i : nat) : Z := Z.of_nat (i mod W).
Definition row_of (W i : nat) : Z := Z.of_nat (i / W).

Definition indexed {A} (l : list A) : list (nat * A) := combine (seq 0 (length l)) l.

(** frame.cc l.208-253. *)
Definition picture_decode (seg : option Segmentation) (refs : references) (pc : picture) (r : raster) : option raster :=
  let? fq := make_quantizer (pc_qi pc) in
  let? sq := segment_quantizers seg (pc_qi pc) in
  ofold (fun r '(i, (m, c, id)) =>
           let? q := match seg with Some _ => nth_error sq (Z.to_nat id) | None => Some fq end in
           if negb (pc_key pc) && mb_inter m
           then reconstruct_inter q refs m c (column_of (pc_W pc) i) (row_of (pc_W pc) i) r
           else reconstruct_intra q m c (column_of (pc_W pc) i) (row_of (pc_W pc) i) r) (indexed (pc_mbs pc)) r.

(** frame.cc l.151-165. *)
Definition frame_filter (pc : picture) : filter_params := mkFP (pc_simple pc) (pc_level pc) (pc_sharpness pc).
Definition segment_filter (pc : picture) (s : Segmentation) (id : Z) : option filter_params :=
  let? adj := nth_error (sg_filter s) (Z.to_nat id) in
  Some (mkFP (pc_simple pc) (adj + (if sg_absolute s then 0 else pc_level pc)) (pc_sharpness pc)).

(** frame.cc l.139-182. *)
Definition picture_loopfilter (seg : option Segmentation) (fa : option FilterAdjustments) (pc : picture) (r : raster) : option pixel_outcome :=
  if pc_level pc =? 0 then Some (Filtered r)
  else
    ofold (fun o '(i, (m, c, id)) =>
             match o with
             | SimpleUnsupported => Some SimpleUnsupported
             | Filtered r =>
                 let? f := match seg with Some s => segment_filter pc s id | None => Some (frame_filter pc) end in
                 mb_loopfilter (pc_key pc) (option_map (fun a => (fa_ref a, fa_mode a)) fa) f m c
                               (column_of (pc_W pc) i) (row_of (pc_W pc) i) r
             end) (indexed (pc_mbs pc)) (Filtered r).

(** decoder.cc l.103-113: [scratch] is the picture from the pool. *)
Definition picture_output (seg : option Segmentation) (fa : option FilterAdjustments) (refs : references) (pc : picture) (scratch : raster)
  : option pixel_outcome :=
  let? r := picture_decode seg refs pc scratch in
  picture_loopfilter seg fa pc r.
