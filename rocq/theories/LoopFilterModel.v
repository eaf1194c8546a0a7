(** The in-loop deblocking filter. Sources: src/decoder/loopfilter.cc,
    loopfilter.hh, loopfilter_filters.hh (portable branches),
    src/decoder/frame.cc l.139-182, src/decoder/macroblock.cc l.601-641. *)
From Verif Require Import Base TreeModel MVModel MBModel FrameModel RasterModel.

(** Conversion to int8_t / signed char. *)
Definition s8 (x : Z) : Z := (x + 128) mod 256 - 128.

(** ** Pixel arithmetic *)

(** loopfilter_filters.hh l.49-54. *)
Definition sclamp (t : Z) : Z :=
  let t := if t <? -128 then -128 else t in
  if 127 <? t then 127 else t.

(** l.57-71: -1 (filter) or 0. *)
Definition filter_mask (limit blimit p3 p2 p1 p0 q0 q1 q2 q3 : Z) : Z :=
  let big a b := limit <? Z.abs (a - b) in
  if big p3 p2 || big p2 p1 || big p1 p0 || big q1 q0 || big q2 q1 || big q3 q2
     || (blimit <? Z.abs (p0 - q0) * 2 + Z.abs (p1 - q1) / 2)
  then 0 else -1.

(** l.73-80: -1 or 0. *)
Definition hev_mask (thresh p1 p0 q0 q1 : Z) : Z :=
  if (thresh <? Z.abs (p1 - p0)) || (thresh <? Z.abs (q1 - q0)) then -1 else 0.

(** (signed char) x ^ 0x80 into a signed char, and back into an unsigned one. *)
Definition to_signed (x : Z) : Z := s8 (Z.lxor (s8 x) 128).
Definition to_pixel (u : Z) : Z := wrap 8 (Z.lxor u 128).

(** l.82-129. [hev] is passed as an unsigned char. *)
Definition vp8_filter (mask hev p1 p0 q0 q1 : Z) : Z * Z * Z * Z :=
  let hev := wrap 8 hev in
  let ps1 := to_signed p1 in let ps0 := to_signed p0 in
  let qs0 := to_signed q0 in let qs1 := to_signed q1 in
  let f := sclamp (ps1 - qs1) in
  let f := s8 (Z.land f hev) in
  let f := sclamp (f + 3 * (qs0 - ps0)) in
  let f := s8 (Z.land f mask) in
  let f1 := Z.shiftr (sclamp (f + 4)) 3 in
  let f2 := Z.shiftr (sclamp (f + 3)) 3 in
  let oq0 := to_pixel (sclamp (qs0 - f1)) in
  let op0 := to_pixel (sclamp (ps0 + f2)) in
  let f := s8 (f1 + 1) in
  let f := Z.shiftr f 1 in
  let f := s8 (Z.land f (Z.lnot hev)) in
  let oq1 := to_pixel (sclamp (qs1 - f)) in
  let op1 := to_pixel (sclamp (ps1 + f)) in
  (op1, op0, oq0, oq1).

(** l.131-183. *)
Definition vp8_mbfilter (mask hev p2 p1 p0 q0 q1 q2 : Z) : Z * Z * Z * Z * Z * Z :=
  let hev := wrap 8 hev in
  let ps2 := to_signed p2 in let ps1 := to_signed p1 in let ps0 := to_signed p0 in
  let qs0 := to_signed q0 in let qs1 := to_signed q1 in let qs2 := to_signed q2 in
  let f := sclamp (ps1 - qs1) in
  let f := sclamp (f + 3 * (qs0 - ps0)) in
  let f := s8 (Z.land f mask) in
  let f2 := s8 (Z.land f hev) in
  let f1 := Z.shiftr (sclamp (f2 + 4)) 3 in
  let f2 := Z.shiftr (sclamp (f2 + 3)) 3 in
  let qs0 := sclamp (qs0 - f1) in
  let ps0 := sclamp (ps0 + f2) in
  let f := s8 (Z.land f (Z.lnot hev)) in
  let u := sclamp (Z.shiftr (63 + f * 27) 7) in
  let oq0 := to_pixel (sclamp (qs0 - u)) in
  let op0 := to_pixel (sclamp (ps0 + u)) in
  let u := sclamp (Z.shiftr (63 + f * 18) 7) in
  let oq1 := to_pixel (sclamp (qs1 - u)) in
  let op1 := to_pixel (sclamp (ps1 + u)) in
  let u := sclamp (Z.shiftr (63 + f * 9) 7) in
  let oq2 := to_pixel (sclamp (qs2 - u)) in
  let op2 := to_pixel (sclamp (ps2 + u)) in
  (op2, op1, op0, oq0, oq1, oq2).

(** ** Strength *)

(** loopfilter.hh l.45-60: filter type (true: simple), level, sharpness. *)
Record filter_params : Type := mkFP { fp_simple : bool; fp_level : Z; fp_sharpness : Z }.

(** loopfilter.cc l.56-71. *)
Definition mode_adjustment (mode_adj : list Z) (ref y_mode : Z) : Z :=
  if ref =? CURRENT_FRAME then (if y_mode =? B_PRED then nth 0 mode_adj 0 else 0)
  else if y_mode =? ZEROMV then nth 1 mode_adj 0
  else if y_mode =? SPLITMV then nth 3 mode_adj 0
  else nth 2 mode_adj 0.

(** loopfilter.cc l.73-80: filter_level is an int. *)
Definition fp_adjust (ref_adj mode_adj : list Z) (ref y_mode : Z) (f : filter_params) : filter_params :=
  mkFP (fp_simple f) (fp_level f + (nth (Z.to_nat ref) ref_adj 0 + mode_adjustment mode_adj ref y_mode)) (fp_sharpness f).

(** loopfilter.cc l.35-40. *)
Definition clamp63 (x : Z) : Z := if 63 <? x then 63 else if x <? 0 then 0 else x.

(** What a NormalLoopFilter holds. *)
Record limits : Type := mkLim { lm_level : Z; lm_interior : Z; lm_mb : Z; lm_sb : Z; lm_hev : Z }.

(** loopfilter.cc l.82-125; the vectors hold uint8_t. *)
Definition make_limits (key : bool) (f : filter_params) : limits :=
  let level := clamp63 (fp_level f) in
  let i0 := (if negb (fp_sharpness f =? 0)
             then let s := Z.shiftr level (if 4 <? fp_sharpness f then 2 else 1) in
                  if 9 - fp_sharpness f <? s then wrap 8 (9 - fp_sharpness f) else s
             else level) in
  let interior := if i0 <? 1 then 1 else i0 in
  let h := b2z (15 <=? level) in
  let h := if 40 <=? level then h + 1 else h in
  let h := if (20 <=? level) && negb key then h + 1 else h in
  mkLim level interior (wrap 8 ((level + 2) * 2 + interior)) (wrap 8 (level * 2 + interior)) h.

(** ** Edges in a plane *)

(** A pixel through a pointer: writing. *)
Definition praw_set (p : plane) (i v : Z) : option plane :=
  if (i <? 0) || (zlen (pl_px p) <=? i) then None
  else Some (mkPlane (pl_w p) (pl_h p) (set_nth (pl_px p) (Z.to_nat i) v)).

(** loopfilter.cc l.152-184 and l.205-247: one position of an edge between
    macroblocks; [step] is 1 for vertical and the stride for horizontal edges. *)
Definition mb_edge_at (lm : limits) (x y step : Z) (p : plane) : option plane :=
  if negb (inside p x y) then None
  else
    let i := y * pl_w p + x in
    let? p3 := praw p (i - 4 * step) in let? p2 := praw p (i - 3 * step) in
    let? p1 := praw p (i - 2 * step) in let? p0 := praw p (i - step) in
    let? q0 := praw p i in let? q1 := praw p (i + step) in
    let? q2 := praw p (i + 2 * step) in let? q3 := praw p (i + 3 * step) in
    let mask := filter_mask (lm_interior lm) (lm_mb lm) p3 p2 p1 p0 q0 q1 q2 q3 in
    let hev := hev_mask (lm_hev lm) p1 p0 q0 q1 in
    let '(n2, n1, n0, m0, m1, m2) := vp8_mbfilter mask hev p2 p1 p0 q0 q1 q2 in
    let? p := praw_set p (i - 3 * step) n2 in let? p := praw_set p (i - 2 * step) n1 in
    let? p := praw_set p (i - step) n0 in let? p := praw_set p i m0 in
    let? p := praw_set p (i + step) m1 in praw_set p (i + 2 * step) m2.

(** loopfilter.cc l.268-301 and l.334-367: one position of an edge inside of a
    macroblock. *)
Definition sb_edge_at (lm : limits) (x y step : Z) (p : plane) : option plane :=
  if negb (inside p x y) then None
  else
    let i := y * pl_w p + x in
    let? p3 := praw p (i - 4 * step) in let? p2 := praw p (i - 3 * step) in
    let? p1 := praw p (i - 2 * step) in let? p0 := praw p (i - step) in
    let? q0 := praw p i in let? q1 := praw p (i + step) in
    let? q2 := praw p (i + 2 * step) in let? q3 := praw p (i + 3 * step) in
    let mask := filter_mask (lm_interior lm) (lm_sb lm) p3 p2 p1 p0 q0 q1 q2 q3 in
    let hev := hev_mask (lm_hev lm) p1 p0 q0 q1 in
    let '(n1, n0, m0, m1) := vp8_filter mask hev p1 p0 q0 q1 in
    let? p := praw_set p (i - 2 * step) n1 in let? p := praw_set p (i - step) n0 in
    let? p := praw_set p i m0 in praw_set p (i + step) m1.

(** Positions 4, 8, ... inside of a block. *)
Definition inner_edges (size : Z) : list Z := filter (fun k => (0 <? k) && (k mod 4 =? 0)) (zseq size).

(** The four passes on the block of this size at (x0, y0). *)
Definition mb_vertical (size x0 y0 : Z) (lm : limits) (p : plane) : option plane :=
  ofold (fun p row => mb_edge_at lm x0 (y0 + row) 1 p) (zseq size) p.
Definition sb_vertical (size x0 y0 : Z) (lm : limits) (p : plane) : option plane :=
  ofold (fun p k => ofold (fun p row => sb_edge_at lm (x0 + k) (y0 + row) 1 p) (zseq size) p) (inner_edges size) p.
Definition mb_horizontal (size x0 y0 : Z) (lm : limits) (p : plane) : option plane :=
  ofold (fun p column => mb_edge_at lm (x0 + column) y0 (pl_w p) p) (zseq size) p.
Definition sb_horizontal (size x0 y0 : Z) (lm : limits) (p : plane) : option plane :=
  ofold (fun p k => ofold (fun p column => sb_edge_at lm (x0 + column) (y0 + k) (pl_w p) p) (zseq size) p) (inner_edges size) p.

(** A step on the Y, U and V blocks of the macroblock at (column, row). *)
Definition on_planes (f : Z -> Z -> Z -> plane -> option plane) (column row : Z) (r : raster) : option raster :=
  let? y := f 16 (16 * column) (16 * row) (ra_y r) in
  let? u := f 8 (8 * column) (8 * row) (ra_u r) in
  let? v := f 8 (8 * column) (8 * row) (ra_v r) in
  Some (mkRaster (ra_dw r) (ra_dh r) y u v).

(** loopfilter.cc l.127-150. *)
Definition normal_filter (lm : limits) (skip_subblock_edges : bool) (column row : Z) (r : raster) : option raster :=
  let? r := (if 0 <? column then on_planes (fun s x y => mb_vertical s x y lm) column row r else Some r) in
  let? r := (if skip_subblock_edges then Some r else on_planes (fun s x y => sb_vertical s x y lm) column row r) in
  let? r := (if 0 <? row then on_planes (fun s x y => mb_horizontal s x y lm) column row r else Some r) in
  if skip_subblock_edges then Some r else on_planes (fun s x y => sb_horizontal s x y lm) column row r.

(** block.hh, macroblock.cc l.475-502: has_nonzero_. It stays false if the
    macroblock is skipped. *)
Definition has_nonzero (m : mbinfo) (c : mbcoef) : bool :=
  negb (skipped m) &&
  ((y2_coded m && snd (co_y2 c)) || existsb snd (co_y c) || existsb snd (co_u c) || existsb snd (co_v c)).

(** What may end decoding of a picture: Unsupported, or [None] as above. *)
Inductive pixel_outcome : Type := Filtered (r : raster) | SimpleUnsupported.

(** macroblock.cc l.601-641. [adj]: reference and mode adjustments. *)
Definition mb_loopfilter (key : bool) (adj : option (list Z * list Z)) (f : filter_params)
           (m : mbinfo) (c : mbcoef) (column row : Z) (r : raster) : option pixel_outcome :=
  let skip := y2_coded m && negb (has_nonzero m c) in
  let f := match adj with
           | Some (ra, ma) => fp_adjust ra ma (mb_reference m) (mb_ymode m) f
           | None => f
           end in
  if fp_level f <=? 0 then Some (Filtered r)
  else if fp_simple f then Some SimpleUnsupported
  else let? r' := normal_filter (make_limits key f) skip column row r in Some (Filtered r').
