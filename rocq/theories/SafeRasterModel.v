(** The encoder's copies of the reference pictures with wide margins
    (decoder/safe_raster.cc, encoder/safe_references.cc) and prediction from
    them (decoder/prediction.cc l.681-736).

    MARGIN_WIDTH (vp8_raster.hh l.350) is a parameter [mw] of the functions so
    that small cases can be computed; the code has 256. *)
From Verif Require Import Base TreeModel MVModel FrameModel RasterModel PredictModel.

Definition MARGIN_WIDTH : Z := 256.

(** memcpy or memset of the bytes [l] at offset [off] of an allocation. None:
    the bytes do not lie inside of it. *)
Definition mem_put (m : list Z) (off : Z) (l : list Z) : option (list Z) :=
  if (off <? 0) || (zlen m <? off + zlen l) then None
  else Some (firstn (Z.to_nat off) m ++ l ++ skipn (Z.to_nat off + length l) m).

(** The same at &safe_Y_.at( column, row ). *)
Definition put_run (p : plane) (x y : Z) (l : list Z) : option plane :=
  if inside p x y
  then let? px := mem_put (pl_px p) (y * pl_w p + x) l in Some (mkPlane (pl_w p) (pl_h p) px)
  else None.

(** safe_raster.cc l.34-37: the dimensions of safe_Y_. A new one is filled with
    zeros, a recycled one with what it held before: the contents are an
    argument of [copy_raster]. *)
Definition safe_dims (mw w h : Z) : Z * Z := (w + mw * 2, h + mw * 2).

(** l.61-97: the row of the source that goes into row [nrow]. *)
Definition source_row (mw h nrow : Z) : Z :=
  if nrow <? mw then 0 else if mw + h <=? nrow then h - 1 else nrow - mw.

(** l.62-72, 75-85 or 87-97: one row. original_width is a uint16_t; a picture
    is at most 16384 wide. The memcpy reads [pl_w src] bytes from the start of
    the row. *)
Definition copy_row (mw : Z) (src : plane) (p : plane) (nrow : Z) : option plane :=
  let sr := source_row mw (pl_h src) nrow in
  let? first := pget src 0 sr in
  let? p := put_run p 0 nrow (repeat first (Z.to_nat mw)) in
  let? line := read_run src 0 sr (pl_w src) in
  let? p := put_run p mw nrow line in
  let? last := pget src (pl_w src - 1) sr in
  put_run p (mw + pl_w src) nrow (repeat last (Z.to_nat mw)).

(** l.45-100. *)
Definition copy_raster (mw : Z) (src safe : plane) : option plane :=
  ofold (copy_row mw src) (zseq (pl_h safe)) safe.

(** safe_references.cc l.57-62: the dimensions are those of the displayed
    picture, the source is the whole Y plane. [old] is what the allocation
    holds before. *)
Definition load (mw : Z) (r : raster) (old : list Z) : option plane :=
  let (w, h) := safe_dims mw (ra_dw r) (ra_dh r) in
  copy_raster mw (ra_y r) (mkPlane w h old).

(** safe_raster.cc l.39-43: the constructor from a picture takes the dimensions
    of the Y plane. *)
Definition safe_of (mw : Z) (r : raster) (old : list Z) : option plane :=
  let (w, h) := safe_dims mw (pl_w (ra_y r)) (pl_h (ra_y r)) in
  copy_raster mw (ra_y r) (mkPlane w h old).

(** l.102-106: at( column, row ). The assertion and that of safe_Y_.at. *)
Definition safe_at (mw : Z) (safe : plane) (x y : Z) : option Z :=
  if (mw + x <? 0) || (mw + y <? 0) then None else pget safe (mw + x) (mw + y).

(** prediction.cc l.752-811: the assembly routines filter bytes from a pointer
    ([read] gives the byte at an offset from it) with the taps of
    [sixtap_filters]; the horizontal one begins two bytes to the left. The
    routines themselves, and what they read beyond that, are in AsmInterModel. *)
Definition sse_horiz (f : list Z) (read : Z -> option Z) (stride c r : Z) : option Z :=
  six_tap f (fun k => read (stride * r + c + (k - 2))).
Definition sse_vert (f : list Z) (read : Z -> option Z) (stride c r : Z) : option Z :=
  six_tap f (fun k => read (stride * (r + k) + c)).

(** prediction.cc l.681-730. The intermediate has rows of [size] bytes. *)
Definition safe_predict (mw size column row : Z) (m : mv) (safe out : plane) : option plane :=
  let sc := column * size + Z.shiftr (fst m) 3 in
  let sr := row * size + Z.shiftr (snd m) 3 in
  let x0 := size * column in
  let y0 := size * row in
  let stride := pl_w safe in
  let mx := Z.land (fst m) 7 in
  let my := Z.land (snd m) 7 in
  let? _ := safe_at mw safe sc sr in
  let start := (mw + sr) * stride + (mw + sc) in
  if (mx =? 0) && (my =? 0)
  then predict_cells size x0 y0 (fun c r => praw safe (start + stride * r + c)) out
  else
    let? hf := filter_for mx in
    let? vf := filter_for my in
    if negb (mx =? 0)
    then
      if negb (my =? 0)
      then
        let? mid := grid size (size + 5) (sse_horiz hf (fun i => praw safe (start - 2 * stride + i)) stride) in
        predict_cells size x0 y0 (sse_vert vf (fun i => if i <? 0 then None else nth_error (concat mid) (Z.to_nat i)) size) out
      else predict_cells size x0 y0 (sse_horiz hf (fun i => praw safe (start + i)) stride) out
    else predict_cells size x0 y0 (sse_vert vf (fun i => praw safe (start - 2 * stride + i)) stride) out.
