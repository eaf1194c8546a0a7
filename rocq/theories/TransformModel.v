(** Inverse transforms. Source: src/decoder/transform.cc (portable branches). *)
From Verif Require Import Base MVModel FrameModel RasterModel.

(** The result of arithmetic in int (32 bits): overflow is undefined. *)
Definition i32 (x : Z) : option Z := if (-2147483648 <=? x) && (x <=? 2147483647) then Some x else None.

(** One pass of l.60-68 and l.72-81: sums and differences of four values. *)
Definition walsh_pass (x0 x1 x2 x3 : Z) : option (list Z) :=
  let? a1 := i32 (x0 + x3) in
  let? b1 := i32 (x1 + x2) in
  let? c1 := i32 (x1 - x2) in
  let? d1 := i32 (x0 - x3) in
  let? r0 := i32 (a1 + b1) in
  let? r1 := i32 (c1 + d1) in
  let? r2 := i32 (a1 - b1) in
  let? r3 := i32 (d1 - c1) in
  Some [r0; r1; r2; r3].

Definition nth16 (c : list Z) (i : Z) : Z := nth (Z.to_nat i) c 0.

(** transform.cc l.48-91: the DC coefficients of the sixteen luma blocks in
    raster order. The first pass goes down the columns. *)
Definition iwht (c : list Z) : option (list Z) :=
  let? cols := omap (fun i => walsh_pass (nth16 c i) (nth16 c (i + 4)) (nth16 c (i + 8)) (nth16 c (i + 12))) [0; 1; 2; 3] in
  let mid k i := s16 (nth (Z.to_nat k) (nth (Z.to_nat i) cols []) 0) in   (* intermediate.at( 4 * k + i ) *)
  let? rows := omap (fun k => walsh_pass (mid k 0) (mid k 1) (mid k 2) (mid k 3)) [0; 1; 2; 3] in
  let? out := omap (fun x => let? y := i32 (x + 3) in Some (s16 (Z.shiftr y 3))) (concat rows) in
  Some out.

(** transform.cc l.103-104. *)
Definition MUL_20091 (a : Z) : option Z := let? p := i32 (a * 20091) in i32 (Z.shiftr p 16 + a).
Definition MUL_35468 (a : Z) : option Z := let? p := i32 (a * 35468) in Some (Z.shiftr p 16).

(** One pass of l.112-122 and l.124-129. *)
Definition idct_pass (x0 x1 x2 x3 : Z) : option (list Z) :=
  let? t0 := i32 (x0 + x2) in
  let? t1 := i32 (x0 - x2) in
  let? m1 := MUL_35468 x1 in
  let? m2 := MUL_20091 x3 in
  let? t2 := i32 (m1 - m2) in
  let? m3 := MUL_20091 x1 in
  let? m4 := MUL_35468 x3 in
  let? t3 := i32 (m3 + m4) in
  let? r0 := i32 (t0 + t3) in
  let? r1 := i32 (t1 + t2) in
  let? r2 := i32 (t1 - t2) in
  let? r3 := i32 (t0 - t3) in
  Some [r0; r1; r2; r3].

(** transform.cc l.106-140, without the addition to the pixels: the residue in
    raster order. The first pass goes down column i and stores to
    intermediate.at( 4 * i + k ), the second reads i, i + 4, i + 8, i + 12. *)
Definition idct_residue (c : list Z) : option (list Z) :=
  let? cols := omap (fun i => idct_pass (nth16 c i) (nth16 c (i + 4)) (nth16 c (i + 8)) (nth16 c (i + 12))) [0; 1; 2; 3] in
  let mid i := s16 (nth (Z.to_nat i) (concat cols) 0) in
  let? rows := omap (fun i => idct_pass (mid i) (mid (i + 4)) (mid (i + 8)) (mid (i + 12))) [0; 1; 2; 3] in
  omap (fun x => let? y := i32 (x + 4) in Some (Z.shiftr y 3)) (concat rows).

(** transform.cc l.131-139: add to the 4x4 block at (x0, y0). *)
Definition add_residue (x0 y0 : Z) (res : list Z) (p : plane) : option plane :=
  ofold (fun p '(c, r) =>
           let? v := pget p (x0 + c) (y0 + r) in
           let? s := i32 (v + nth16 res (4 * r + c)) in
           pset p (x0 + c) (y0 + r) (clamp255 s)) (cells 4) p.
Definition idct_add (x0 y0 : Z) (c : list Z) (p : plane) : option plane :=
  let? res := idct_residue c in add_residue x0 y0 res p.
