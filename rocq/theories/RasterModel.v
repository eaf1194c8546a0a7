(** Pictures. Sources: src/util/2d.hh, src/util/raster.hh, raster.cc,
    src/decoder/vp8_raster.hh, src/decoder/prediction.cc l.38-101. *)
From Verif Require Import Base MVModel FrameModel.

(** [None]: a failed assertion, undefined behaviour or LogicError. *)
Definition obind {A B} (m : option A) (f : A -> option B) : option B :=
  match m with Some a => f a | None => None end.
Notation "'let?' x := m 'in' k" := (obind m (fun x => k))
  (at level 200, x pattern, m at level 100, k at level 200).

(** A loop whose body may fail. *)
Fixpoint ofold {A S} (f : S -> A -> option S) (l : list A) (s : S) : option S :=
  match l with
  | [] => Some s
  | a :: r => let? s' := f s a in ofold f r s'
  end.

(** 0, 1, ..., n-1. *)
Definition zseq (n : Z) : list Z := map Z.of_nat (seq 0 (Z.to_nat n)).

(** 2d.hh l.38-77, l.102-117: TwoD<uint8_t>, row by row. *)
Record plane : Type := mkPlane { pl_w : Z; pl_h : Z; pl_px : list Z }.

Definition inside (p : plane) (x y : Z) : bool := (0 <=? x) && (x <? pl_w p) && (0 <=? y) && (y <? pl_h p).
Definition pix_index (p : plane) (x y : Z) : nat := Z.to_nat (y * pl_w p + x).

(** 2d.hh l.107-117: at( column, row ) asserts that the position is inside. *)
Definition pget (p : plane) (x y : Z) : option Z :=
  if inside p x y then nth_error (pl_px p) (pix_index p x y) else None.
Definition pset (p : plane) (x y v : Z) : option plane :=
  if inside p x y then Some (mkPlane (pl_w p) (pl_h p) (set_nth (pl_px p) (pix_index p x y) v)) else None.

(** A pointer into the storage: [i] counts from its start. *)
Definition praw (p : plane) (i : Z) : option Z :=
  if i <? 0 then None else nth_error (pl_px p) (Z.to_nat i).

(** raster.hh l.46-57: width_ and height_ are those of the Y plane. *)
Record raster : Type := mkRaster {
  ra_dw : Z; ra_dh : Z;
  ra_y : plane; ra_u : plane; ra_v : plane
}.

(** vp8_raster.hh l.241, prediction.cc l.97-101: the Y plane has whole
    macroblocks, U and V half of that. *)
Definition padded (n : Z) : Z := 16 * Z.of_nat (mb_dim n).

(** raster.hh l.37-43: a new plane is filled with zeros; a recycled one with
    what it held before. *)
Definition blank_plane (w h : Z) : plane := mkPlane w h (repeat 0 (Z.to_nat (w * h))).
Definition blank_raster (w h : Z) : raster :=
  let pw := padded w in
  let ph := padded h in
  mkRaster w h (blank_plane pw ph) (blank_plane (pw / 2) (ph / 2)) (blank_plane (pw / 2) (ph / 2)).

(** vp8_raster.hh l.44-50. *)
Definition clamp255 (x : Z) : Z := if x <? 0 then 0 else if 255 <? x then 255 else x.

(** 2d.hh l.358-366, l.384-392: the cells (column, row) of a square block in
    the order in which the loops visit them. *)
Definition cells (n : Z) : list (Z * Z) := flat_map (fun r => map (fun c => (c, r)) (zseq n)) (zseq n).

(** Assignments output.at( c, r ) = v to a block whose top left pixel is
    (x0, y0). *)
Definition assign_block (x0 y0 : Z) (l : list (Z * Z * Z)) (p : plane) : option plane :=
  ofold (fun p '(c, r, v) => pset p (x0 + c) (y0 + r) v) l p.
