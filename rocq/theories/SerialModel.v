(** Export and import of a decoder, and its fingerprint.
    Sources: src/decoder/enc_state_serializer.hh, src/decoder/decoder.cc,
    src/decoder/probability_tables.cc, src/util/raster.cc. *)
From Verif Require Import Base MBModel FrameModel ChunkModel RasterModel LoopFilterModel ReconModel StateModel.

(** ** Writing *)

(** enc_state_serializer.hh l.43-56. *)
Definition PROB_TABLE := 0.
Definition FILT_ADJ := 1.
Definition SEGM_ABS := 2.
Definition SEGM_REL := 3.
Definition DECODER_STATE := 4.
Definition OPT_EMPTY := 5.
Definition OPT_FULL := 6.
Definition REFERENCES := 7.
Definition REF_LAST := 8.
Definition DECODER := 11.

(** enc_state_serializer.hh l.75-82, for a type of [n] bytes. Lengths are
    first written as a placeholder and overwritten later (l.84-90); here they
    are written once. *)
Fixpoint put (n : nat) (u : Z) : list Z :=
  match n with
  | O => []
  | S n' => Z.land u 255 :: put n' (Z.shiftr u 8)
  end.

(** The writers return their output and the size they report, a uint32_t. *)
Definition ser : Type := list Z * Z.

(** enc_state_serializer.hh l.92-105. *)
Definition put_raster (r : raster) (tag : Z) : ser :=
  let w := pl_w (ra_y r) in
  let h := pl_h (ra_y r) in
  let len := wrap 32 (w * h + 2 * (w / 2) * (h / 2)) in
  (tag :: put 4 len ++ pl_px (ra_y r) ++ pl_px (ra_u r) ++ pl_px (ra_v r), wrap 32 (len + 5)).

(** probability_tables.cc l.126-158. *)
Definition put_tables (pt : ProbabilityTables) : ser :=
  let len := 4 * 8 * 3 * 11 + 4 + 3 + 2 * 19 in
  (PROB_TABLE :: put 4 len ++ pt_coeff pt ++ pt_y_mode pt ++ pt_uv_mode pt ++ pt_mv pt, len + 5).

(** decoder.cc l.342-357; num_reference_frames is 4. *)
Definition put_adjustments (a : FilterAdjustments) : ser :=
  let len := 4 + 4 in
  (FILT_ADJ :: put 4 len ++ map (wrap 8) (fa_ref a) ++ map (wrap 8) (fa_mode a), len + 5).

(** decoder.cc l.396-422. *)
Definition put_segmentation (s : Segmentation) : ser :=
  let len := wrap 32 (4 + 4 + 4 + pl_w (sg_map s) * pl_h (sg_map s)) in
  ((if sg_absolute s then SEGM_ABS else SEGM_REL) :: put 4 len ++ put 2 (pl_w (sg_map s)) ++ put 2 (pl_h (sg_map s)) ++
   map (wrap 8) (sg_quant s) ++ map (wrap 8) (sg_filter s) ++ pl_px (sg_map s), wrap 32 (len + 5)).

Definition put_optional {A} (f : A -> ser) (o : option A) : ser :=
  match o with
  | Some a => let '(b, n) := f a in (OPT_FULL :: b, n)
  | None => ([OPT_EMPTY], 0)
  end.

(** decoder.cc l.283-314. *)
Definition put_state (s : DecoderState) : ser :=
  let '(t, tn) := put_tables (ds_pt s) in
  let '(g, gn) := put_optional put_segmentation (ds_seg s) in
  let '(a, an) := put_optional put_adjustments (ds_fa s) in
  let len := wrap 32 (4 + tn + gn + 1 + an + 1) in
  (DECODER_STATE :: put 4 len ++ put 2 (ds_w s) ++ put 2 (ds_h s) ++ t ++ g ++ a, wrap 32 (len + 5)).

(** decoder.cc l.177-197. *)
Definition put_references (r : references) : ser :=
  let '(b, n) := put_raster (rf_last r) REF_LAST in
  let len := wrap 32 (4 + n) in
  (REFERENCES :: put 4 len ++ put 2 (ra_dw (rf_last r)) ++ put 2 (ra_dh (rf_last r)) ++ b, wrap 32 (len + 5)).

(** decoder.cc l.54-69. *)
Definition export (d : decoder) : list Z :=
  let '(s, sn) := put_state (dc_state d) in
  let '(r, rn) := put_references (dc_refs d) in
  DECODER :: put 4 (wrap 32 (sn + rn)) ++ s ++ r.

(** ** Reading *)

(** std::out_of_range from the file's chunk; a failed assertion; an int
    overflow; an exception from the picture pool. *)
Inductive ser_error : Type := SRange | SAssert | SUndefined | SPool.

(** The deserialiser as what is left of its file. *)
Definition des (A : Type) : Type := list Z -> res ser_error (A * list Z).
Definition dret {A} (a : A) : des A := fun l => Ok (a, l).
Definition dbind {A B} (m : des A) (k : A -> des B) : des B := fun l => let! (a, l') := m l in k a l'.
Definition derr {A} (e : ser_error) : des A := fun _ => Err e.

Declare Scope des_scope.
Notation "'get!' x := m 'in' k" := (dbind m (fun x => k)) (at level 200, x pattern, m at level 100, k at level 200) : des_scope.
Local Open Scope des_scope.

Definition dassert (b : bool) : des unit := if b then dret tt else derr SAssert.
Definition remaining : des Z := fun l => Ok (zlen l, l).

(** enc_state_serializer.hh l.156-164, for a type of [n] bytes: from the last
    byte to the first. *)
Fixpoint be_value (l : list Z) (acc : Z) : Z :=
  match l with [] => acc | b :: r => be_value r (Z.lor (Z.shiftl acc 8) b) end.
Definition get (n : nat) : des Z := fun l =>
  if (length l <? n)%nat then Err SRange else Ok (be_value (rev (firstn n l)) 0, skipn n l).
(** l.148-154. *)
Definition peek_tag : des Z := fun l => match l with [] => Err SRange | b :: _ => Ok (b, l) end.
Definition get_tag : des Z := get 1.

(** [n] values of one byte each, one after the other. *)
Fixpoint get_bytes (n : nat) : des (list Z) :=
  match n with
  | O => dret []
  | S n' => get! b := get 1 in get! r := get_bytes n' in dret (b :: r)
  end.
(** Conversion to int8_t. *)
Definition get_int8s (n : nat) : des (list Z) := get! l := get_bytes n in dret (map s8 l).

(** probability_tables.cc l.160-195. *)
Definition get_tables : des ProbabilityTables :=
  get! t := get_tag in
  get! _ := dassert (t =? PROB_TABLE) in
  get! len := get 4 in
  get! _ := dassert (4 * 8 * 3 * 11 + 4 + 3 + 2 * 19 =? len) in
  get! coeff := get_bytes (4 * 8 * 3 * 11) in
  get! y := get_bytes 4 in
  get! uv := get_bytes 3 in
  get! mv := get_bytes (2 * 19) in
  dret (mkPT coeff mv y uv).

(** decoder.cc l.359-377. *)
Definition get_adjustments : des FilterAdjustments :=
  get! t := get_tag in
  get! _ := dassert (t =? FILT_ADJ) in
  get! len := get 4 in
  get! _ := dassert (4 + 4 =? len) in
  get! r := get_int8s 4 in
  get! m := get_int8s 4 in
  dret (mkFA r m).

(** decoder.cc l.424-438, l.457-471. The product of two uint16_t is an int;
    2d.hh l.78-79: no empty maps. *)
Definition get_segmentation : des Segmentation :=
  get! t := get_tag in
  get! _ := dassert ((t =? SEGM_ABS) || (t =? SEGM_REL)) in
  get! len := get 4 in
  get! w := get 2 in
  get! h := get 2 in
  get! _ := (if 2 ^ 31 <=? w * h then derr SUndefined else dret tt) in
  get! _ := dassert (wrap 32 (4 + 4 + 4 + w * h) =? len) in
  get! _ := dassert ((0 <? w) && (0 <? h)) in
  get! q := get_int8s 4 in
  get! f := get_int8s 4 in
  get! m := get_bytes (Z.to_nat (w * h)) in
  dret (mkSeg (t =? SEGM_ABS) q f (mkPlane w h m)).

(** decoder.cc l.246-254. *)
Definition get_optional {A} (m : des A) : des (option A) :=
  get! t := get_tag in
  if t =? OPT_FULL then get! a := m in dret (Some a) else dret None.

(** decoder.cc l.316-329, l.242-255. *)
Definition get_state : des DecoderState :=
  get! t := get_tag in
  get! _ := dassert (t =? DECODER_STATE) in
  get! len := get 4 in
  get! rem := remaining in
  get! _ := dassert (len <=? rem) in
  get! w := get 2 in
  get! h := get 2 in
  get! pt := get_tables in
  get! seg := get_optional get_segmentation in
  get! fa := get_optional get_adjustments in
  dret (mkDS w h pt seg fa).

(** enc_state_serializer.hh l.166-189. [pool w h]: the picture from the pool
    (raster_handle.cc), if it gives one; its pixels are overwritten in place,
    or kept if another tag comes next. *)
Definition get_ref (pool : Z -> Z -> option raster) (tag w h : Z) : des raster :=
  match pool w h with
  | None => derr SPool
  | Some r =>
      get! next := peek_tag in
      if next =? tag then
        get! _ := get_tag in
        get! len := get 4 in
        let rw := pl_w (ra_y r) in
        let rh := pl_h (ra_y r) in
        get! _ := dassert (len =? wrap 32 (rw * rh + 2 * (rw / 2) * (rh / 2))) in
        let read p := get! px := get_bytes (Z.to_nat (pl_w p * pl_h p)) in dret (mkPlane (pl_w p) (pl_h p) px) in
        get! y := read (ra_y r) in
        get! u := read (ra_u r) in
        get! v := read (ra_v r) in
        dret (mkRaster (ra_dw r) (ra_dh r) y u v)
      else dret r
  end.

(** decoder.cc l.199-212, l.171-175. *)
Definition get_references (pool : Z -> Z -> option raster) : des references :=
  get! t := get_tag in
  get! _ := dassert (t =? REFERENCES) in
  get! len := get 4 in
  get! rem := remaining in
  get! _ := dassert (len <=? rem) in
  get! w := get 2 in
  get! h := get 2 in
  get! last := get_ref pool REF_LAST w h in
  dret (mkRefs last last last).

(** decoder.cc l.71-81, l.48-52; decoder.hh l.250: error concealment is off in
    the new decoder. *)
Definition import (pool : Z -> Z -> option raster) (file : list Z) : res ser_error decoder :=
  let! (d, _) :=
    (get! t := get_tag in
     get! _ := dassert (t =? DECODER) in
     get! len := get 4 in
     get! rem := remaining in
     get! _ := dassert (len =? rem) in
     get! s := get_state in
     get! r := get_references pool in
     get! rem := remaining in
     get! _ := dassert (rem =? 0) in
     dret (mkDecoder s r false)) file in
  Ok d.

(** ** Fingerprint *)

(** boost::hash_combine and boost::hash_range (boost 1.54 to 1.80: a range is
    combined element by element) for any [combine]; hash values of integers
    are the integers. *)
Definition hash_range (combine : Z -> Z -> Z) (seed : Z) (l : list Z) : Z := fold_left combine l seed.

(** probability_tables.cc l.36-57. *)
Definition hash_tables (combine : Z -> Z -> Z) (pt : ProbabilityTables) : Z :=
  let s := hash_range combine 0 (pt_coeff pt) in
  let s := hash_range combine s (pt_y_mode pt) in
  let s := hash_range combine s (pt_uv_mode pt) in
  hash_range combine s (pt_mv pt).

(** decoder.cc l.331-340. The second range starts in the array of mode
    adjustments and ends behind the array of reference adjustments. The
    latter is the member before the former (decoder.hh l.96-99), so both
    ends are the same address and the range is empty. *)
Definition hash_adjustments (combine : Z -> Z -> Z) (a : FilterAdjustments) : Z :=
  let s := hash_range combine 0 (fa_ref a) in
  hash_range combine s [].

(** decoder.cc l.379-394. *)
Definition hash_segmentation (combine : Z -> Z -> Z) (s : Segmentation) : Z :=
  let v := combine 0 (b2z (sg_absolute s)) in
  let v := hash_range combine v (sg_quant s) in
  let v := hash_range combine v (sg_filter s) in
  hash_range combine v (pl_px (sg_map s)).

(** decoder.cc l.266-281. *)
Definition hash_state (combine : Z -> Z -> Z) (s : DecoderState) : Z :=
  let v := combine 0 (ds_w s) in
  let v := combine v (ds_h s) in
  let v := combine v (hash_tables combine (ds_pt s)) in
  let v := match ds_seg s with Some g => combine v (hash_segmentation combine g) | None => v end in
  match ds_fa s with Some a => combine v (hash_adjustments combine a) | None => v end.

(** raster.cc l.52-61. *)
Definition hash_raster (combine : Z -> Z -> Z) (r : raster) : Z :=
  let v := hash_range combine 0 (pl_px (ra_y r)) in
  let v := hash_range combine v (pl_px (ra_u r)) in
  hash_range combine v (pl_px (ra_v r)).

(** decoder.cc l.143-155: DecoderHash; l.482-490: hash. *)
Record decoder_hash : Type := mkHash { dh_state : Z; dh_last : Z; dh_golden : Z; dh_alt : Z }.
Definition get_hash (combine : Z -> Z -> Z) (d : decoder) : decoder_hash :=
  mkHash (hash_state combine (dc_state d)) (hash_raster combine (rf_last (dc_refs d)))
         (hash_raster combine (rf_golden (dc_refs d))) (hash_raster combine (rf_alt (dc_refs d))).
Definition hash_of (combine : Z -> Z -> Z) (h : decoder_hash) : Z :=
  combine (combine (combine (combine 0 (dh_state h)) (dh_last h)) (dh_golden h)) (dh_alt h).

(** decoder.cc l.516-529. *)
Definition minihash (combine : Z -> Z -> Z) (d : decoder) : Z := wrap 32 (hash_of combine (get_hash combine d)).
Definition minihash_match (combine : Z -> Z -> Z) (d : decoder) (other : Z) : bool :=
  if other =? 0 then true else minihash combine d =? other.
