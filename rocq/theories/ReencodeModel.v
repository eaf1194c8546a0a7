(** Encoding a picture again with the modes and vectors of a given frame.
    Sources: src/encoder/reencode.cc, src/encoder/encode_inter.cc l.375-507,
    src/encoder/encode_intra.cc l.48-71, l.170-222, l.285-335. *)
From Verif Require Import Base TreeModel HeaderModel MVModel MBModel TokenModel FrameModel QuantModel RasterModel TransformModel PredictModel LoopFilterModel ReconModel StateModel.
From Verif Require Import ResidueModel EncoderModel EncodeModel SearchModel Tables.

(** FIRST_PASS: no trellis, and so no use of the costs. *)
Definition no_costs : mb_costs := mkMC (fun _ => 0) (fun _ _ => 0) 0 0 None (fun _ _ => 0).

(** ** Intra-coded macroblocks *)

(** reencode.cc l.153-166: one sub-block. *)
Definition carry_sub (q : Quantizer) (o : plane) (column row : Z) (m : mbinfo) (s : list block * plane) (cell : Z * Z) : option (list block * plane) :=
  let k := Z.to_nat (4 * snd cell + fst cell) in
  let x := 4 * column + fst cell in
  let y := 4 * row + snd cell in
  let mode := nth k (mb_bmodes m) 0 in
  let? orig := block_at 4 (4 * x) (4 * y) o in
  let? p := intra_predict 4 x y mode (snd s) in
  let? r := sub_code no_costs q k orig x y mode p in
  Some (fst s ++ [fst r], snd r).

(** l.145-168, l.218-220: the Y2 block, the Y blocks and the plane that is left. *)
Definition carry_luma (q : Quantizer) (o : plane) (column row : Z) (m : mbinfo) (p : plane) : option (block * list block * plane) :=
  if mb_ymode m =? B_PRED then
    let? s := ofold (carry_sub q o column row m) (cells 4) ([], p) in
    Some (fresh_block, fst s, snd s)
  else
    let? p := intra_predict 16 column row (mb_ymode m) p in
    let? l := code_luma None (fun _ _ => 0) q o column row p in
    Some (fst l, snd l, p).

(** l.222-229, one chroma plane. *)
Definition carry_chroma (q : Quantizer) (o : plane) (column row : Z) (m : mbinfo) (p : plane) : option (list block * plane) :=
  let? p := intra_predict 8 column row (mb_uvmode m) p in
  let? bl := code_chroma None (fun _ _ => 0) 0 q o column row p in
  Some (bl, p).

(** ** Inter-coded macroblocks *)

(** encode_inter.cc l.385-399: Y blocks that carry their own first coefficients. *)
Definition code_split (q : Quantizer) (o : plane) (column row : Z) (p : plane) : option (list block) :=
  omap (fun cell =>
      let x := 16 * column + 4 * fst cell in
      let y := 16 * row + 4 * snd cell in
      let? a := block_at 4 x y o in
      let? b := block_at 4 x y p in
      code_block None 0 q Y_without_Y2 (concat a) (concat b)) (cells 4).

(** reencode.cc l.170-200, l.207-209, encode_inter.cc l.375-433. *)
Definition carry_luma_inter (q : Quantizer) (o : plane) (column row : Z) (m : mbinfo) (ref p : plane) : option (block * list block * plane) :=
  if mb_ymode m =? SPLITMV then
    let? p := ofold (fun p '(sc, sr) =>
                       inter_predict 4 (4 * column + sc) (4 * row + sr) (nth (Z.to_nat (4 * sr + sc)) (mb_mvs m) mv_zero) ref p) (cells 4) p in
    let? bl := code_split q o column row p in
    Some (fresh_block, bl, p)
  else
    let? p := inter_predict 16 column row (base_mv m) ref p in
    let? l := code_luma None (fun _ _ => 0) q o column row p in
    Some (fst l, snd l, p).

(** encode_inter.cc l.435-507, one chroma plane; [m] has the vectors of the new
    macroblock. *)
Definition carry_chroma_inter (q : Quantizer) (o : plane) (column row : Z) (m : mbinfo) (ref p : plane) : option (list block * plane) :=
  let? p := (if mb_ymode m =? SPLITMV then
               ofold (fun p '(sc, sr) => inter_predict 4 (2 * column + sc) (2 * row + sr) (chroma_mv m sc sr) ref p) (cells 2) p
             else inter_predict 8 column row (chroma_mv m 0 0) ref p) in
  let? bl := code_chroma None (fun _ _ => 0) 0 q o column row p in
  Some (bl, p).

(** ** Macroblocks *)

(** What a macroblock of the new frame has besides coefficients. Its header is
    that of the old one (l.138). The rest is what a new frame has (frame.cc
    l.385-389: zeros) where it is not set: the segment; the vectors and the modes
    of the sub-blocks (encode_intra.cc l.62, l.190; encode_inter.cc l.404-406;
    reencode.cc l.188-194); the chroma mode of an inter-coded macroblock. *)
Definition carried (m : mbinfo) (skip : option bool) : mbinfo :=
  let split := mb_ymode m =? SPLITMV in
  mkMB None skip (mb_inter m) (mb_sel1 m) (mb_sel2 m) (mb_flipped m) (mb_partition m) (mb_ymode m)
       (if mb_inter m then if split then mb_bmodes m else repeat 0 16
        else if mb_ymode m =? B_PRED then mb_bmodes m else repeat (implied_subblock_mode (mb_ymode m)) 16)
       (if mb_inter m then if split then mb_mvs m else repeat (base_mv m) 16 else repeat mv_zero 16)
       (if mb_inter m then 0 else mb_uvmode m).

(** l.131-234. The code asks for the mode first and then whether the macroblock
    is inter-coded. A macroblock is if and only if its mode is one of those of
    l.170-182. [None]: also the exception for other modes. *)
Definition carry_mb (q : Quantizer) (refs : references) (o : raster) (column row : Z) (m : mbinfo) (r : raster) : option (mbinfo * mbcoef * raster) :=
  if mb_inter m then
    let? ref := ref_at refs (MBModel.mb_reference m) in
    let m1 := carried m None in
    let? y := carry_luma_inter q (ra_y o) column row m (ra_y ref) (ra_y r) in
    let? u := carry_chroma_inter q (ra_u o) column row m1 (ra_u ref) (ra_u r) in
    let? v := carry_chroma_inter q (ra_v o) column row m1 (ra_v ref) (ra_v r) in
    let c := mkCoef (fst (fst y)) (snd (fst y)) (fst u) (fst v) in
    let m2 := carried m (Some (skip_for (mb_ymode m) c)) in
    let? r := reconstruct_inter q refs m2 c column row (mkRaster (ra_dw r) (ra_dh r) (snd y) (snd u) (snd v)) in
    Some (m2, c, r)
  else
    let? y := carry_luma q (ra_y o) column row m (ra_y r) in
    let? u := carry_chroma q (ra_u o) column row m (ra_u r) in
    let? v := carry_chroma q (ra_v o) column row m (ra_v r) in
    let c := mkCoef (fst (fst y)) (snd (fst y)) (fst u) (fst v) in
    let m2 := carried m (Some (skip_for (mb_ymode m) c)) in
    let? r := reconstruct_intra q m2 c column row (mkRaster (ra_dw r) (ra_dh r) (snd y) (snd u) (snd v)) in
    Some (m2, c, r).

(** ** Frames *)

(** l.280-294: macroblock [i] of the new frame; those of the old frame are in
    [ms0]. The temporary raster is not used. *)
Definition carry_at (q : Quantizer) (refs : references) (W : nat) (ms0 : list mbinfo) (o : raster) (s : encoding) (i : nat) : option (mbinfo * mbcoef * raster * raster) :=
  let? m := nth_error ms0 i in
  let? x := carry_mb q refs o (column_of W i) (row_of W i) m (ec_r s) in
  Some (x, ec_t s).
Definition carry_frame (q : Quantizer) (refs : references) (W n : nat) (ms0 : list mbinfo) (o r t : raster) : option encoding :=
  ofold (fun s i => let? x := carry_at q refs W ms0 o s i in Some (add_mb s x)) (seq 0 n) (mkEnc [] [] r t).

(** encode_inter.cc l.527-556: the reference that is counted. *)
Definition counted_reference (m : mbinfo) : SearchModel.mb_reference :=
  let k := MBModel.mb_reference m in
  if k =? LAST_FRAME then RLast else if k =? GOLDEN_FRAME then RGolden else if k =? ALTREF_FRAME then RAltref else RCurrent.

(** l.241-272 and what the optimisations of l.298-300 set. [ups]: the updates of
    the token probabilities (C67). Fields that are not mentioned are zeros. *)
Definition residue_header (hd : InterFrameHeader) (qi : QuantIndices) (last_frame : bool) (ups : list (option Z)) (skip : Z) (probs : Z * Z * Z) : InterFrameHeader :=
  let '(inter, last, golden) := probs in
  mkIFH (if_update_segmentation hd) (if_filter_type hd) (if_loop_filter_level hd) (if_sharpness_level hd) (if_mode_lf_adjustments hd) 0 qi
        (last_frame || if_refresh_golden hd) (last_frame || if_refresh_alternate hd)
        (if last_frame then None else if_copy_to_golden hd) (if last_frame then None else if_copy_to_alternate hd)
        (if_sign_bias_golden hd) (if_sign_bias_alternate hd) (if_refresh_entropy_probs hd) (last_frame || if_refresh_last hd)
        ups (Some skip) inter last golden None None (repeat None 38).

(** l.236-303. New frames are shown (frame.cc l.385-386). Also given: the
    reconstruction, which the code drops: write_frame decodes the frame again. *)
Definition update_residues (refs : references) (W n : nat) (hd : InterFrameHeader) (ms0 : list mbinfo) (qi : QuantIndices) (last_frame : bool)
           (ups : list (option Z)) (o r t : raster) : option (wframe * raster) :=
  let? q := make_quantizer qi in
  let? e := carry_frame q refs W n ms0 o r t in
  let? skip := optimize_prob_skip (map (fun mc => has_nonzero (fst mc) (snd mc)) (combine (ec_ms e) (ec_cs e))) in
  let? probs := optimize_interframe_probs 0 (if_prob_references_last hd) (if_prob_references_golden hd) (map counted_reference (ec_ms e)) in
  Some (InterW true (residue_header hd qi last_frame ups skip probs) (ec_ms e) (ec_cs e) (repeat 0 n), ec_r e).

(** ** Key frames as inter frames *)

(** l.42-73, what the optimisations of l.122-124 set, and the deltas and the
    level of apply_best_loopfilter_settings (l.126; see C46). The fields that are
    not mentioned are zeros. *)
Definition as_inter_header (hd : KeyFrameHeader) (qi : QuantIndices) (level : Z) (ups : list (option Z)) (skip : Z) (probs : Z * Z * Z) : InterFrameHeader :=
  let '(inter, last, golden) := probs in
  mkIFH (kf_update_segmentation hd) (kf_filter_type hd) level (kf_sharpness_level hd) zero_deltas 0 qi
        true true None None false false true true ups (Some skip) inter last golden
        (Some k_default_y_mode_probs) (Some k_default_uv_mode_probs) (repeat None 38).

(** l.37-129. The key frame gives only fields of its header. The exception of
    l.47-49 is in [reencode_one]. *)
Definition reencode_as_interframe (env : search_env) (mcs : nat -> mb_costs) (W H : nat) (hd : KeyFrameHeader) (qi : QuantIndices) (level : Z)
           (ups : list (option Z)) (o r t : raster) : option (wframe * raster) :=
  let? q := make_quantizer qi in
  let? e := encode_inter env mcs q W H o r t in
  let? skip := optimize_prob_skip (map (fun mc => has_nonzero (fst mc) (snd mc)) (combine (ec_ms e) (ec_cs e))) in
  let? probs := optimize_interframe_probs 0 0 0 (map counted_reference (ec_ms e)) in
  Some (InterW true (as_inter_header hd qi level ups skip probs) (ec_ms e) (ec_cs e) (repeat 0 (W * H)), ec_r e).

(** ** Runs *)

(** A prediction frame: a key frame, an inter frame (l.306). *)
Record prediction : Type := mkPred {
  pr_key : option (bool * KeyFrameHeader * list mbinfo * list mbcoef * list Z);
  pr_inter : option (bool * InterFrameHeader * list mbinfo * list mbcoef * list Z)
}.
Definition key_quantizer (p : prediction) : option QuantIndices := option_map (fun '(_, hd, _, _, _) => kf_quant_indices hd) (pr_key p).
Definition inter_quantizer (p : prediction) : option QuantIndices := option_map (fun '(_, hd, _, _, _) => if_quant_indices hd) (pr_inter p).

(** What the encoder uses for a frame besides: the choices that are modelled
    elsewhere (the updates of the token probabilities, the level of the loop
    filter, the costs, the padded reference, the weight), and what the buffers hold. *)
Record work : Type := mkWork {
  wk_ups : list (option Z); wk_level : Z;
  wk_costs : nat -> mb_costs; wk_safe : raster -> plane; wk_sads : list Z; wk_mv_costs : list (list (list Z)); wk_weight : Z;
  wk_r : raster; wk_t : raster; wk_blank : raster; wk_scratch : raster
}.
Definition env_for (e : encoder) (k : work) : search_env :=
  mkSE (en_refs e) (wk_safe k (rf_last (en_refs e))) (wk_sads k) (wk_mv_costs k) (wk_weight k) (en_realtime e).

Inductive reencode_error : Type :=
| NoRasters (* l.312 *) | CountMismatch (* l.314 *) | SizeMismatch (* l.330 *) | Segmentation (* l.48 *)
| NoExtraKey (* l.358 *) | NoFrame (* l.378 *)
| Stuck. (* undefined behaviour, an assertion or another exception *)

Definition set_y_ac (qi : QuantIndices) (y : Z) : QuantIndices :=
  mkQI y (y_dc qi) (y2_dc qi) (y2_ac qi) (uv_dc qi) (uv_ac qi).

Definition stuck {A : Type} (x : option A) : res reencode_error A := match x with Some a => Ok a | None => Err Stuck end.

Definition residues (e : encoder) (p : prediction) (qi : QuantIndices -> QuantIndices) (last_frame : bool) (k : work) (target : raster) : res reencode_error (encoder * list Z) :=
  let s := en_state e in
  stuck (let? x := pr_inter p in
         let '(_, hd, ms, _, _) := x in
         let W := mb_dim (ds_w s) in
         let? f := update_residues (en_refs e) W (W * mb_dim (ds_h s)) hd ms (qi (if_quant_indices hd)) last_frame (wk_ups k) target (wk_r k) (wk_t k) in
         write_frame e (fst f) (wk_blank k) (wk_scratch k)).

(** One frame, l.322-379. [mix]: lrint of the weighted mean (l.345, l.362).
    [first]: is it the first one of the loop; [zero]: prediction frame 0;
    [next]: the one after, if there is one. *)
Definition reencode_one (mix : Z -> Z -> Z) (extra : bool) (iw ih : Z) (first : bool) (zero : option prediction) (next : option prediction)
           (e : encoder) (k : work) (target : raster) (p : prediction) : res reencode_error (encoder * list Z) :=
  let s := en_state e in
  if negb ((ra_dw target =? ds_w s) && (ra_dh target =? ds_h s) && (ds_w s =? iw) && (ds_h s =? ih)) then Err SizeMismatch
  else
    let last_frame := match next with None => true | Some _ => false end in
    match first, pr_key p with
    | true, Some (_, hd, _, _, _) =>
        let qi := match next with
                  | Some n => match inter_quantizer n with
                              | Some qn => set_y_ac (kf_quant_indices hd) (mix (y_ac_qi (kf_quant_indices hd)) (y_ac_qi qn))
                              | None => kf_quant_indices hd
                              end
                  | None => kf_quant_indices hd
                  end in
        match kf_update_segmentation hd with
        | Some _ => Err Segmentation
        | None => stuck (let? f := reencode_as_interframe (env_for e k) (wk_costs k) (mb_dim (ds_w s)) (mb_dim (ds_h s)) hd qi (wk_level k) (wk_ups k) target (wk_r k) (wk_t k) in
                    write_frame (try_frames e [TrialInter true]) (fst f) (wk_blank k) (wk_scratch k))
        end
    | _, key =>
        if first && extra then
          match (let? z := zero in key_quantizer z) with
          | None => Err NoExtraKey
          | Some qz => residues e p (fun qi => set_y_ac qi (mix (y_ac_qi qz) (y_ac_qi qi))) last_frame k target
          end
        else match key, pr_inter p with
             | Some (show, hd, ms, cs, ids), _ => stuck (write_frame e (KeyW show hd ms cs ids) (wk_blank k) (wk_scratch k))
             | None, Some _ => residues e p (fun qi => qi) last_frame k target
             | None, None => Err NoFrame
             end
    end.

(** l.319-380: the frames that were appended, and how the loop ended. *)
Fixpoint reencode_loop (mix : Z -> Z -> Z) (extra : bool) (iw ih : Z) (first : bool) (zero : option prediction)
         (e : encoder) (l : list (work * raster * prediction)) : encoder * list (list Z) * option reencode_error :=
  match l with
  | [] => (e, [], None)
  | (k, target, p) :: r =>
      match reencode_one mix extra iw ih first zero (match r with [] => None | (_, _, n) :: _ => Some n end) e k target p with
      | Err x => (e, [], Some x)
      | Ok (e', bytes) =>
          let '(e'', bs, x) := reencode_loop mix extra iw ih false zero e' r in (e'', bytes :: bs, x)
      end
  end.

(** l.305-381. *)
Definition reencode (mix : Z -> Z -> Z) (extra : bool) (iw ih : Z) (e : encoder) (targets : list raster) (preds : list prediction) (ks : list work)
  : encoder * list (list Z) * option reencode_error :=
  if (zlen targets =? 0) then (e, [], Some NoRasters)
  else if negb (zlen targets =? zlen preds) then (e, [], Some CountMismatch)
  else reencode_loop mix extra iw ih true (nth_error preds 0) e (skipn (if extra then 1 else 0) (combine (combine ks targets) preds)).
