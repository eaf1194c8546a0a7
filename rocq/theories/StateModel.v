(** The decoder's persistent state and what a frame does to it.
    Sources: src/decoder/decoder.hh, src/decoder/decoder.cc,
    src/decoder/decoder_state.hh, src/decoder/frame.cc l.115-119, l.271-307,
    src/decoder/macroblock.cc l.73-82. *)
From Verif Require Import Base BoolCoderModel ParserModel Tables TreeModel HeaderModel MVModel MBModel ChunkModel ContainerModel FrameModel.
From Verif Require Import QuantModel RasterModel TransformModel PredictModel LoopFilterModel ReconModel.

(** ** State *)

(** decoder.hh l.190-196. *)
Record DecoderState : Type := mkDS {
  ds_w : Z;
  ds_h : Z;
  ds_pt : ProbabilityTables;
  ds_seg : option Segmentation;
  ds_fa : option FilterAdjustments
}.

(** decoder.hh l.244-250. *)
Record decoder : Type := mkDecoder {
  dc_state : DecoderState;
  dc_refs : references;
  dc_conceal : bool
}.

(** Optional::get_or. src/util/optional.hh *)
Definition get_or {A} (d : A) (o : option A) : A := match o with Some a => a | None => d end.

(** decoder_state.hh l.35-51. The adjustments are int8_t; the header's values
    have at most seven bits and a sign. [None]: the assertion fails. *)
Definition seg_update (s : Segmentation) (u : option UpdateSegmentation) : option Segmentation :=
  match u with
  | None => None
  | Some u => match segment_feature_data u with
              | Some f => Some (mkSeg (segment_feature_mode f) (map (get_or 0) (quantizer_update f)) (map (get_or 0) (loop_filter_update f)) (sg_map s))
              | None => Some s
              end
  end.

(** decoder_state.hh l.169-176; decoder.hh l.153-165 for the initial values. *)
Definition seg_new (w h : Z) (u : option UpdateSegmentation) : option Segmentation :=
  seg_update (mkSeg false (repeat 0 4) (repeat 0 4) (mkPlane w h (repeat 3 (Z.to_nat (w * h))))) u.

(** decoder_state.hh l.53-64. *)
Definition fa_update (a : FilterAdjustments) (m : option (option ModeRefLFDeltaUpdate)) : option FilterAdjustments :=
  match m with
  | None => None
  | Some None => Some a
  | Some (Some d) => Some (mkFA (map (get_or 0) (ref_update d)) (map (get_or 0) (mode_update d)))
  end.
(** decoder.hh l.95-106. *)
Definition fa_new (m : option (option ModeRefLFDeltaUpdate)) : option FilterAdjustments :=
  fa_update (mkFA (repeat 0 4) (repeat 0 4)) m.

(** decoder.cc l.230-232. *)
Definition fresh_state (w h : Z) : DecoderState := mkDS w h default_pt None None.

(** decoder.cc l.234-240: the state after the header of a key frame. *)
Definition key_state (w h : Z) (hd : KeyFrameHeader) : DecoderState :=
  mkDS w h default_pt
    (match kf_update_segmentation hd with Some _ => seg_new w h (kf_update_segmentation hd) | None => None end)
    (match kf_mode_lf_adjustments hd with Some _ => fa_new (kf_mode_lf_adjustments hd) | None => None end).

(** Assignments to single members of the state. *)
Definition set_tables (s : DecoderState) (pt : ProbabilityTables) : DecoderState := mkDS (ds_w s) (ds_h s) pt (ds_seg s) (ds_fa s).
Definition set_seg (s : DecoderState) (seg : option Segmentation) : DecoderState := mkDS (ds_w s) (ds_h s) (ds_pt s) seg (ds_fa s).
Definition set_fa (s : DecoderState) (fa : option FilterAdjustments) : DecoderState := mkDS (ds_w s) (ds_h s) (ds_pt s) (ds_seg s) fa.

(** decoder_state.hh l.133-141. *)
Definition inter_fa (fa : option FilterAdjustments) (m : option (option ModeRefLFDeltaUpdate)) : option FilterAdjustments :=
  match m with
  | Some _ => match fa with Some a => fa_update a m | None => fa_new m end
  | None => None
  end.
(** decoder_state.hh l.144-152. *)
Definition inter_seg (w h : Z) (seg : option Segmentation) (u : option UpdateSegmentation) : option Segmentation :=
  match u with
  | Some _ => match seg with Some s => seg_update s u | None => seg_new w h u end
  | None => None
  end.

(** macroblock.cc l.73-82: one macroblock; the new map and the cached id. *)
Definition mb_update_map (m : plane) (x y : Z) (id : option Z) : option (plane * Z) :=
  let? m' := match id with Some v => pset m x y v | None => Some m end in
  let? v := pget m' x y in
  Some (m', v).
(** frame.cc l.115-119: all macroblocks in raster order. *)
Fixpoint map_loop (W : nat) (i : nat) (l : list mbinfo) (m : plane) : option (plane * list Z) :=
  match l with
  | [] => Some (m, [])
  | b :: r => let? (m', v) := mb_update_map m (column_of W i) (row_of W i) (mb_segment b) in
              let? (m'', vs) := map_loop W (S i) r m' in
              Some (m'', v :: vs)
  end.
(** decoder_state.hh l.103-105, l.159-161. Without segmentation the cached ids
    stay uninitialised and are never used; here they are 0. *)
Definition update_map (W : nat) (seg : option Segmentation) (ms : list mbinfo) : option (option Segmentation * list Z) :=
  match seg with
  | None => Some (None, repeat 0 (length ms))
  | Some s => let? (m, ids) := map_loop W 0 ms (sg_map s) in
              Some (Some (mkSeg (sg_absolute s) (sg_quant s) (sg_filter s) m), ids)
  end.

(** ** Parsing *)

(** decoder_state.hh l.72-111. The state on the left is the one that is left
    behind, also when an exception is thrown. *)
Definition parse_key (s : DecoderState) (u : uchunk)
  : DecoderState * res frame_error (KeyFrameHeader * list mbinfo * list mbcoef * list Z) :=
  if negb (uc_key u) then (s, Err FAbort)
  else if uc_experimental u then (s, Err FInvalid)
  else
    let '(hd, d) := key_frame_header_decode (first_decoder u) in
    if negb (key_frame_header_supported hd) then (s, Err FUnsupported)
    else
      let s1 := key_state (ds_w s) (ds_h s) hd in
      let pt := coeff_prob_update (ds_pt s1) (kf_token_prob_update hd) in
      let s2 := if kf_refresh_entropy_probs hd then set_tables s1 pt else s1 in
      let '(ms, _) := kf_macroblocks_decode hd (mb_dim (ds_w s)) (mb_dim (ds_h s)) d in
      match update_map (mb_dim (ds_w s)) (ds_seg s2) ms with
      | None => (s2, Err FAbort)
      | Some (seg, ids) =>
          let s3 := set_seg s2 seg in
          match frame_tokens (pt_coeff pt) (mb_dim (ds_w s)) (partition_count (kf_log2_partitions hd)) u ms with
          | Ok cs => (s3, Ok (hd, ms, cs, ids))
          | Err e => (s3, Err e)
          end
      end.

(** decoder_state.hh l.113-167; error concealment as in inter_frame_parse
    (FrameModel.v). *)
Definition parse_inter (s : DecoderState) (u : uchunk)
  : DecoderState * res frame_error (InterFrameHeader * list mbinfo * list mbcoef * list Z) :=
  if uc_key u then (s, Err FAbort)
  else
    let '(hd, d) := inter_frame_header_decode (first_decoder u) in
    if negb (inter_frame_header_supported hd) then (s, Err FUnsupported)
    else
      let pt := pt_update (ds_pt s) hd in
      let s1 := if if_refresh_entropy_probs hd then set_tables s pt else s in
      let s2 := set_fa s1 (inter_fa (ds_fa s1) (if_mode_lf_adjustments hd)) in
      let s3 := set_seg s2 (inter_seg (ds_w s) (ds_h s) (ds_seg s2) (if_update_segmentation hd)) in
      let '(ms, _) := if_macroblocks_decode hd pt (mb_dim (ds_w s)) (mb_dim (ds_h s)) d in
      match update_map (mb_dim (ds_w s)) (ds_seg s3) ms with
      | None => (s3, Err FAbort)
      | Some (seg, ids) =>
          let s4 := set_seg s3 seg in
          match frame_tokens (pt_coeff pt) (mb_dim (ds_w s)) (partition_count (if_log2_partitions hd)) u ms with
          | Ok cs => (s4, Ok (hd, ms, cs, ids))
          | Err e => (s4, Err e)
          end
      end.

(** ** References *)

(** frame.cc l.271-275. *)
Definition key_copy_to (r : raster) (refs : references) : references := mkRefs r r r.
(** frame.cc l.277-307. *)
Definition inter_copy_to (hd : InterFrameHeader) (r : raster) (refs : references) : references :=
  let refs := match if_copy_to_alternate hd with
              | Some 1 => mkRefs (rf_last refs) (rf_golden refs) (rf_last refs)
              | Some 2 => mkRefs (rf_last refs) (rf_golden refs) (rf_golden refs)
              | _ => refs
              end in
  let refs := match if_copy_to_golden hd with
              | Some 1 => mkRefs (rf_last refs) (rf_last refs) (rf_alt refs)
              | Some 2 => mkRefs (rf_last refs) (rf_alt refs) (rf_alt refs)
              | _ => refs
              end in
  let refs := if if_refresh_golden hd then mkRefs (rf_last refs) r (rf_alt refs) else refs in
  let refs := if if_refresh_alternate hd then mkRefs (rf_last refs) (rf_golden refs) r else refs in
  if if_refresh_last hd then mkRefs r (rf_golden refs) (rf_alt refs) else refs.

(** ** Frames *)

(** The picture description of ReconModel from a parsed frame. *)
Definition key_pic (W : nat) (hd : KeyFrameHeader) (ms : list mbinfo) (cs : list mbcoef) (ids : list Z) : picture :=
  mkPic true (kf_quant_indices hd) (kf_filter_type hd) (kf_loop_filter_level hd) (kf_sharpness_level hd) W (combine (combine ms cs) ids).
Definition inter_pic (W : nat) (hd : InterFrameHeader) (ms : list mbinfo) (cs : list mbcoef) (ids : list Z) : picture :=
  mkPic false (if_quant_indices hd) (if_filter_type hd) (if_loop_filter_level hd) (if_sharpness_level hd) W (combine (combine ms cs) ids).

(** Decoder.get_frame_output either gives a picture and whether it is to be
    shown, or throws (FAbort: a failed assertion or undefined behaviour). *)
Inductive outcome : Type :=
| Output (shown : bool) (r : raster)
| Raised (e : frame_error).

Definition uc_frame_error (e : uc_error) : frame_error :=
  match e with UcInvalid => FInvalid | UcUnsupported => FUnsupported | UcUndefined => FAbort end.

(** decoder.cc l.101-118: the picture; [after]: copy_to. *)
Definition show_picture (d : decoder) (s : DecoderState) (shown : bool) (pc : picture) (after : raster -> references -> references) (scratch : raster)
  : decoder * outcome :=
  match picture_output (ds_seg s) (ds_fa s) (dc_refs d) pc scratch with
  | Some (Filtered r) => (mkDecoder s (after r (dc_refs d)) (dc_conceal d), Output shown r)
  | Some SimpleUnsupported => (mkDecoder s (dc_refs d) (dc_conceal d), Raised FUnsupported)
  | None => (mkDecoder s (dc_refs d) (dc_conceal d), Raised FAbort)
  end.

(** decoder.cc l.83-87, l.125-135. [scratch]: what the picture from the pool
    holds. *)
Definition get_frame_output (d : decoder) (c : chunk) (scratch : raster) : decoder * outcome :=
  let s := dc_state d in
  match uncompressed_chunk c (ds_w s) (ds_h s) (dc_conceal d) with
  | Err e => (d, Raised (uc_frame_error e))
  | Ok u =>
      if uc_key u then
        match parse_key s u with
        | (s', Ok (hd, ms, cs, ids)) =>
            show_picture d s' (uc_show u) (key_pic (mb_dim (ds_w s)) hd ms cs ids) key_copy_to scratch
        | (s', Err e) => (mkDecoder s' (dc_refs d) (dc_conceal d), Raised e)
        end
      else if negb (uc_experimental u) then
        match parse_inter s u with
        | (s', Ok (hd, ms, cs, ids)) =>
            show_picture d s' (uc_show u) (inter_pic (mb_dim (ds_w s)) hd ms cs ids) (inter_copy_to hd) scratch
        | (s', Err e) => (mkDecoder s' (dc_refs d) (dc_conceal d), Raised e)
        end
      else (d, Raised FUnsupported)
  end.

(** decoder.cc l.137-141: only shown pictures are returned. *)
Definition visible (o : outcome) : option raster := match o with Output true r => Some r | _ => None end.

(** A sequence of frames, each with its buffer. A caller that catches
    exceptions goes on with the decoder as it was left. *)
Fixpoint run_frames (d : decoder) (l : list (chunk * raster)) : decoder * list outcome :=
  match l with
  | [] => (d, [])
  | (c, scratch) :: r =>
      let '(d', o) := get_frame_output d c scratch in
      let '(d'', os) := run_frames d' r in
      (d'', o :: os)
  end.

(** decoder.cc l.39-42, l.161-169: all three references are the same blank (or
    recycled) picture. *)
Definition new_decoder (w h : Z) (r : raster) : decoder := mkDecoder (fresh_state w h) (mkRefs r r r) false.
