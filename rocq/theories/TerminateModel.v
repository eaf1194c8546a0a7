(** The chunk terminator: rewrites a video so that its last frame leaves one
    picture in all three references.
    Source: src/frontend/xc-terminate-chunk.cc. *)
From Verif Require Import Base BoolCoderModel ParserModel HeaderModel MBModel ChunkModel ContainerModel FrameModel.
From Verif Require Import RasterModel ReconModel StateModel.

(** xc-terminate-chunk.cc l.95-101. *)
Definition end_header (h : InterFrameHeader) : InterFrameHeader :=
  mkIFH (if_update_segmentation h) (if_filter_type h) (if_loop_filter_level h) (if_sharpness_level h) (if_mode_lf_adjustments h)
        (if_log2_partitions h) (if_quant_indices h) true true None None (if_sign_bias_golden h) (if_sign_bias_alternate h)
        (if_refresh_entropy_probs h) true (if_token_prob_update h) (if_prob_skip_false h) (if_prob_inter h) (if_prob_references_last h)
        (if_prob_references_golden h) (if_intra_16x16_prob h) (if_intra_chroma_prob h) (if_mv_prob_update h).

(** xc-terminate-chunk.cc l.83-107: one frame; [last]: whether it is the last
    one. [scratch]: what the picture from the pool holds. Every exception ends
    the program. *)
Definition terminate_frame (d : decoder) (last : bool) (bytes : list Z) (scratch : raster) : res frame_error (list Z * decoder) :=
  let s := dc_state d in
  match uncompressed_chunk (chunk_of bytes) (ds_w s) (ds_h s) false with
  | Err e => Err (uc_frame_error e)
  | Ok u =>
      if uc_key u then
        match parse_key s u with
        | (s', Ok (hd, ms, cs, ids)) =>
            match key_frame_serialize (ds_pt s') (uc_show u) (ds_w s) (ds_h s) hd ms cs with
            | None => Err FAbort
            | Some out =>
                match show_picture d s' (uc_show u) (key_pic (mb_dim (ds_w s)) hd ms cs ids) key_copy_to scratch with
                | (d', Output _ _) => Ok (out, d')
                | (_, Raised e) => Err e
                end
            end
        | (_, Err e) => Err e
        end
      else
        match parse_inter s u with
        | (s', Ok (hd0, ms, cs, ids)) =>
            let hd := if last then end_header hd0 else hd0 in
            match inter_frame_serialize (ds_pt s') (uc_show u) (ds_w s) (ds_h s) hd ms cs with
            | None => Err FAbort
            | Some out =>
                match show_picture d s' (uc_show u) (inter_pic (mb_dim (ds_w s)) hd ms cs ids) (inter_copy_to hd) scratch with
                | (d', Output _ _) => Ok (out, d')
                | (_, Raised e) => Err e
                end
            end
        | (_, Err e) => Err e
        end
  end.

(** xc-terminate-chunk.cc l.82-108: the frames written and the decoder. The
    video file around the frames is that of IvfModel.v. *)
Fixpoint terminate (d : decoder) (l : list (list Z * raster)) : res frame_error (list (list Z) * decoder) :=
  match l with
  | [] => Ok ([], d)
  | (bytes, scratch) :: r =>
      let! (out, d') := terminate_frame d (match r with [] => true | _ => false end) bytes scratch in
      let! (outs, d'') := terminate d' r in
      Ok (out :: outs, d'')
  end.
