(** Frame headers: data types, parsers and serialisers.
    Sources: src/decoder/frame_header.hh, src/encoder/serializer.cc. *)
From Verif Require Import Base BoolCoderModel ParserModel Tables.

(** frame_header.hh l.37-63. *)
Record QuantIndices : Type := mkQI {
  y_ac_qi : Z;
  y_dc : option Z;
  y2_dc : option Z;
  y2_ac : option Z;
  uv_dc : option Z;
  uv_ac : option Z
}.

(** frame_header.hh l.65-79. *)
Record ModeRefLFDeltaUpdate : Type := mkLFD {
  ref_update : list (option Z);
  mode_update : list (option Z)
}.

(** frame_header.hh l.81-102. *)
Record SegmentFeatureData : Type := mkSFD {
  segment_feature_mode : bool;
  quantizer_update : list (option Z);
  loop_filter_update : list (option Z)
}.

(** frame_header.hh l.104-126. *)
Record UpdateSegmentation : Type := mkUS {
  update_mb_segmentation_map : bool;
  segment_feature_data : option SegmentFeatureData;
  mb_segmentation_map : option (list (option Z))
}.

(** frame_header.hh l.194-246. [kf_token_prob_update] is flattened in the
    order in which the nested Enumerates are visited (4*8*3*11 entries). *)
Record KeyFrameHeader : Type := mkKFH {
  kf_color_space : bool;
  kf_clamping_type : bool;
  kf_update_segmentation : option UpdateSegmentation;
  kf_filter_type : bool;
  kf_loop_filter_level : Z;
  kf_sharpness_level : Z;
  kf_mode_lf_adjustments : option (option ModeRefLFDeltaUpdate);
  kf_log2_partitions : Z;
  kf_quant_indices : QuantIndices;
  kf_refresh_entropy_probs : bool;
  kf_token_prob_update : list (option Z);
  kf_prob_skip_false : option Z
}.

(** frame_header.hh l.248-325. [if_mv_prob_update] holds the 7-bit codes
    (MVProbUpdate::mv_prob), flattened (2*19 entries). *)
Record InterFrameHeader : Type := mkIFH {
  if_update_segmentation : option UpdateSegmentation;
  if_filter_type : bool;
  if_loop_filter_level : Z;
  if_sharpness_level : Z;
  if_mode_lf_adjustments : option (option ModeRefLFDeltaUpdate);
  if_log2_partitions : Z;
  if_quant_indices : QuantIndices;
  if_refresh_golden : bool;
  if_refresh_alternate : bool;
  if_copy_to_golden : option Z;
  if_copy_to_alternate : option Z;
  if_sign_bias_golden : bool;
  if_sign_bias_alternate : bool;
  if_refresh_entropy_probs : bool;
  if_refresh_last : bool;
  if_token_prob_update : list (option Z);
  if_prob_skip_false : option Z;
  if_prob_inter : Z;
  if_prob_references_last : Z;
  if_prob_references_golden : Z;
  if_intra_16x16_prob : option (list Z);
  if_intra_chroma_prob : option (list Z);
  if_mv_prob_update : list (option Z)
}.

(** ** Parsers *)

(** frame_header.hh l.46-49. *)
Definition quant_indices_decode : dec QuantIndices :=
  do a <- unsigned_decode 7;
  do b <- flagged_decode 128 (signed_decode 4);
  do c <- flagged_decode 128 (signed_decode 4);
  do e <- flagged_decode 128 (signed_decode 4);
  do f <- flagged_decode 128 (signed_decode 4);
  do g <- flagged_decode 128 (signed_decode 4);
  dret (mkQI a b c e f g).

(** frame_header.hh l.70. *)
Definition lf_delta_decode : dec ModeRefLFDeltaUpdate :=
  do a <- drep 4 (flagged_decode 128 (signed_decode 6));
  do b <- drep 4 (flagged_decode 128 (signed_decode 6));
  dret (mkLFD a b).

(** frame_header.hh l.87-88. *)
Definition segment_feature_data_decode : dec SegmentFeatureData :=
  do m <- bget 128;
  do q <- drep 4 (flagged_decode 128 (signed_decode 7));
  do l <- drep 4 (flagged_decode 128 (signed_decode 6));
  dret (mkSFD m q l).

(** frame_header.hh l.110-112. *)
Definition update_segmentation_decode : dec UpdateSegmentation :=
  do u <- bget 128;
  do s <- flagged_decode 128 segment_feature_data_decode;
  do m <- optional_decode u (drep 3 (flagged_decode 128 (unsigned_decode 8)));
  dret (mkUS u s m).

(** frame_header.hh l.132-135, l.206-210 (nested Enumerate). *)
Definition token_prob_update_decode : dec (list (option Z)) :=
  dmap (fun p => flagged_decode p (unsigned_decode 8)) k_coeff_entropy_update_probs.

(** frame_header.hh l.154-157, l.276 (nested Enumerate). *)
Definition mv_prob_update_decode : dec (list (option Z)) :=
  dmap (fun p => flagged_decode p (unsigned_decode 7)) k_mv_entropy_update_probs.

(** frame_header.hh l.213-219 (member initialisers in declaration order). *)
Definition key_frame_header_decode : dec KeyFrameHeader :=
  do color_space <- bget 128;
  do clamping_type <- bget 128;
  do update_segmentation <- flagged_decode 128 update_segmentation_decode;
  do filter_type <- bget 128;
  do loop_filter_level <- unsigned_decode 6;
  do sharpness_level <- unsigned_decode 3;
  do mode_lf_adjustments <- flagged_decode 128 (flagged_decode 128 lf_delta_decode);
  do log2_partitions <- unsigned_decode 2;
  do quant_indices <- quant_indices_decode;
  do refresh_entropy_probs <- bget 128;
  do token_prob_update <- token_prob_update_decode;
  do prob_skip_false <- flagged_decode 128 (unsigned_decode 8);
  dret (mkKFH color_space clamping_type update_segmentation filter_type loop_filter_level
              sharpness_level mode_lf_adjustments log2_partitions quant_indices
              refresh_entropy_probs token_prob_update prob_skip_false).

(** frame_header.hh l.221-227: the constructor throws Unsupported unless this
    holds. *)
Definition key_frame_header_supported (h : KeyFrameHeader) : bool :=
  negb (kf_color_space h || kf_clamping_type h) && negb (kf_filter_type h).

(** frame_header.hh l.278-290 (member initialisers in declaration order). *)
Definition inter_frame_header_decode : dec InterFrameHeader :=
  do update_segmentation <- flagged_decode 128 update_segmentation_decode;
  do filter_type <- bget 128;
  do loop_filter_level <- unsigned_decode 6;
  do sharpness_level <- unsigned_decode 3;
  do mode_lf_adjustments <- flagged_decode 128 (flagged_decode 128 lf_delta_decode);
  do log2_partitions <- unsigned_decode 2;
  do quant_indices <- quant_indices_decode;
  do refresh_golden <- bget 128;
  do refresh_alternate <- bget 128;
  do copy_to_golden <- optional_decode (negb refresh_golden) (unsigned_decode 2);
  do copy_to_alternate <- optional_decode (negb refresh_alternate) (unsigned_decode 2);
  do sign_bias_golden <- bget 128;
  do sign_bias_alternate <- bget 128;
  do refresh_entropy_probs <- bget 128;
  do refresh_last <- bget 128;
  do token_prob_update <- token_prob_update_decode;
  do prob_skip_false <- flagged_decode 128 (unsigned_decode 8);
  do prob_inter <- unsigned_decode 8;
  do prob_references_last <- unsigned_decode 8;
  do prob_references_golden <- unsigned_decode 8;
  do intra_16x16_prob <- flagged_decode 128 (drep 4 (unsigned_decode 8));
  do intra_chroma_prob <- flagged_decode 128 (drep 3 (unsigned_decode 8));
  do mv_prob_update <- mv_prob_update_decode;
  dret (mkIFH update_segmentation filter_type loop_filter_level sharpness_level
              mode_lf_adjustments log2_partitions quant_indices refresh_golden
              refresh_alternate copy_to_golden copy_to_alternate sign_bias_golden
              sign_bias_alternate refresh_entropy_probs refresh_last token_prob_update
              prob_skip_false prob_inter prob_references_last prob_references_golden
              intra_16x16_prob intra_chroma_prob mv_prob_update).

(** frame_header.hh l.292-294. *)
Definition inter_frame_header_supported (h : InterFrameHeader) : bool := negb (if_filter_type h).

(** ** Serialisers *)

(** serializer.cc l.81-87: Array. *)
Definition array_events {A} (w : A -> list event) (l : list A) : list event := concat (map w l).

(** serializer.cc l.110-118. *)
Definition quant_indices_events (h : QuantIndices) : list event :=
  unsigned_events 7 (y_ac_qi h) ++
  flagged_events 128 (signed_events 4) (y_dc h) ++
  flagged_events 128 (signed_events 4) (y2_dc h) ++
  flagged_events 128 (signed_events 4) (y2_ac h) ++
  flagged_events 128 (signed_events 4) (uv_dc h) ++
  flagged_events 128 (signed_events 4) (uv_ac h).

(** serializer.cc l.120-124. *)
Definition lf_delta_events (h : ModeRefLFDeltaUpdate) : list event :=
  array_events (flagged_events 128 (signed_events 6)) (ref_update h) ++
  array_events (flagged_events 128 (signed_events 6)) (mode_update h).

(** serializer.cc l.126-131. *)
Definition segment_feature_data_events (h : SegmentFeatureData) : list event :=
  [(segment_feature_mode h, 128)] ++
  array_events (flagged_events 128 (signed_events 7)) (quantizer_update h) ++
  array_events (flagged_events 128 (signed_events 6)) (loop_filter_update h).

(** serializer.cc l.133-138. *)
Definition update_segmentation_events (h : UpdateSegmentation) : list event :=
  [(update_mb_segmentation_map h, 128)] ++
  flagged_events 128 segment_feature_data_events (segment_feature_data h) ++
  optional_events (array_events (flagged_events 128 (unsigned_events 8))) (mb_segmentation_map h).

(** serializer.cc l.89-94, l.102-108 (nested Enumerate). *)
Definition token_prob_update_events (l : list (option Z)) : list event :=
  concat (map (fun '(p, o) => flagged_events p (unsigned_events 8) o)
              (combine k_coeff_entropy_update_probs l)).

(** serializer.cc l.96-108 (nested Enumerate). *)
Definition mv_prob_update_events (l : list (option Z)) : list event :=
  concat (map (fun '(p, o) => flagged_events p (unsigned_events 7) o)
              (combine k_mv_entropy_update_probs l)).

(** serializer.cc l.140-154. *)
Definition key_frame_header_events (h : KeyFrameHeader) : list event :=
  [(kf_color_space h, 128)] ++
  [(kf_clamping_type h, 128)] ++
  flagged_events 128 update_segmentation_events (kf_update_segmentation h) ++
  [(kf_filter_type h, 128)] ++
  unsigned_events 6 (kf_loop_filter_level h) ++
  unsigned_events 3 (kf_sharpness_level h) ++
  flagged_events 128 (flagged_events 128 lf_delta_events) (kf_mode_lf_adjustments h) ++
  unsigned_events 2 (kf_log2_partitions h) ++
  quant_indices_events (kf_quant_indices h) ++
  [(kf_refresh_entropy_probs h, 128)] ++
  token_prob_update_events (kf_token_prob_update h) ++
  flagged_events 128 (unsigned_events 8) (kf_prob_skip_false h).

(** serializer.cc l.156-181. *)
Definition inter_frame_header_events (h : InterFrameHeader) : list event :=
  flagged_events 128 update_segmentation_events (if_update_segmentation h) ++
  [(if_filter_type h, 128)] ++
  unsigned_events 6 (if_loop_filter_level h) ++
  unsigned_events 3 (if_sharpness_level h) ++
  flagged_events 128 (flagged_events 128 lf_delta_events) (if_mode_lf_adjustments h) ++
  unsigned_events 2 (if_log2_partitions h) ++
  quant_indices_events (if_quant_indices h) ++
  [(if_refresh_golden h, 128)] ++
  [(if_refresh_alternate h, 128)] ++
  optional_events (unsigned_events 2) (if_copy_to_golden h) ++
  optional_events (unsigned_events 2) (if_copy_to_alternate h) ++
  [(if_sign_bias_golden h, 128)] ++
  [(if_sign_bias_alternate h, 128)] ++
  [(if_refresh_entropy_probs h, 128)] ++
  [(if_refresh_last h, 128)] ++
  token_prob_update_events (if_token_prob_update h) ++
  flagged_events 128 (unsigned_events 8) (if_prob_skip_false h) ++
  unsigned_events 8 (if_prob_inter h) ++
  unsigned_events 8 (if_prob_references_last h) ++
  unsigned_events 8 (if_prob_references_golden h) ++
  flagged_events 128 (array_events (unsigned_events 8)) (if_intra_16x16_prob h) ++
  flagged_events 128 (array_events (unsigned_events 8)) (if_intra_chroma_prob h) ++
  mv_prob_update_events (if_mv_prob_update h).

(** ** Motion vector probability codes (frame_header.hh l.178-191) *)
Definition read_half_prob (half_prob : Z) : Z :=
  if half_prob =? 0 then 1 else wrap 8 (Z.shiftl half_prob 1).
Definition write_prob (prob : Z) : Z := Z.shiftr prob 1.
Definition is_settable_value (prob : Z) : bool := prob =? read_half_prob (write_prob prob).
