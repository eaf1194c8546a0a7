(** The encoder's public calls, from a picture to bytes. Sources:
    src/encoder/encoder.hh l.328-383, src/encoder/encoder.cc l.70-90, l.145-176,
    l.418-629, src/encoder/encode_intra.cc l.388-456, src/encoder/encode_inter.cc
    l.577-653, src/encoder/safe_references.cc l.35-62, src/decoder/frame.cc l.377-390.
    What the modes cost, how a picture compares with the original, the estimated
    sizes and what buffers hold before are arbitrary. *)
From Verif Require Import Base BoolCoderModel ParserModel Tables TreeModel HeaderModel MVModel MBModel TokenModel FrameModel QuantModel RasterModel PredictModel LoopFilterModel ReconModel StateModel.
From Verif Require Import EncoderModel EncodeModel SearchModel CountsModel ReencodeModel SafeRasterModel.

(** The headers of new frames. frame.cc l.377-385 parses them from
    BoolDecoder::zero_decoder (bool_decoder.hh l.111-115), which only gives zeros
    (PropEncoderApi: these are what it parses). *)
Definition empty_qi : QuantIndices := mkQI 0 None None None None None.
Definition empty_key_header : KeyFrameHeader :=
  mkKFH false false None false 0 0 None 0 empty_qi false (repeat None (Z.to_nat 1056)) None.
Definition empty_inter_header : InterFrameHeader :=
  mkIFH None false 0 0 None 0 empty_qi false false (Some 0) (Some 0) false false false false (repeat None (Z.to_nat 1056)) None 0 0 0 None None (repeat None 38).

(** encode_intra.cc l.399-400, encoder.cc l.433, l.456, l.464-470, l.510: what is
    set in a header. The rest stays as it was: the frame is the same object in
    every call. *)
Definition set_key_header (hd : KeyFrameHeader) (qi : QuantIndices) (level : Z) (ups : list (option Z)) (skip : Z) : KeyFrameHeader :=
  mkKFH (kf_color_space hd) (kf_clamping_type hd) (kf_update_segmentation hd) (kf_filter_type hd) level (kf_sharpness_level hd)
        zero_deltas (kf_log2_partitions hd) qi true ups (Some skip).
(** encode_inter.cc l.587-589, l.560-574, encoder.cc as above. *)
Definition set_inter_header (hd : InterFrameHeader) (qi : QuantIndices) (level : Z) (ups : list (option Z)) (skip : Z) (probs : Z * Z * Z) : InterFrameHeader :=
  let '(inter, last, golden) := probs in
  mkIFH (if_update_segmentation hd) (if_filter_type hd) level (if_sharpness_level hd) zero_deltas (if_log2_partitions hd) qi
        (if_refresh_golden hd) (if_refresh_alternate hd) (if_copy_to_golden hd) (if_copy_to_alternate hd)
        (if_sign_bias_golden hd) (if_sign_bias_alternate hd) true true ups (Some skip) inter last golden
        (if_intra_16x16_prob hd) (if_intra_chroma_prob hd) (if_mv_prob_update hd).

(** What one run of encode_raster uses besides: the costs of the passes, the
    tables and the weight of the motion search, what the picture from the pool
    and the temporary picture hold. *)
Record trial_work : Type := mkTW {
  tw_costs : nat -> nat -> mb_costs;
  tw_sads : list Z; tw_mv_costs : list (list (list Z)); tw_weight : Z;
  tw_r : raster; tw_t : raster
}.

(** encode_intra.cc l.409-439: one pass, with what it does to the updates of the
    token probabilities; [tbl]: coeff_probs of the new state. *)
Definition key_pass_at (k : trial_work) (q : Quantizer) (W n : nat) (o : raster) (tbl : list Z) (x : encoding * list (option Z)) (pass : nat)
  : option (encoding * list (option Z)) :=
  let? s := key_pass (tw_costs k pass) q W n o (ec_r (fst x)) (ec_t (fst x)) in
  let? counts := count_frame W (ec_cs s) 0 (combine (ec_ms s) (ec_cs s)) no_counts in
  let? ups := optimize_tables tbl (snd x) counts in
  Some (s, ups).
Definition passes_of (two_pass : bool) : list nat := if two_pass then [0; 1]%nat else [0%nat].

(** safe_references.cc l.41-45, encoder.cc l.160-162: the copies of the three
    references. [junk]: what the allocations hold before. *)
Definition safe_refs (refs : references) (junk : nat -> list Z) : option plane :=
  let? safe := load MARGIN_WIDTH (rf_last refs) (junk 0%nat) in
  let? _ := load MARGIN_WIDTH (rf_golden refs) (junk 1%nat) in
  let? _ := load MARGIN_WIDTH (rf_alt refs) (junk 2%nat) in
  Some safe.

Section Api.
(** Qualities as doubles: [>], -1.0, and VP8Raster::quality of a picture against
    the original. *)
Context {Q : Type}.
Variable gt : Q -> Q -> bool.
Variable minus_one : Q.
Variable ssim : raster -> raster -> Q.

(** encoder.cc l.489-508. [filter]: the loop filter at a level on a copy of the
    reconstruction. The levels stay below 64. [None]: an exception or undefined
    behaviour in the filter, or no fuel. *)
Fixpoint filter_loop (filter : Z -> option pixel_outcome) (o : raster) (fuel : nat) (level max_level : Z) (best_ssim : Q) (best : Z) : option (Q * Z) :=
  match fuel with
  | O => None
  | S fuel =>
      if level <=? max_level then
        match filter level with
        | Some (Filtered r) =>
            if gt (ssim r o) best_ssim then filter_loop filter o fuel (level + 1) max_level (ssim r o) level else Some (best_ssim, best)
        | _ => None
        end
      else Some (best_ssim, best)
  end.

(** encoder.cc l.472-515: the best quality, its level and the reconstruction
    filtered with it. [last]: loop_filter_level_. *)
Definition best_filter (last : option Z) (filter : Z -> option pixel_outcome) (o : raster) : option (Q * Z * raster) :=
  let (lo, hi) := level_window last in
  let? b := filter_loop filter o 65 lo hi minus_one 0 in
  match filter (snd b) with Some (Filtered r) => Some (fst b, snd b, r) | _ => None end.

(** encoder.hh l.118-160. temp_raster_handle_ is in [trial_work], the
    subsampled frames belong to the estimator. The references golden and
    alternative of safe_references_ are not used. *)
Record api : Type := mkApi {
  ap_enc : encoder;
  ap_has : bool;
  ap_two : bool;
  ap_safe : plane;
  ap_key : KeyFrameHeader;
  ap_inter : InterFrameHeader;
  ap_ssim : option Q
}.

(** encode_intra.cc l.388-456: the encoder afterwards, the frame, and the
    filtered reconstruction (which the code drops). *)
Definition encode_raster_key (a : api) (k : trial_work) (o : raster) (qi : QuantIndices) (update : bool) : option (api * wframe * raster) :=
  let e := ap_enc a in
  let s := en_state e in
  let s0 := fresh_state (ds_w s) (ds_h s) in
  let W := mb_dim (ds_w s) in
  let n := (W * mb_dim (ds_h s))%nat in
  let? q := make_quantizer qi in
  let? x := ofold (key_pass_at k q W n o (pt_coeff (ds_pt s0))) (passes_of (ap_two a)) (mkEnc [] [] (tw_r k) (tw_t k), kf_token_prob_update (ap_key a)) in
  let (c, ups) := x in
  let? skip := optimize_prob_skip (map (fun mc => has_nonzero (fst mc) (snd mc)) (combine (ec_ms c) (ec_cs c))) in
  let hd level := set_key_header (ap_key a) qi level ups skip in
  let ids := repeat 0 n in
  let? b := best_filter (en_level e) (fun level => picture_loopfilter (ds_seg s0) (fa_new zero_deltas) (key_pic W (hd level) (ec_ms c) (ec_cs c) ids) (ec_r c)) o in
  let '(best, level, r) := b in
  let e' := mkEncoder (if update then set_fa s0 (fa_new zero_deltas) else s) (en_refs e) (en_realtime e) (en_level e) (en_qi e) in
  Some (mkApi e' (ap_has a) (ap_two a) (ap_safe a) (hd level) (ap_inter a) (Some best), KeyW true (hd level) (ec_ms c) (ec_cs c) ids, r).

(** encode_inter.cc l.577-653. *)
Definition encode_raster_inter (a : api) (k : trial_work) (o : raster) (qi : QuantIndices) (update : bool) : option (api * wframe * raster) :=
  let e := ap_enc a in
  let s := en_state e in
  let W := mb_dim (ds_w s) in
  let H := mb_dim (ds_h s) in
  let env := mkSE (en_refs e) (ap_safe a) (tw_sads k) (tw_mv_costs k) (tw_weight k) (en_realtime e) in
  let old := ap_inter a in
  let? q := make_quantizer qi in
  let? c := encode_inter env (tw_costs k 0%nat) q W H o (tw_r k) (tw_t k) in
  let? counts := count_frame W (ec_cs c) 0 (combine (ec_ms c) (ec_cs c)) no_counts in
  let? skip := optimize_prob_skip (map (fun mc => has_nonzero (fst mc) (snd mc)) (combine (ec_ms c) (ec_cs c))) in
  let? probs := optimize_interframe_probs (if_prob_inter old) (if_prob_references_last old) (if_prob_references_golden old) (map counted_reference (ec_ms c)) in
  let? ups := optimize_tables (pt_coeff (ds_pt s)) (if_token_prob_update old) counts in
  let hd level := set_inter_header old qi level ups skip probs in
  let ids := repeat 0 (W * H) in
  let? b := best_filter (en_level e) (fun level => picture_loopfilter (ds_seg s) (fa_new zero_deltas) (inter_pic W (hd level) (ec_ms c) (ec_cs c) ids) (ec_r c)) o in
  let '(best, level, r) := b in
  let e' := mkEncoder (if update then set_fa s (fa_new zero_deltas) else s) (en_refs e) (en_realtime e) (en_level e) (en_qi e) in
  Some (mkApi e' (ap_has a) (ap_two a) (ap_safe a) (ap_key a) (hd level) (Some best), InterW true (hd level) (ec_ms c) (ec_cs c) ids, r).

Definition encode_raster (key : bool) (a : api) (k : trial_work) (o : raster) (qi : QuantIndices) (update : bool) : option (api * wframe * raster) :=
  if key then encode_raster_key a k o qi update else encode_raster_inter a k o qi update.

(** A call's picture and what the encoder uses for it: the trials in order, the
    picture of new references, the picture from the pool, and what the
    allocations of the three safe references hold. *)
Record job : Type := mkJob {
  jb_raster : raster;
  jb_works : nat -> trial_work;
  jb_blank : raster; jb_scratch : raster;
  jb_junk : nat -> list Z
}.

(** encoder.cc l.146-176 with l.160-162. *)
Definition api_write (a : api) (f : wframe) (j : job) : option (api * list Z) :=
  let? x := write_frame (ap_enc a) f (jb_blank j) (jb_scratch j) in
  let? safe := safe_refs (en_refs (fst x)) (jb_junk j) in
  Some (mkApi (fst x) (ap_has a) (ap_two a) safe (ap_key a) (ap_inter a) (ap_ssim a), snd x).

(** QuantIndices() with y_ac_qi set (encoder.cc l.57-59, l.525, l.565-566); the
    conversion is to uint8_t, and Unsigned<7> keeps all eight bits
    (vp8_header_structures.hh l.53-66). *)
Definition only_y_ac (y : Z) : QuantIndices := mkQI (wrap 8 y) None None None None None.

(** has_state_ = true (encoder.cc l.569, l.584). *)
Definition started (a : api) : api := mkApi (ap_enc a) true (ap_two a) (ap_safe a) (ap_key a) (ap_inter a) (ap_ssim a).

(** encoder.cc l.518-557. The quality that a trial returns is 0.0 (see C45);
    [zero_vs_minimum]: how that compares with the minimum. *)
Definition search_trial (key : bool) (zero_vs_minimum : comparison_ssim) (j : job) (t : option (api * nat)) (y : Z) : comparison_ssim * option (api * nat) :=
  (zero_vs_minimum,
   match t with
   | None => None
   | Some (a, i) => match encode_raster key a (jb_works j i) (jb_raster j) (only_y_ac y) true with
                    | None => None
                    | Some (a', _, _) => Some (a', S i)
                    end
   end).
Definition encode_with_quantizer_search (key : bool) (zero_vs_minimum : comparison_ssim) (a : api) (j : job) : option (api * wframe * raster) :=
  let? x := quality_search (search_trial key zero_vs_minimum j) 9 (Some (a, 0%nat)) in
  let? t := snd x in
  encode_raster key (fst t) (jb_works j (snd t)) (jb_raster j) (only_y_ac (fst x)) false.

(** The three calls. encode_with_target_size gets the estimates of
    estimate_frame_size (size_estimation.cc), which puts decoder_state_ back and
    otherwise changes only costs_, the weights, the temporary picture and the
    subsampled frames: the [i]-th estimate, for a quantiser. *)
Inductive call : Type :=
| WithQuantizer (y : Z)
| WithMinimumSsim (zero_vs_minimum : comparison_ssim)
| WithTargetSize (estimate : nat -> Z -> Z) (target : Z).

Inductive api_error : Type := Scaling | Broken.

Definition not_broken {A : Type} (x : option A) : res api_error A := match x with Some y => Ok y | None => Err Broken end.

(** encoder.cc l.559-575 after the check. *)
Definition with_quantizer (a : api) (j : job) (y : Z) : option (api * list Z) :=
  let? x := encode_raster (negb (ap_has a)) (started a) (jb_works j 0%nat) (jb_raster j) (only_y_ac y) false in
  api_write (fst (fst x)) (snd (fst x)) j.

(** encoder.cc l.559-629. *)
Definition api_call (a : api) (c : call) (j : job) : res api_error (api * list Z) :=
  let s := en_state (ap_enc a) in
  let o := jb_raster j in
  if negb ((ds_w s =? ra_dw o) && (ds_h s =? ra_dh o)) then Err Scaling
  else
    match c with
    | WithQuantizer y => not_broken (with_quantizer a j y)
    | WithMinimumSsim z =>
        not_broken (let? x := encode_with_quantizer_search (negb (ap_has a)) z (started a) j in
                    api_write (fst (fst x)) (snd (fst x)) j)
    | WithTargetSize estimate target =>
        not_broken (let? x := target_search (fun i y => (estimate i y, S i)) target 8 0%nat (en_qi (ap_enc a)) in
                    with_quantizer a j (fst x))
    end.

(** A caller's calls. The exception for pictures of another size leaves the
    encoder as it was; the result of such a call is [None] in the list. *)
Fixpoint api_run (a : api) (l : list (call * job)) : option (api * list (option (list Z))) :=
  match l with
  | [] => Some (a, [])
  | (c, j) :: r =>
      match api_call a c j with
      | Ok (a', bytes) => let? x := api_run a' r in Some (fst x, Some bytes :: snd x)
      | Err Scaling => let? x := api_run a r in Some (fst x, None :: snd x)
      | Err Broken => None
      end
  end.

(** encoder.cc l.70-81, l.83-90. The frames may
    come from a pool (src/decoder/frame_pool.cc l.44-68) with the headers that other encoders have
    left: [kh], [ih]. [r]: the picture of new references. TwoDStorage asserts
    that the subsampled frames are not empty (src/util/2d.hh l.74-75). *)
Definition new_api (w h : Z) (r : raster) (two_pass realtime : bool) (kh : KeyFrameHeader) (ih : InterFrameHeader) (junk : nat -> list Z) : option api :=
  if (w <? 4) || (h <? 4) then None
  else
    let e := new_encoder w h r realtime in
    let? safe := safe_refs (en_refs e) junk in
    Some (mkApi e false two_pass safe kh ih None).
Definition api_of (d : decoder) (two_pass realtime : bool) (kh : KeyFrameHeader) (ih : InterFrameHeader) (junk : nat -> list Z) : option api :=
  if (ds_w (dc_state d) <? 4) || (ds_h (dc_state d) <? 4) then None
  else
    let? safe := safe_refs (dc_refs d) junk in
    Some (mkApi (encoder_of d realtime) true two_pass safe kh ih None).

(** encoder.hh l.378: export_decoder. *)
Definition export_decoder (a : api) : DecoderState * references := (en_state (ap_enc a), en_refs (ap_enc a)).
End Api.
