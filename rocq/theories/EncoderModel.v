(** The encoder's picture of the decoder it writes for. Sources:
    src/encoder/encoder.cc l.70-97, l.145-176, l.460-512,
    src/encoder/encode_inter.cc l.154-170, l.576-654,
    src/encoder/encode_intra.cc l.36-46, l.388-457, src/encoder/reencode.cc.
    The contents of the frames (modes, vectors, coefficients) are chosen
    elsewhere and are arbitrary here. *)
From Verif Require Import Base BoolCoderModel ParserModel Tables TreeModel HeaderModel MVModel MBModel ChunkModel ContainerModel FrameModel.
From Verif Require Import QuantModel RasterModel TransformModel PredictModel LoopFilterModel ReconModel StateModel.

(** encoder.hh l.118-149, the members write_frame uses. safe_references_ is a
    copy of the references for the motion search. *)
Record encoder : Type := mkEncoder {
  en_state : DecoderState;
  en_refs : references;
  en_realtime : bool;
  en_level : option Z;
  en_qi : option Z
}.

(** A frame as the encoder holds it: header, macroblocks with their
    coefficients and cached segment ids, and whether it is shown. *)
Inductive wframe : Type :=
| KeyW (show : bool) (hd : KeyFrameHeader) (ms : list mbinfo) (cs : list mbcoef) (ids : list Z)
| InterW (show : bool) (hd : InterFrameHeader) (ms : list mbinfo) (cs : list mbcoef) (ids : list Z).

(** encode_inter.cc l.154-170. *)
Definition update_state_inter (s : DecoderState) (hd : InterFrameHeader) : DecoderState :=
  let s1 := if if_refresh_entropy_probs hd then set_tables s (pt_update (ds_pt s) hd) else s in
  set_fa s1 (inter_fa (ds_fa s1) (if_mode_lf_adjustments hd)).

(** encode_intra.cc l.36-46. *)
Definition update_state_key (s : DecoderState) (hd : KeyFrameHeader) : DecoderState :=
  let s1 := key_state (ds_w s) (ds_h s) hd in
  if kf_refresh_entropy_probs hd then set_tables s1 (coeff_prob_update (ds_pt s1) (kf_token_prob_update hd)) else s1.

(** encoder.cc l.145-176. [blank] is the picture of the new references
    (encode_intra.cc l.41), [scratch] what the picture from the pool holds. The
    tables the frame is written with are a reference to those of the state that
    l.151 has just updated. None: an exception or undefined behaviour. *)
Definition write_frame (e : encoder) (f : wframe) (blank scratch : raster) : option (encoder * list Z) :=
  let s := en_state e in
  match f with
  | KeyW show hd ms cs ids =>
      let s' := update_state_key s hd in
      match picture_output (ds_seg s') (ds_fa s') (mkRefs blank blank blank) (key_pic (mb_dim (ds_w s)) hd ms cs ids) scratch with
      | Some (Filtered r) =>
          match key_frame_serialize (ds_pt s') show (ds_w s) (ds_h s) hd ms cs with
          | Some bytes => Some (mkEncoder s' (key_copy_to r (mkRefs blank blank blank)) (en_realtime e)
                                  (if en_realtime e then Some (kf_loop_filter_level hd) else en_level e)
                                  (if en_realtime e then Some (y_ac_qi (kf_quant_indices hd)) else en_qi e), bytes)
          | None => None
          end
      | _ => None
      end
  | InterW show hd ms cs ids =>
      let s' := update_state_inter s hd in
      match picture_output (ds_seg s') (ds_fa s') (en_refs e) (inter_pic (mb_dim (ds_w s)) hd ms cs ids) scratch with
      | Some (Filtered r) =>
          match inter_frame_serialize (ds_pt s') show (ds_w s) (ds_h s) hd ms cs with
          | Some bytes => Some (mkEncoder s' (inter_copy_to hd r (en_refs e)) (en_realtime e)
                                  (if en_realtime e then Some (if_loop_filter_level hd) else en_level e)
                                  (if en_realtime e then Some (y_ac_qi (if_quant_indices hd)) else en_qi e), bytes)
          | None => None
          end
      | _ => None
      end
  end.

(** encoder.cc l.465-471: the deltas of the frames the encoder makes itself. *)
Definition zero_deltas : option (option ModeRefLFDeltaUpdate) :=
  Some (Some (mkLFD (repeat (Some 0) 4) (repeat (Some 0) 4))).

(** What encoding a picture leaves in the state. A key frame starts from a new
    state (encode_intra.cc l.394-395); apply_best_loopfilter_settings sets the
    deltas (encoder.cc l.493, l.507); unless update_state is set the state is
    put back (encode_inter.cc l.647-649, encode_intra.cc l.450-452).
    reencode_as_interframe (reencode.cc l.37-128) never puts it back. *)
Inductive trial : Type := TrialKey (update_state : bool) | TrialInter (update_state : bool).
Definition trial_state (s : DecoderState) (t : trial) : DecoderState :=
  match t with
  | TrialKey true => set_fa (fresh_state (ds_w s) (ds_h s)) (fa_new zero_deltas)
  | TrialInter true => set_fa s (fa_new zero_deltas)
  | _ => s
  end.
Definition try_frames (e : encoder) (l : list trial) : encoder :=
  mkEncoder (fold_left trial_state l (en_state e)) (en_refs e) (en_realtime e) (en_level e) (en_qi e).

(** A run: trial encodings, then a frame is written. *)
Fixpoint encode_run (e : encoder) (l : list (list trial * wframe * raster * raster)) : option (encoder * list (list Z)) :=
  match l with
  | [] => Some (e, [])
  | (ts, f, blank, scratch) :: r =>
      match write_frame (try_frames e ts) f blank scratch with
      | None => None
      | Some (e', bytes) =>
          match encode_run e' r with
          | None => None
          | Some (e'', bs) => Some (e'', bytes :: bs)
          end
      end
  end.

(** encoder.cc l.70-97: an encoder made from a decoder continues its stream. *)
Definition encoder_of (d : decoder) (realtime : bool) : encoder := mkEncoder (dc_state d) (dc_refs d) realtime None None.
(** encoder.cc l.70-80. *)
Definition new_encoder (w h : Z) (r : raster) (realtime : bool) : encoder := mkEncoder (fresh_state w h) (mkRefs r r r) realtime None None.
