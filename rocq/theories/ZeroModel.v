(** The program that takes the residues out of a video.
    Source: src/frontend/xc-zero-out-residues.cc, src/encoder/encoder.cc l.660-681. *)
From Verif Require Import Base BoolCoderModel ParserModel HeaderModel MBModel ChunkModel ContainerModel FrameModel.
From Verif Require Import RasterModel ReconModel StateModel.

(** encoder.cc l.660-681, block.hh l.122-125, l.235-239: Macroblock::zero_out.
    The macroblock's own has_nonzero_ stays, nothing reads it afterwards. *)
Definition zero_mb (m : mbinfo) : mbinfo :=
  mkMB (mb_segment m) (Some true) (mb_inter m) (mb_sel1 m) (mb_sel2 m) (mb_flipped m) (mb_partition m) (mb_ymode m) (mb_bmodes m) (mb_mvs m) (mb_uvmode m).
Definition zero_coef (m : mbinfo) (c : mbcoef) : mbcoef :=
  mkCoef (if y2_coded m then fresh_block else co_y2 c) (map (fun _ => fresh_block) (co_y c)) (map (fun _ => fresh_block) (co_u c)) (map (fun _ => fresh_block) (co_v c)).

(** xc-zero-out-residues.cc l.80-101: one frame. [scratch]: what the picture from
    the pool holds. Every exception ends the program; [FInvalid] is also the
    exception of serializer.cc l.378-380. Key frames are written before they are
    decoded, inter frames after. *)
Definition zero_frame (d : decoder) (bytes : list Z) (scratch : raster) : res frame_error (list Z * decoder) :=
  let s := dc_state d in
  match uncompressed_chunk (chunk_of bytes) (ds_w s) (ds_h s) false with
  | Err e => Err (uc_frame_error e)
  | Ok u =>
      if uc_key u then
        match parse_key s u with
        | (s', Ok (hd, ms, cs, ids)) =>
            match key_frame_serialize (ds_pt s') (uc_show u) (ds_w s) (ds_h s) hd ms cs with
            | None => Err FAbort
            | Some out =>
                match show_picture d s' (uc_show u) (key_pic (mb_dim (ds_w s)) hd ms cs ids) key_copy_to scratch with
                | (d', Output _ _) => Ok (out, d')
                | (_, Raised e) => Err e
                end
            end
        | (_, Err e) => Err e
        end
      else
        match parse_inter s u with
        | (s', Ok (hd, ms, cs, ids)) =>
            match show_picture d s' (uc_show u) (inter_pic (mb_dim (ds_w s)) hd ms cs ids) (inter_copy_to hd) scratch with
            | (d', Output _ _) =>
                let ms' := map zero_mb ms in
                let cs' := map (fun mc => zero_coef (fst mc) (snd mc)) (combine ms cs) in
                match if_prob_skip_false hd, ms' with
                | None, _ :: _ => Err FInvalid
                | _, _ =>
                    match inter_frame_serialize (ds_pt s') (uc_show u) (ds_w s) (ds_h s) hd ms' cs' with
                    | None => Err FAbort
                    | Some out => Ok (out, d')
                    end
                end
            | (_, Raised e) => Err e
            end
        | (_, Err e) => Err e
        end
  end.

(** l.77-102: the frames written, and either the decoder at the end or the
    exception. Frames that are written stay in the file. *)
Fixpoint zero_video (d : decoder) (l : list (list Z * raster)) : list (list Z) * res frame_error decoder :=
  match l with
  | [] => ([], Ok d)
  | (bytes, scratch) :: r =>
      match zero_frame d bytes scratch with
      | Err e => ([], Err e)
      | Ok (out, d') => let (outs, x) := zero_video d' r in (out :: outs, x)
      end
  end.
