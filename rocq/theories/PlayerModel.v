(** Playing a file. Sources: src/decoder/player.cc, src/decoder/player.hh,
    src/frontend/vp8decode.cc l.78-94, src/input/ivf_reader.cc. *)
From Verif Require Import Base ChunkModel ContainerModel FrameModel RasterModel ReconModel StateModel SerialModel IvfModel.

(** player.hh l.36-46, l.75-80: the decoder of the FramePlayer, the file and frame_no_. *)
Record player : Type := mkPlayer { py_dec : decoder; py_file : ivf; py_no : Z }.

(** The exceptions: while the file is opened (PFile); "not a VP8 file" and
    "state vs. file dimension mismatch" (PUnsupported); "Decoder state / IVF
    mismatch" (PMismatch); from a frame (PFrame); "hidden frames at end of file"
    (PHidden). PAbort: a failed assertion. *)
Inductive player_error : Type :=
| PFile (e : ivf_error) | PUnsupported | PMismatch | PFrame (e : frame_error) | PHidden | PAbort.

(** IVF::frame; FRange is std::out_of_range. *)
Definition fetch (v : ivf) (i : Z) : res frame_error chunk :=
  match ivf_frame v i with
  | Ok c => Ok c
  | Err RangeError => Err FRange
  | Err Undefined => Err FAbort
  end.

(** player.cc l.146-149. *)
Definition at_eof (p : player) : bool := py_no p =? iv_count (py_file p).

(** player.cc l.98-104. *)
Fixpoint seek (fuel : nat) (d : decoder) (v : ivf) (no : Z) : res player_error Z :=
  if no <? iv_count v then
    match fuel with
    | O => Ok no
    | S f =>
        match fetch v no with
        | Err e => Err (PFrame e)
        | Ok c =>
            match uncompressed_chunk c (ds_w (dc_state d)) (ds_h (dc_state d)) (dc_conceal d) with
            | Err e => Err (PFrame (uc_frame_error e))
            | Ok u => if uc_key u then Ok no else seek f d v (no + 1)
            end
        end
    end
  else Ok no.

(** player.cc l.85-106. [file]: the bytes of the file; [blank]: the picture of
    the new decoder's references. A picture without pixels, or whose dimensions
    rounded up to macroblocks leave 16 bits, fails an assertion (raster.hh
    l.44-45). *)
Definition player_open (file : list Z) (blank : raster) : res player_error player :=
  match ivf_open file with
  | Err e => Err (PFile e)
  | Ok v =>
      let w := iv_width v in
      let h := iv_height v in
      if (w =? 0) || (h =? 0) || (65520 <? w) || (65520 <? h) then Err PAbort
      else
        let d := new_decoder w h blank in
        if negb (same_bytes (iv_fourcc v) VP80) then Err PUnsupported
        else let! no := seek (Z.to_nat (iv_count v)) d v 0 in Ok (mkPlayer d v no)
  end.

(** player.cc l.108-124: a player that continues with a given decoder. *)
Definition player_resume (combine : Z -> Z -> Z) (d : decoder) (v : ivf) : res player_error player :=
  if negb (same_bytes (iv_fourcc v) VP80) then Err PUnsupported
  else if negb (iv_width v =? ds_w (dc_state d)) || negb (iv_height v =? ds_h (dc_state d)) then Err PUnsupported
  else if negb (minihash_match combine d (iv_hash v)) then Err PMismatch
  else Ok (mkPlayer d v 0).

(** player.cc l.134-144. The number of the frame is increased before the frame
    is fetched. [pool i]: the picture from the pool for frame i. *)
Fixpoint advance_loop (fuel : nat) (pool : Z -> raster) (p : player) : player * res player_error raster :=
  if at_eof p then (p, Err PHidden)
  else match fuel with
       | O => (p, Err PHidden)
       | S f =>
           let v := py_file p in
           let no := py_no p in
           match fetch v no with
           | Err e => (mkPlayer (py_dec p) v (no + 1), Err (PFrame e))
           | Ok c =>
               match get_frame_output (py_dec p) c (pool no) with
               | (d, Raised e) => (mkPlayer d v (no + 1), Err (PFrame e))
               | (d, Output true r) => (mkPlayer d v (no + 1), Ok r)
               | (d, Output false r) => advance_loop f pool (mkPlayer d v (no + 1))
               end
           end
       end.
Definition advance (pool : Z -> raster) (p : player) : player * res player_error raster :=
  advance_loop (Z.to_nat (iv_count (py_file p) - py_no p)) pool p.

(** vp8decode.cc l.82-93 (and every user of ivf_reader.cc): advance until the
    end of the file. *)
Fixpoint play_loop (fuel : nat) (pool : Z -> raster) (p : player) : list raster * player * option player_error :=
  if at_eof p then ([], p, None)
  else match fuel with
       | O => ([], p, None)
       | S f =>
           match advance pool p with
           | (p', Err e) => ([], p', Some e)
           | (p', Ok r) => let '(l, p'', o) := play_loop f pool p' in (r :: l, p'', o)
           end
       end.
Definition play (pool : Z -> raster) (p : player) : list raster * player * option player_error :=
  play_loop (Z.to_nat (iv_count (py_file p) - py_no p)) pool p.

(** player.hh l.89, player.cc l.151-154: the size of the current frame. *)
Definition original_size (p : player) : res frame_error Z :=
  let! c := fetch (py_file p) (wrap 32 (py_no p - 1)) in Ok (c_size c).
