(** The main programs xc-enc (primary encoding) and vp8decode. Sources:
    src/frontend/xc-enc.cc l.84-93, l.228-263, l.330-388, src/frontend/vp8decode.cc
    l.78-94, src/input/frame_input.hh, src/input/ivf_reader.cc, ivf_reader.hh.
    Not modelled: messages and timing; getopt; numbers on the command line
    (std::stoul, std::stod); re-encoding (ReencodeModel). *)
From Verif Require Import Base ChunkModel HeaderModel RasterModel ReconModel StateModel SerialModel FdModel Y4mModel IvfModel PlayerModel.
From Verif Require Import SearchModel EncoderApiModel.

(** ** The input *)

(** frame_input.hh: an IVFReader or a YUV4MPEGReader. *)
Inductive frame_input : Type := FromIvf (p : player) | FromY4m (hd : y4m_header) (s : source).
Inductive input_error : Type := InIvf (e : player_error) | InY4m (e : y4m_error).

(** ivf_reader.hh l.43-44, player.hh l.57-58 (the dimensions the decoder was made
    with are the file's), yuv4mpeg.hh l.80-81. *)
Definition input_width (i : frame_input) : Z := match i with FromIvf p => iv_width (py_file p) | FromY4m hd _ => ym_width hd end.
Definition input_height (i : frame_input) : Z := match i with FromIvf p => iv_height (py_file p) | FromY4m hd _ => ym_height hd end.

(** xc-enc.cc l.232-253 for a named file. [blank]: the picture of a new
    decoder's references. *)
Definition open_ivf (file : list Z) (blank : raster) : res input_error frame_input :=
  match player_open file blank with Ok p => Ok (FromIvf p) | Err e => Err (InIvf e) end.
Definition open_y4m (s : source) : res input_error frame_input :=
  match open_reader s with (Ok hd, s') => Ok (FromY4m hd s') | (Err e, _) => Err (InY4m e) end.

(** ivf_reader.cc l.35-42; Y4mModel. [pool i]: the picture from the pool for
    frame i of an IVF file; [scratch]: for a picture of a Y4M file. *)
Definition next_frame (pool : Z -> raster) (scratch : raster) (i : frame_input) : res input_error (option raster) * frame_input :=
  match i with
  | FromIvf p =>
      if at_eof p then (Ok None, i)
      else match advance pool p with
           | (p', Ok r) => (Ok (Some r), FromIvf p')
           | (p', Err e) => (Err (InIvf e), FromIvf p')
           end
  | FromY4m hd s =>
      match get_next_frame hd scratch s with
      | (Ok x, s') => (Ok x, FromY4m hd s')
      | (Err e, s') => (Err (InY4m e), FromY4m hd s')
      end
  end.

(** More pictures than this cannot come (PropXcEnc). *)
Definition input_fuel (i : frame_input) : nat :=
  match i with
  | FromIvf p => S (Z.to_nat (iv_count (py_file p) - py_no p))
  | FromY4m _ s => S (length (s_stream s))
  end.

(** ** The target sizes *)

(** An istream: what is left, eofbit, failbit. *)
Record stream : Type := mkStream { st_rest : list Z; st_eof : bool; st_fail : bool }.
(** An ifstream on a file with these contents, and one that could not be opened. *)
Definition stream_of (l : list Z) : stream := mkStream l false false.
Definition no_stream : stream := mkStream [] false true.

(** istream >> size_t in the C locale (C++11 and libstdc++): the sentry fails
    unless the stream is good and something follows the spaces, and then leaves
    the variable; no digits give 0, too large a number the largest value, both
    with failbit; a minus sign negates modulo 2^64. *)
Definition extract_size (s : stream) (old : Z) : Z * stream :=
  if st_eof s || st_fail s then (old, mkStream (st_rest s) (st_eof s) true)
  else match skip_spaces (st_rest s) with
       | [] => (old, mkStream [] true true)
       | c :: r =>
           let (negative, l) := if c =? 45 then (true, r) else if c =? 43 then (false, r) else (false, c :: r) in
           let ds := leading_digits l in
           let rest := skipn (length ds) l in
           let eof := match rest with [] => true | _ => false end in
           match ds with
           | [] => (0, mkStream rest eof true)
           | _ => if 2 ^ 64 <=? number ds then (2 ^ 64 - 1, mkStream rest eof true)
                  else (wrap 64 (if negative then - number ds else number ds), mkStream rest eof false)
           end
       end.

(** xc-enc.cc l.84-93. [last]: the static variable. *)
Definition first_size : Z := 2 ^ 64 - 1.
Definition next_size (s : stream) (last : Z) : Z * stream := if st_eof s then (last, s) else extract_size s last.

(** ** Primary encoding *)

(** xc-enc.cc l.47-49 without re-encoding. [zero_vs_minimum]: how 0.0 compares
    with --ssim (see C45). The quantiser is stored in an Optional<uint8_t>
    (l.113, l.168; optional.hh l.48: the non-template constructor is chosen, the
    conversion is to uint8_t). *)
Inductive mode : Type := MinimumSsim (zero_vs_minimum : comparison_ssim) | ConstantQuantizer (y : Z) | TargetFrameSize.

(** What the i-th picture meets: the picture for the reader, the estimates of
    its size and what the encoder's buffers and tables hold (see [job]). *)
Record surroundings : Type := mkSurroundings {
  su_in : raster;
  su_estimate : nat -> Z -> Z;
  su_works : nat -> trial_work;
  su_blank : raster; su_scratch : raster;
  su_junk : nat -> list Z
}.
Definition job_of (u : surroundings) (r : raster) : job := mkJob r (su_works u) (su_blank u) (su_scratch u) (su_junk u).

(** xc-enc.cc l.364-380: the call for a picture. estimate_frame_size (l.370),
    whose result is only printed, leaves no trace but in [su_works] (see
    EncoderApiModel). *)
Definition choose (m : mode) (u : surroundings) (s : stream) (last : Z) : call * stream * Z :=
  match m with
  | MinimumSsim z => (WithMinimumSsim z, s, last)
  | ConstantQuantizer y => (WithQuantizer (wrap 8 y), s, last)
  | TargetFrameSize => let (n, s') := next_size s last in (WithTargetSize (su_estimate u) n, s', n)
  end.

(** How the program ends: the reader's exception, Unsupported (the size of a
    picture), the exception about the output state, a failed assertion or
    undefined behaviour. [XEndless]: never (PropXcEnc). *)
Inductive xc_error : Type := XInput (e : input_error) | XScaling | XOutputState | XAbort | XEndless.

Section XcEnc.
Context {Q : Type}.
Variable gt : Q -> Q -> bool.
Variable minus_one : Q.
Variable ssim : raster -> raster -> Q.
(** boost::hash_combine (see SerialModel). *)
Variable combine : Z -> Z -> Z.

(** xc-enc.cc l.355-387. *)
Fixpoint xc_loop (fuel : nat) (pool : Z -> raster) (sur : nat -> surroundings) (m : mode) (i : nat) (inp : frame_input) (s : stream) (last : Z) (a : @api Q) (v : writer)
  : @api Q * writer * option xc_error :=
  match fuel with
  | O => (a, v, Some XEndless)
  | S fuel =>
      match next_frame pool (su_in (sur i)) inp with
      | (Err e, _) => (a, v, Some (XInput e))
      | (Ok None, _) => (a, v, None)
      | (Ok (Some r), inp') =>
          let '(c, s', last') := choose m (sur i) s last in
          match api_call gt minus_one ssim a c (job_of (sur i) r) with
          | Err Scaling => (a, v, Some XScaling)
          | Err Broken => (a, v, Some XAbort)
          | Ok (a', bytes) =>
              match writer_append v bytes with
              | Err _ => (a', v, Some XAbort)
              | Ok (v', _) => xc_loop fuel pool sur m (S i) inp' s' last' a' v'
              end
          end
      end
  end.

(** The settings, what frame headers from the pool hold, what the first
    allocations of the encoder's padded references hold, and the picture of new
    references. *)
Record settings : Type := mkSettings {
  se_mode : mode; se_two_pass : bool; se_realtime : bool;
  se_sizes : stream;
  se_output_state : bool;
  se_key : KeyFrameHeader; se_inter : InterFrameHeader;
  se_junk : nat -> list Z; se_blank : raster
}.

(** The decoder that Encoder::export_decoder makes (encoder.hh l.378). *)
Definition exported (a : @api Q) : decoder := mkDecoder (fst (export_decoder a)) (snd (export_decoder a)) false.

(** xc-enc.cc l.255-261, l.330-393: the output file, if it has been created, and
    how the program ends. [start]: the decoder from --input-state. A decoder for
    more than 65520 lines or columns cannot be made (l.255, raster.hh l.44-45). *)
Definition xc_enc (o : settings) (pool : Z -> raster) (sur : nat -> surroundings) (inp : frame_input) (start : option decoder) : option (list Z) * option xc_error :=
  let w := input_width inp in
  let h := input_height inp in
  if (65520 <? w) || (65520 <? h) then (None, Some XAbort)
  else match writer_open VP80 w h 1 1 with
       | Err _ => (None, Some XAbort)
       | Ok v0 =>
           let a := match start with
                    | None => new_api w h (se_blank o) (se_two_pass o) (se_realtime o) (se_key o) (se_inter o) (se_junk o)
                    | Some d => api_of d (se_two_pass o) (se_realtime o) (se_key o) (se_inter o) (se_junk o)
                    end in
           match a with
           | None => (Some (iw_file v0), Some XAbort)
           | Some a =>
               let v1 := match start with
                         | None => v0
                         | Some _ => writer_set_hash v0 (wrap 32 (hash_of combine (get_hash combine (exported a))))
                         end in
               let '(_, v, e) := xc_loop (input_fuel inp) pool sur (se_mode o) 0 inp (se_sizes o) first_size a v1 in
               (Some (iw_file v), match e with Some e => Some e | None => if se_output_state o then Some XOutputState else None end)
           end
       end.
End XcEnc.

(** ** vp8decode *)

(** vp8decode.cc l.82-93 with -o, for a file that takes what is written (C48).
    [out]: what has been written; its length is the position that lseek gives. *)
Inductive vp8decode_error : Type := VPlayer (e : player_error) | VAbort.
Fixpoint vp8decode_loop (fuel : nat) (pool : Z -> raster) (p : player) (out : list Z) : list Z * player * option vp8decode_error :=
  if at_eof p then (out, p, None)
  else match fuel with
       | O => (out, p, None)
       | S f =>
           match advance pool p with
           | (p', Err e) => (out, p', Some (VPlayer e))
           | (p', Ok r) =>
               let out1 := if zlen out =? 0 then out ++ header_string (header_for r) else out in
               match display_rectangle r with
               | None => (out1 ++ frame_word ++ [10], p', Some VAbort)
               | Some l => vp8decode_loop f pool p' (out1 ++ frame_word ++ [10] ++ concat l)
               end
           end
       end.
Definition vp8decode (pool : Z -> raster) (p : player) : list Z * player * option vp8decode_error :=
  vp8decode_loop (Z.to_nat (iv_count (py_file p) - py_no p)) pool p [].
