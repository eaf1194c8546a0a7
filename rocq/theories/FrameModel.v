(** Whole frames: coefficients over partitions, serialisation and parsing.
    Sources: src/decoder/frame.cc l.95-137, l.255-269, src/decoder/macroblock.cc
    l.475-502, src/decoder/probability_tables.cc l.59-116, src/decoder/block.hh,
    src/decoder/decoder_state.hh l.72-167, src/encoder/serializer.cc l.387-443,
    l.801-829. *)
From Verif Require Import Base BoolCoderModel ParserModel Tables TreeModel HeaderModel TokenModel MVModel MBModel.
From Verif Require Import ChunkModel ContainerModel.

(** ** Coefficients *)

(** block.hh l.128-150: coefficients_ and has_nonzero_ of a block. *)
Definition block : Type := (list Z * bool)%type.
(** A newly constructed block. *)
Definition fresh_block : block := (repeat 0 16, false).

(** The blocks of a macroblock, in raster order. *)
Record mbcoef : Type := mkCoef {
  co_y2 : block;
  co_y : list block;
  co_u : list block;
  co_v : list block
}.
Definition fresh_coef : mbcoef := mkCoef fresh_block (repeat fresh_block 16) (repeat fresh_block 4) (repeat fresh_block 4).

(** block.hh l.181-187: set_if_coded. *)
Definition y2_coded (m : mbinfo) : bool := negb ((mb_ymode m =? B_PRED) || (mb_ymode m =? SPLITMV)).
(** macroblock.cc l.110-112, l.196-198, l.334-336: the type of the Y blocks. *)
Definition y_type (m : mbinfo) : Z := if y2_coded m then Y_after_Y2 else Y_without_Y2.
(** mb_skip_coeff_.get_or( false ). *)
Definition skipped (m : mbinfo) : bool := match mb_skip m with Some b => b | None => false end.

Definition b2z (b : bool) : Z := if b then 1 else 0.

(** Above and left neighbour of block [k] in a macroblock with [w] x [w]
    blocks of one plane; [nb] is that plane of the neighbouring macroblock. *)
Definition blk_above (w : nat) (nb : option (list block)) (cur : list block) (k : nat) : bool :=
  if (k <? w)%nat then match nb with Some l => snd (nth (w * (w - 1) + k) l fresh_block) | None => false end
  else snd (nth (k - w) cur fresh_block).
Definition blk_left (w : nat) (nb : option (list block)) (cur : list block) (k : nat) : bool :=
  if (k mod w =? 0)%nat then match nb with Some l => snd (nth (k + (w - 1)) l fresh_block) | None => false end
  else snd (nth (k - 1) cur fresh_block).
(** tokens.cc l.57-58, serializer.cc l.615-616. *)
Definition blk_ctx (w : nat) (above left : option (list block)) (cur : list block) (k : nat) : Z :=
  b2z (blk_above w above cur k) + b2z (blk_left w left cur k).

(** frame.cc l.255-269: relink_y2_blocks makes the neighbours of a Y2 block the
    nearest ones, in the same column or row, that are coded. [flags]: coded_
    and has_nonzero_ of the Y2 blocks in raster order; [idxs]: the positions to
    look at, nearest first. *)
Fixpoint nearest_coded (flags : list (bool * bool)) (idxs : list nat) : bool :=
  match idxs with
  | [] => false
  | j :: r => match nth_error flags j with
              | Some (true, nz) => nz
              | _ => nearest_coded flags r
              end
  end.
Definition above_positions (W i : nat) : list nat := map (fun k => (i - W * k)%nat) (seq 1 (i / W)).
Definition left_positions (W i : nat) : list nat := map (fun k => (i - k)%nat) (seq 1 (i mod W)).
Definition y2_flags (ms : list mbinfo) (cs : list mbcoef) : list (bool * bool) :=
  combine (map y2_coded ms) (map (fun c => snd (co_y2 c)) cs).
Definition y2_ctx (W : nat) (ms : list mbinfo) (cs : list mbcoef) (i : nat) : Z :=
  b2z (nearest_coded (y2_flags ms cs) (above_positions W i)) + b2z (nearest_coded (y2_flags ms cs) (left_positions W i)).

(** ** Reader *)

(** 2d.hh l.136-145: blocks of a plane in raster order. *)
Fixpoint plane_decode (tbl : list Z) (type : Z) (w : nat) (above left : option (list block)) (n : nat) (cur : list block)
  : dec (list block) :=
  match n with
  | O => dret cur
  | S n' => do b <- parse_tokens (coeff_prob tbl type) type (blk_ctx w above left cur (length cur)) (repeat 0 16) false;
            plane_decode tbl type w above left n' (cur ++ [b])
  end.

(** macroblock.cc l.475-502. [ms]: all macroblock headers; [cs]: the
    macroblocks whose tokens have been read. *)
Definition mb_tokens_decode (tbl : list Z) (W : nat) (ms : list mbinfo) (m : mbinfo) (cs : list mbcoef) : dec mbcoef :=
  let i := length cs in
  let a := above_of W cs i in
  let l := left_of W cs i in
  if skipped m then dret fresh_coef
  else
    do y2 <- (if y2_coded m
              then parse_tokens (coeff_prob tbl Y2_type) Y2_type (y2_ctx W ms cs i) (repeat 0 16) false
              else dret fresh_block);
    do y <- plane_decode tbl (y_type m) 4 (option_map co_y a) (option_map co_y l) 16 [];
    do u <- plane_decode tbl UV_type 2 (option_map co_u a) (option_map co_u l) 4 [];
    do v <- plane_decode tbl UV_type 2 (option_map co_v a) (option_map co_v l) 4 [];
    dret (mkCoef y2 y u v).

(** frame.cc l.121-137: macroblock in row r uses decoder r mod count. [todo]:
    the headers of the macroblocks still to be read. *)
Fixpoint tokens_decode (tbl : list Z) (W : nat) (ms todo : list mbinfo) (cs : list mbcoef) (ds : list bdec) : list mbcoef :=
  match todo with
  | [] => cs
  | m :: r =>
      let k := ((length cs / W) mod length ds)%nat in
      let '(c, d) := mb_tokens_decode tbl W ms m cs (nth k ds (bdec_init true [])) in
      tokens_decode tbl W ms r (cs ++ [c]) (set_nth ds k d)
  end.

(** ** Writer *)

Definition plane_events (tbl : list Z) (type : Z) (w : nat) (above left : option (list block)) (l : list block)
  : option (list event) :=
  oconcat (map (fun '(k, b) => serialize_tokens (coeff_prob tbl type) type (blk_ctx w above left l k) (fst b))
               (combine (seq 0 (length l)) l)).

(** serializer.cc l.428-443. *)
Definition mb_tokens_events (tbl : list Z) (W : nat) (ms : list mbinfo) (cs : list mbcoef) (i : nat) (m : mbinfo) (c : mbcoef)
  : option (list event) :=
  let a := above_of W cs i in
  let l := left_of W cs i in
  if skipped m then Some []
  else
    oapp (if y2_coded m then serialize_tokens (coeff_prob tbl Y2_type) Y2_type (y2_ctx W ms cs i) (fst (co_y2 c)) else Some [])
    (oapp (plane_events tbl (y_type m) 4 (option_map co_y a) (option_map co_y l) (co_y c))
    (oapp (plane_events tbl UV_type 2 (option_map co_u a) (option_map co_u l) (co_u c))
          (plane_events tbl UV_type 2 (option_map co_v a) (option_map co_v l) (co_v c)))).

(** serializer.cc l.408-419: each macroblock's events are appended to the
    encoder of partition row mod count. *)
Fixpoint tokens_events (tbl : list Z) (W : nat) (ms : list mbinfo) (cs : list mbcoef) (i : nat)
         (todo : list (mbinfo * mbcoef)) (parts : list (list event)) : option (list (list event)) :=
  match todo with
  | [] => Some parts
  | (m, c) :: r =>
      match mb_tokens_events tbl W ms cs i m c with
      | None => None
      | Some evs =>
          let k := ((i / W) mod length parts)%nat in
          tokens_events tbl W ms cs (S i) r (set_nth parts k (nth k parts [] ++ evs))
      end
  end.

Fixpoint omap {A B} (f : A -> option B) (l : list A) : option (list B) :=
  match l with
  | [] => Some []
  | a :: r => match f a, omap f r with
              | Some b, Some bs => Some (b :: bs)
              | _, _ => None
              end
  end.

(** serializer.cc l.407-426. *)
Definition serialize_frame_tokens (tbl : list Z) (W : nat) (count : nat) (ms : list mbinfo) (cs : list mbcoef)
  : option (list (list Z)) :=
  match tokens_events tbl W ms cs 0 (combine ms cs) (repeat [] count) with
  | None => None
  | Some parts => omap bool_encode parts
  end.

(** ** Probability tables *)

Fixpoint apply_updates (f : Z -> Z) (tbl : list Z) (ups : list (option Z)) : list Z :=
  match tbl, ups with
  | p :: t, u :: us => (match u with Some x => f x | None => p end) :: apply_updates f t us
  | _, _ => tbl
  end.

(** probability_tables.cc l.72-88. *)
Definition coeff_prob_update (pt : ProbabilityTables) (ups : list (option Z)) : ProbabilityTables :=
  mkPT (apply_updates (fun x => x) (pt_coeff pt) ups) (pt_mv pt) (pt_y_mode pt) (pt_uv_mode pt).
(** probability_tables.cc l.93-116; frame_header.hh l.179-187 for the motion
    vector probabilities. *)
Definition pt_update (pt : ProbabilityTables) (h : InterFrameHeader) : ProbabilityTables :=
  mkPT (apply_updates (fun x => x) (pt_coeff pt) (if_token_prob_update h))
       (apply_updates read_half_prob (pt_mv pt) (if_mv_prob_update h))
       (match if_intra_16x16_prob h with Some l => l | None => pt_y_mode pt end)
       (match if_intra_chroma_prob h with Some l => l | None => pt_uv_mode pt end).

(** decoder.hh l.57-70. *)
Definition default_pt : ProbabilityTables :=
  mkPT k_default_coeff_probs k_default_mv_probs k_default_y_mode_probs k_default_uv_mode_probs.

(** ** Frames *)

(** frame.hh l.56-60, vp8_raster.hh l.60-63: macroblock dimension. *)
Definition mb_dim (n : Z) : nat := Z.to_nat ((n + 15) / 16).
(** frame.hh l.107. *)
Definition partition_count (log2 : Z) : nat := Z.to_nat (2 ^ log2).

(** serializer.cc l.387-405. *)
Definition kf_first_partition (h : KeyFrameHeader) (W : nat) (ms : list mbinfo) : option (list Z) :=
  match kf_macroblocks_events h W ms with
  | Some evs => bool_encode (key_frame_header_events h ++ evs)
  | None => None
  end.
Definition if_first_partition (h : InterFrameHeader) (pt : ProbabilityTables) (W H : nat) (ms : list mbinfo) : option (list Z) :=
  match if_macroblocks_events h pt W H ms with
  | Some evs => bool_encode (inter_frame_header_events h ++ evs)
  | None => None
  end.

(** serializer.cc l.801-814. *)
Definition key_frame_serialize (pt : ProbabilityTables) (show : bool) (w h : Z) (hd : KeyFrameHeader)
           (ms : list mbinfo) (cs : list mbcoef) : option (list Z) :=
  let pt' := coeff_prob_update pt (kf_token_prob_update hd) in
  match kf_first_partition hd (mb_dim w) ms,
        serialize_frame_tokens (pt_coeff pt') (mb_dim w) (partition_count (kf_log2_partitions hd)) ms cs with
  | Some first, Some parts => make_frame true show false false w h first parts
  | _, _ => None
  end.

(** serializer.cc l.816-829. *)
Definition inter_frame_serialize (pt : ProbabilityTables) (show : bool) (w h : Z) (hd : InterFrameHeader)
           (ms : list mbinfo) (cs : list mbcoef) : option (list Z) :=
  let pt' := pt_update pt hd in
  match if_first_partition hd pt' (mb_dim w) (mb_dim h) ms,
        serialize_frame_tokens (pt_coeff pt') (mb_dim w) (partition_count (if_log2_partitions hd)) ms cs with
  | Some first, Some parts => make_frame false show false false w h first parts
  | _, _ => None
  end.

(** What ends parsing: Invalid or Unsupported; std::out_of_range from
    dct_partitions; a failed assertion or undefined behaviour. *)
Inductive frame_error : Type := FInvalid | FUnsupported | FRange | FAbort.

(** frame.cc l.122-129 with the partitions of the container. *)
Definition frame_tokens (tbl : list Z) (W count : nat) (u : uchunk) (ms : list mbinfo) : res frame_error (list mbcoef) :=
  match dct_partitions u count with
  | Ok ps => Ok (tokens_decode tbl W ms ms [] (map (fun p => bdec_init true (cbytes p)) ps))
  | Err RangeError => Err FRange
  | Err Undefined => Err FAbort
  end.

(** decoder_state.hh l.78-79: the second argument is the (inverted) flag
    "complete". *)
Definition first_decoder (u : uchunk) : bdec :=
  bdec_init (CORRUPTED_FIRST_PARTITION <=? uc_corruption u) (cbytes (uc_first u)).

(** decoder_state.hh l.72-111, the part that produces the frame: header,
    tables it is parsed with, macroblock headers and coefficients.  The key
    frame starts from the default tables. *)
Definition key_frame_parse (w h : Z) (u : uchunk)
  : res frame_error (KeyFrameHeader * list mbinfo * list mbcoef) :=
  if negb (uc_key u) then Err FAbort
  else if uc_experimental u then Err FInvalid
  else
    let '(hd, d) := key_frame_header_decode (first_decoder u) in
    if negb (key_frame_header_supported hd) then Err FUnsupported
    else
      let pt' := coeff_prob_update default_pt (kf_token_prob_update hd) in
      let '(ms, _) := kf_macroblocks_decode hd (mb_dim w) (mb_dim h) d in
      let! cs := frame_tokens (pt_coeff pt') (mb_dim w) (partition_count (kf_log2_partitions hd)) u ms in
      Ok (hd, ms, cs).

(** decoder_state.hh l.113-167, likewise. Error concealment never shows: it
    needs an invalid decoder, and whenever concealment is on the decoder has
    been told that its chunk is complete (theorem
    C52_concealment_never_active, PropConceal.v). *)
Definition inter_frame_parse (pt : ProbabilityTables) (w h : Z) (u : uchunk)
  : res frame_error (InterFrameHeader * list mbinfo * list mbcoef) :=
  if uc_key u then Err FAbort
  else
    let '(hd, d) := inter_frame_header_decode (first_decoder u) in
    if negb (inter_frame_header_supported hd) then Err FUnsupported
    else
      let pt' := pt_update pt hd in
      let '(ms, _) := if_macroblocks_decode hd pt' (mb_dim w) (mb_dim h) d in
      let! cs := frame_tokens (pt_coeff pt') (mb_dim w) (partition_count (if_log2_partitions hd)) u ms in
      Ok (hd, ms, cs).
