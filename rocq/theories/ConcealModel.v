(** Macroblock headers with the error concealment switch.
    Sources: src/decoder/macroblock.cc l.43-71, l.342-456, l.467-474,
    src/decoder/decoder_state.hh l.113-167. *)
From Verif Require Import Base BoolCoderModel ParserModel Tables TreeModel HeaderModel MVModel MBModel.
From Verif Require Import ChunkModel ContainerModel FrameModel.

(** "error_concealment and not data.valid()". *)
Definition lost (ec : bool) (d : bdec) : bool := ec && negb (bd_valid d).

(** macroblock.cc l.54-61: a field is read from the zero decoder instead.
    [z]: state of the static zero decoder (any). *)
Definition or_zero {A} (ec : bool) (z : bdec) (m : dec A) : dec A :=
  fun d => if lost ec d then (fst (m z), d) else m d.

(** macroblock.cc l.63-64, l.467-474. *)
Definition mb_header_decode_ec (ec : bool) (h : InterFrameHeader) : dec (bool * option bool * option bool * bool) :=
  fun d => if lost ec d then ((true, Some false, None, false), d) else mb_header_decode h d.

(** macroblock.cc l.375-442; [y0]: the mode set before (l.347-352). *)
Definition inter_modes_decode_ec (ec : bool) (pt : ProbabilityTables) (W H : nat) (flipped : bool) (l : list mbinfo)
  : dec (Z * option Z * list Z * list mv) :=
  let i := length l in
  let census := census_at W flipped l i in
  let best := clamp_at W H i (sc_best census) in
  do y <- (fun d => if lost ec d then (ZEROMV, d) else tree_decode mv_ref_tree (mv_ref_probs (sc_contexts census)) d);
  let whole v := (y, None, repeat 0 16, repeat v 16) in
  if y =? NEARESTMV then dret (whole (clamp_at W H i (sc_nearest census)))
  else if y =? NEARMV then dret (whole (clamp_at W H i (sc_near census)))
  else if y =? ZEROMV then dret (whole mv_zero)
  else if y =? NEWMV then (do v <- read_mv (pt_mv pt); dret (whole (mv_add v best)))
  else (do p <- tree_decode split_mv_tree split_mv_probs;
        do s <- split_decode (pt_mv pt) best (option_map mb_mvs (above_of W l i)) (option_map mb_mvs (left_of W l i))
                             (mv_partition p) (repeat (0, mv_zero) 16);
        dret (y, Some p, map fst s, map snd s)).

(** macroblock.cc l.43-71, l.342-456 with the switch. *)
Definition if_mb_decode_ec (ec : bool) (z : bdec) (h : InterFrameHeader) (pt : ProbabilityTables) (W H : nat) (l : list mbinfo)
  : dec mbinfo :=
  do seg <- or_zero ec z (segment_decode (if_update_segmentation h));
  do skip <- or_zero ec z (skip_decode (if_prob_skip_false h));
  do (inter0, sel1, sel2, flipped) <- mb_header_decode_ec ec h;
  do inter <- (fun d => (inter0 || lost ec d, d));
  if inter : bool then
    (do (y, p, bm, mvs) <- inter_modes_decode_ec ec pt W H flipped l;
     dret (mkMB seg skip inter sel1 sel2 flipped p y bm mvs 0))
  else
    (do (y, bm, uv) <- intra_modes_decode pt;
     dret (mkMB seg skip inter sel1 sel2 flipped None y bm (repeat mv_zero 16) uv)).

Definition if_macroblocks_decode_ec (ec : bool) (z : bdec) (h : InterFrameHeader) (pt : ProbabilityTables) (W H : nat)
  : dec (list mbinfo) :=
  mbs_decode (W * H) (if_mb_decode_ec ec z h pt W H) [].

(** decoder_state.hh l.155-157. *)
Definition concealing (u : uchunk) : bool := CORRUPTED_RESIDUES <? uc_corruption u.
