(** Macroblock headers: prediction modes, motion vectors, segment and skip
    information, for a whole frame. Error concealment is off.
    Sources: src/decoder/macroblock.cc, src/decoder/frame.cc l.78-113,
    src/util/2d.hh, src/encoder/serializer.cc l.183-405. *)
From Verif Require Import Base BoolCoderModel ParserModel Tables TreeModel HeaderModel MVModel.

(** macroblock.hh l.51-68, l.180-191 and block.hh: what a macroblock and its
    blocks hold before the tokens are read. Key frame macroblocks have
    [mb_inter = false] and no reference, partition or motion vector
    information (KeyFrameMacroblockHeader is empty). The sub-block modes and
    motion vectors are those of the sixteen YBlocks in raster order; the chroma
    mode is that of U(0,0). [mb_ymode] is Y2_.prediction_mode(). *)
Record mbinfo : Type := mkMB {
  mb_segment : option Z;
  mb_skip : option bool;
  mb_inter : bool;
  mb_sel1 : option bool;
  mb_sel2 : option bool;
  mb_flipped : bool;
  mb_partition : option Z;
  mb_ymode : Z;
  mb_bmodes : list Z;
  mb_mvs : list mv;
  mb_uvmode : Z
}.

(** ** Neighbours (2d.hh l.39-165: Context): index [i] = row * W + column;
    outside of the frame there is none. The lookups work on the raster list of
    macroblocks constructed so far. *)
Definition above_of {A} (W : nat) (l : list A) (i : nat) : option A :=
  if (i <? W)%nat then None else nth_error l (i - W).
Definition left_of {A} (W : nat) (l : list A) (i : nat) : option A :=
  if (i mod W =? 0)%nat then None else nth_error l (i - 1).
Definition above_left_of {A} (W : nat) (l : list A) (i : nat) : option A :=
  if ((i <? W) || (i mod W =? 0))%nat then None else nth_error l (i - W - 1).

(** Sub-block [k] (row * 4 + column) of the current macroblock: what is above
    and to the left of it, in this macroblock ([cur]) or in the neighbouring
    one ([nb]). *)
Definition sub_above {A} (d : A) (nb : option (list A)) (cur : list A) (k : nat) : A :=
  if (k <? 4)%nat then match nb with Some l => nth (12 + k) l d | None => d end
  else nth (k - 4) cur d.
Definition sub_left {A} (d : A) (nb : option (list A)) (cur : list A) (k : nat) : A :=
  if (k mod 4 =? 0)%nat then match nb with Some l => nth (k + 3) l d | None => d end
  else nth (k - 1) cur d.

(** ** Pieces shared by reader and writer *)

(** macroblock.hh l.142-151. -1: throws LogicError. *)
Definition implied_subblock_mode (y : Z) : Z :=
  if y =? DC_PRED then B_DC_PRED
  else if y =? V_PRED then B_VE_PRED
  else if y =? H_PRED then B_HE_PRED
  else if y =? TM_PRED then B_TM_PRED
  else -1.

(** kf_b_mode_probs.at( above ).at( left ), modemv_data.cc. *)
Definition kf_b_probs (above left : Z) : list Z :=
  firstn 9 (skipn (Z.to_nat ((above * 10 + left) * 9)) kf_b_mode_probs).

(** macroblock.cc l.378-384. *)
Definition mv_ref_probs (counts : list Z) : list Z :=
  map (fun j => nth (Z.to_nat (nth j counts 0 * 4) + j) mv_counts_to_probs 0) [0; 1; 2; 3]%nat.

(** macroblock.cc l.242-256. *)
Definition submv_ref_index (left above : mv) : Z :=
  let left_is_zero := mv_empty left in
  let above_is_zero := mv_empty above in
  let left_eq_above := mv_eqb left above in
  if left_eq_above && left_is_zero then 4
  else if left_eq_above then 3
  else if above_is_zero then 2
  else if left_is_zero then 1
  else 0.
Definition submv_ref_probs (left above : mv) : list Z :=
  firstn 3 (skipn (Z.to_nat (submv_ref_index left above * 3)) submv_ref_probs2).

(** modemv_data.cc l.250-278, as sub-block indices. *)
Definition mv_partitions : list (list (list nat)) :=
  [ [ [0; 1; 2; 3; 4; 5; 6; 7]; [8; 9; 10; 11; 12; 13; 14; 15] ];
    [ [0; 1; 4; 5; 8; 9; 12; 13]; [2; 3; 6; 7; 10; 11; 14; 15] ];
    [ [0; 1; 4; 5]; [2; 3; 6; 7]; [8; 9; 12; 13]; [10; 11; 14; 15] ];
    [ [0]; [1]; [2]; [3]; [4]; [5]; [6]; [7]; [8]; [9]; [10]; [11]; [12]; [13]; [14]; [15] ] ]%nat.
Definition mv_partition (p : Z) : list (list nat) := nth (Z.to_nat p) mv_partitions [].

(** macroblock.cc l.643-656: reference(). *)
Definition reference (inter : bool) (sel1 sel2 : option bool) : Z :=
  if inter then
    match sel1 with
    | Some true => match sel2 with Some true => ALTREF_FRAME | _ => GOLDEN_FRAME end
    | _ => LAST_FRAME
    end
  else CURRENT_FRAME.
Definition mb_reference (m : mbinfo) : Z := reference (mb_inter m) (mb_sel1 m) (mb_sel2 m).

(** macroblock.cc l.126-133: base_motion_vector is that of sub-block (3,3). *)
Definition base_mv (m : mbinfo) : mv := nth 15 (mb_mvs m) mv_zero.

(** What Scorer::add reads (macroblock.cc l.143-155). *)
Definition as_neighbour (m : mbinfo) : neighbour :=
  mkNb (mb_inter m) (mb_flipped m) (base_mv m) (mb_ymode m =? SPLITMV).

Definition census_at (W : nat) (flipped : bool) (l : list mbinfo) (i : nat) : scorer :=
  mv_census flipped (option_map as_neighbour (above_of W l i))
                    (option_map as_neighbour (left_of W l i))
                    (option_map as_neighbour (above_left_of W l i)).

Definition clamp_at (W H i : nat) (m : mv) : mv :=
  mv_clamp (Z.of_nat (i mod W)) (Z.of_nat (i / W)) (Z.of_nat W) (Z.of_nat H) m.

(** ** What the frame header contributes *)

(** macroblock.cc l.55-56. *)
Definition updates_map (u : option UpdateSegmentation) : bool :=
  match u with Some u => update_mb_segmentation_map u | None => false end.
(** frame.cc l.78-93. Unused (uninitialised in the code) without a map. *)
Definition segment_tree_probs (u : option UpdateSegmentation) : list Z :=
  match u with
  | Some u => match mb_segmentation_map u with
              | Some l => map (fun o => match o with Some p => p | None => 255 end) l
              | None => []
              end
  | None => []
  end.
Definition skip_prob (o : option Z) : Z := match o with Some p => p | None => 0 end.

(** decoder.hh l.55-77: ProbabilityTables, flattened. *)
Record ProbabilityTables : Type := mkPT {
  pt_coeff : list Z;
  pt_mv : list Z;
  pt_y_mode : list Z;
  pt_uv_mode : list Z
}.

(** ** Reader *)

(** macroblock.cc l.94-107: the sub-block modes of a B_PRED macroblock in a
    key frame, in raster order; [cur] are those already read. *)
Fixpoint kf_bmodes_decode (n : nat) (above left : option (list Z)) (cur : list Z) : dec (list Z) :=
  match n with
  | O => dret cur
  | S n' =>
      let k := length cur in
      do m <- tree_decode b_mode_tree (kf_b_probs (sub_above B_DC_PRED above cur k) (sub_left B_DC_PRED left cur k));
      kf_bmodes_decode n' above left (cur ++ [m])
  end.

(** macroblock.cc l.54-64 (segment, skip). *)
Definition segment_decode (u : option UpdateSegmentation) : dec (option Z) :=
  optional_decode (updates_map u) (tree_decode segment_id_tree (segment_tree_probs u)).
Definition skip_decode (p : option Z) : dec (option bool) :=
  optional_decode (match p with Some _ => true | None => false end) (bget (skip_prob p)).

(** macroblock.cc l.43-71, l.84-111: one key frame macroblock; [l] are the
    macroblocks before it. *)
Definition kf_mb_decode (h : KeyFrameHeader) (W : nat) (l : list mbinfo) : dec mbinfo :=
  let i := length l in
  do seg <- segment_decode (kf_update_segmentation h);
  do skip <- skip_decode (kf_prob_skip_false h);
  do y <- tree_decode kf_y_mode_tree kf_y_mode_probs;
  do bm <- (if y =? B_PRED then
              kf_bmodes_decode 16 (option_map mb_bmodes (above_of W l i)) (option_map mb_bmodes (left_of W l i)) []
            else dret (repeat (implied_subblock_mode y) 16));
  do uv <- tree_decode uv_mode_tree kf_uv_mode_probs;
  dret (mkMB seg skip false None None false None y bm (repeat mv_zero 16) uv).

(** macroblock.cc l.231-281: mode and vector of the first sub-block [k] of a
    partition. [cur] is the state of the sixteen sub-blocks. In the ZERO4X4
    case the vector is left as it is, asserted to be zero: sub-blocks of a new
    frame start with a zero vector and each is set once. *)
Definition sub_mv_decode (probs : list Z) (best : mv) (above left : option (list mv)) (cur : list (Z * mv)) (k : nat)
  : dec (Z * mv) :=
  let left_mv := sub_left mv_zero left (map snd cur) k in
  let above_mv := sub_above mv_zero above (map snd cur) k in
  do m <- tree_decode submv_ref_tree (submv_ref_probs left_mv above_mv);
  if m =? LEFT4X4 then dret (m, left_mv)
  else if m =? ABOVE4X4 then dret (m, above_mv)
  else if m =? ZERO4X4 then dret (m, mv_zero)
  else (do v <- read_mv probs; dret (m, mv_add v best)).

(** macroblock.cc l.422-429: the rest of the partition gets the same. *)
Definition fill (cur : list (Z * mv)) (part : list nat) (b : Z * mv) : list (Z * mv) :=
  fold_left (fun c k => set_nth c k b) part cur.

(** macroblock.cc l.413-430. *)
Fixpoint split_decode (probs : list Z) (best : mv) (above left : option (list mv)) (parts : list (list nat))
         (cur : list (Z * mv)) : dec (list (Z * mv)) :=
  match parts with
  | [] => dret cur
  | p :: r => do b <- sub_mv_decode probs best above left cur (hd 0%nat p);
              split_decode probs best above left r (fill cur p b)
  end.

(** macroblock.cc l.458-465. *)
Definition mb_header_decode (h : InterFrameHeader) : dec (bool * option bool * option bool * bool) :=
  do inter <- bget (if_prob_inter h);
  do sel1 <- optional_decode inter (bget (if_prob_references_last h));
  do sel2 <- optional_decode (match sel1 with Some b => b | None => false end) (bget (if_prob_references_golden h));
  let r := reference inter sel1 sel2 in
  dret (inter, sel1, sel2, ((r =? GOLDEN_FRAME) && if_sign_bias_golden h)
                           || ((r =? ALTREF_FRAME) && if_sign_bias_alternate h)).

(** macroblock.cc l.354-374. *)
Definition intra_modes_decode (pt : ProbabilityTables) : dec (Z * list Z * Z) :=
  do y <- tree_decode y_mode_tree (pt_y_mode pt);
  do bm <- (if y =? B_PRED then drep 16 (tree_decode b_mode_tree invariant_b_mode_probs)
            else dret (repeat (implied_subblock_mode y) 16));
  do uv <- tree_decode uv_mode_tree (pt_uv_mode pt);
  dret (y, bm, uv).

(** macroblock.cc l.375-442: mode, partition, sub-block modes and vectors. *)
Definition inter_modes_decode (pt : ProbabilityTables) (W H : nat) (flipped : bool) (l : list mbinfo)
  : dec (Z * option Z * list Z * list mv) :=
  let i := length l in
  let census := census_at W flipped l i in
  let best := clamp_at W H i (sc_best census) in
  do y <- tree_decode mv_ref_tree (mv_ref_probs (sc_contexts census));
  let whole v := (y, None, repeat 0 16, repeat v 16) in
  if y =? NEARESTMV then dret (whole (clamp_at W H i (sc_nearest census)))
  else if y =? NEARMV then dret (whole (clamp_at W H i (sc_near census)))
  else if y =? ZEROMV then dret (whole mv_zero)
  else if y =? NEWMV then (do v <- read_mv (pt_mv pt); dret (whole (mv_add v best)))
  else (do p <- tree_decode split_mv_tree split_mv_probs;
        do s <- split_decode (pt_mv pt) best (option_map mb_mvs (above_of W l i)) (option_map mb_mvs (left_of W l i))
                             (mv_partition p) (repeat (0, mv_zero) 16);
        dret (y, Some p, map fst s, map snd s)).

(** macroblock.cc l.43-71, l.342-456: one inter frame macroblock. The chroma
    vectors are a function of the luma ones (l.444-454) and not kept. *)
Definition if_mb_decode (h : InterFrameHeader) (pt : ProbabilityTables) (W H : nat) (l : list mbinfo) : dec mbinfo :=
  do seg <- segment_decode (if_update_segmentation h);
  do skip <- skip_decode (if_prob_skip_false h);
  do (inter, sel1, sel2, flipped) <- mb_header_decode h;
  if inter : bool then
    (do (y, p, bm, mvs) <- inter_modes_decode pt W H flipped l;
     dret (mkMB seg skip inter sel1 sel2 flipped p y bm mvs 0))
  else
    (do (y, bm, uv) <- intra_modes_decode pt;
     dret (mkMB seg skip inter sel1 sel2 flipped None y bm (repeat mv_zero 16) uv)).

(** 2d.hh l.75-93, frame.cc l.95-109: all macroblocks in raster order. *)
Fixpoint mbs_decode (n : nat) (f : list mbinfo -> dec mbinfo) (l : list mbinfo) : dec (list mbinfo) :=
  match n with
  | O => dret l
  | S n' => do m <- f l; mbs_decode n' f (l ++ [m])
  end.

Definition kf_macroblocks_decode (h : KeyFrameHeader) (W H : nat) : dec (list mbinfo) :=
  mbs_decode (W * H) (kf_mb_decode h W) [].
Definition if_macroblocks_decode (h : InterFrameHeader) (pt : ProbabilityTables) (W H : nat) : dec (list mbinfo) :=
  mbs_decode (W * H) (if_mb_decode h pt W H) [].

(** ** Writer. [None]: an exception. *)

Definition oapp {A} (a b : option (list A)) : option (list A) :=
  match a, b with
  | Some x, Some y => Some (x ++ y)
  | _, _ => None
  end.
Definition oconcat {A} (l : list (option (list A))) : option (list A) := fold_right oapp (Some []) l.

(** serializer.cc l.376. *)
Definition segment_events (u : option UpdateSegmentation) (s : option Z) : option (list event) :=
  match s with
  | Some s => tree_encode segment_id_tree (segment_tree_probs u) s
  | None => Some []
  end.
(** serializer.cc l.378-382. *)
Definition skip_events (p : option Z) (s : option bool) : option (list event) :=
  match s, p with
  | Some _, None => None
  | _, _ => Some (optional_events (fun b => [(b, skip_prob p)]) s)
  end.

(** serializer.cc l.293-303. *)
Definition kf_bmodes_events (above left : option (list Z)) (bm : list Z) : option (list event) :=
  oconcat (map (fun k => tree_encode b_mode_tree
                           (kf_b_probs (sub_above B_DC_PRED above bm k) (sub_left B_DC_PRED left bm k))
                           (nth k bm 0)) (seq 0 16)).

(** serializer.cc l.285-308, l.370-385: macroblock [i] of the frame [l]. *)
Definition kf_mb_events (h : KeyFrameHeader) (W : nat) (l : list mbinfo) (i : nat) (m : mbinfo) : option (list event) :=
  oapp (segment_events (kf_update_segmentation h) (mb_segment m))
  (oapp (skip_events (kf_prob_skip_false h) (mb_skip m))
  (oapp (tree_encode kf_y_mode_tree kf_y_mode_probs (mb_ymode m))
  (oapp (if mb_ymode m =? B_PRED then
           kf_bmodes_events (option_map mb_bmodes (above_of W l i)) (option_map mb_bmodes (left_of W l i)) (mb_bmodes m)
         else Some [])
        (tree_encode uv_mode_tree kf_uv_mode_probs (mb_uvmode m))))).

(** serializer.cc l.247-283. *)
Definition sub_mv_events (probs : list Z) (best : mv) (above left : option (list mv)) (cur : list (Z * mv)) (k : nat)
  : option (list event) :=
  let left_mv := sub_left mv_zero left (map snd cur) k in
  let above_mv := sub_above mv_zero above (map snd cur) k in
  let '(m, v) := nth k cur (0, mv_zero) in
  oapp (tree_encode submv_ref_tree (submv_ref_probs left_mv above_mv) m)
       (if m =? NEW4X4 then write_mv probs (mv_sub v best) else Some []).

(** serializer.cc l.358-365. *)
Definition split_events (probs : list Z) (best : mv) (above left : option (list mv)) (parts : list (list nat))
           (cur : list (Z * mv)) : option (list event) :=
  oconcat (map (fun p => sub_mv_events probs best above left cur (hd 0%nat p)) parts).

(** serializer.cc l.187-194. *)
Definition mb_header_events (h : InterFrameHeader) (m : mbinfo) : list event :=
  [(mb_inter m, if_prob_inter h)] ++
  optional_events (fun b => [(b, if_prob_references_last h)]) (mb_sel1 m) ++
  optional_events (fun b => [(b, if_prob_references_golden h)]) (mb_sel2 m).

(** serializer.cc l.314-329. *)
Definition intra_modes_events (pt : ProbabilityTables) (m : mbinfo) : option (list event) :=
  oapp (tree_encode y_mode_tree (pt_y_mode pt) (mb_ymode m))
  (oapp (if mb_ymode m =? B_PRED then oconcat (map (tree_encode b_mode_tree invariant_b_mode_probs) (mb_bmodes m))
         else Some [])
        (tree_encode uv_mode_tree (pt_uv_mode pt) (mb_uvmode m))).

(** serializer.cc l.330-367. *)
Definition inter_modes_events (pt : ProbabilityTables) (W H : nat) (l : list mbinfo) (i : nat) (m : mbinfo)
  : option (list event) :=
  let census := census_at W (mb_flipped m) l i in
  let best := clamp_at W H i (sc_best census) in
  oapp (tree_encode mv_ref_tree (mv_ref_probs (sc_contexts census)) (mb_ymode m))
       (if mb_ymode m =? NEWMV then write_mv (pt_mv pt) (mv_sub (base_mv m) best)
        else if mb_ymode m =? SPLITMV then
          match mb_partition m with
          | None => None
          | Some p => oapp (tree_encode split_mv_tree split_mv_probs p)
                           (split_events (pt_mv pt) best (option_map mb_mvs (above_of W l i))
                                         (option_map mb_mvs (left_of W l i))
                                         (mv_partition p) (combine (mb_bmodes m) (mb_mvs m)))
          end
        else Some []).

(** serializer.cc l.370-385. *)
Definition if_mb_events (h : InterFrameHeader) (pt : ProbabilityTables) (W H : nat) (l : list mbinfo) (i : nat)
           (m : mbinfo) : option (list event) :=
  oapp (segment_events (if_update_segmentation h) (mb_segment m))
  (oapp (skip_events (if_prob_skip_false h) (mb_skip m))
  (oapp (Some (mb_header_events h m))
        (if mb_inter m then inter_modes_events pt W H l i m else intra_modes_events pt m))).

(** serializer.cc l.397-402. *)
Definition mbs_events (f : list mbinfo -> nat -> mbinfo -> option (list event)) (l : list mbinfo) : option (list event) :=
  oconcat (map (fun '(i, m) => f l i m) (combine (seq 0 (length l)) l)).

Definition kf_macroblocks_events (h : KeyFrameHeader) (W : nat) (l : list mbinfo) : option (list event) :=
  mbs_events (kf_mb_events h W) l.
Definition if_macroblocks_events (h : InterFrameHeader) (pt : ProbabilityTables) (W H : nat) (l : list mbinfo)
  : option (list event) :=
  mbs_events (if_mb_events h pt W H) l.
