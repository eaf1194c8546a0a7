(** The encoder's search for motion vectors and its choice between the inter
    modes (encoder/encode_inter.cc). Parts of the costs are parameters: the
    tables (encoder/costs.hh l.38-50) and the distortion of a prediction. *)
From Verif Require Import Base TreeModel MVModel FrameModel MBModel RasterModel PredictModel SafeRasterModel.

(** l.36-47. *)
Definition out_of_bounds (m : mv) : bool :=
  (1023 <? fst m) || (fst m <? -1023) || (1023 <? snd m) || (snd m <? -1023).

Definition UINT32_MAX : Z := 4294967295.

(** l.191-193. *)
Definition check_sites : list (Z * Z) := [(-1, 0); (0, -1); (0, 0); (0, 1); (1, 0)].

(** l.200-204: the offset at one site. size_t times int16_t is a size_t, which
    the constructor of MotionVector cuts to int16_t. *)
Definition site (origin : mv) (step : Z) (d : Z * Z) : mv :=
  mv_add mv_zero (mv_add origin (s16 (step * fst d), s16 (step * snd d))).

(** l.196-218: one round of the search. [score] is the cost of an offset (None:
    the evaluation fails); best_pred begins with no vector and the greatest
    cost (encoder.hh l.99-107). *)
Definition search_round (score : mv -> option Z) (origin : mv) (step : Z) : option (mv * Z) :=
  ofold (fun best d =>
    let v := site origin step d in
    if out_of_bounds v then Some best
    else let? c := score v in Some (if c <? snd best then (v, c) else best)) check_sites (mv_zero, UINT32_MAX).

(** l.195-226, given first_step so far. The steps are powers of two; [fuel] is
    more than enough if it exceeds the number of halvings (shown in
    PropMotion.v); None if it runs out. *)
Fixpoint diamond_loop (fuel : nat) (score : mv -> option Z) (origin : mv) (step first : Z) : option (mv * Z) :=
  if step <=? 1 then Some (origin, first)
  else match fuel with
       | O => None
       | S fuel =>
         let? best := search_round score origin step in
         let first := if mv_eqb (fst best) origin then step / 2 else first in
         diamond_loop fuel score (fst best) (step / 2) first
       end.

(** l.172-229: the vector and first_step. *)
Definition diamond_search (score : mv -> option Z) (origin : mv) (step : Z) : option (mv * Z) :=
  diamond_loop 10 score origin step (step / 2).

(** l.287-298: repeated searches from the vector found so far. *)
Fixpoint new_loop (fuel : nat) (score : mv -> option Z) (v : mv) (step : Z) : option mv :=
  if step <=? 1 then Some v
  else match fuel with
       | O => None
       | S fuel =>
         let? r := diamond_search score v step in
         if mv_eqb (fst r) v then Some v else new_loop fuel score (fst r) (snd r)
       end.
Definition new_offset (score : mv -> option Z) : option mv := new_loop 10 score mv_zero 512.

(** encoder.cc l.410-416, on uint32_t. *)
Definition rdcost (rate distortion rm dm : Z) : Z :=
  wrap 32 (wrap 32 (128 + wrap 32 (rate * rm)) / 256 + wrap 32 (distortion * dm)).

(** costs.cc l.231-240 with a zero base. The four tables that
    fill_mv_sad_costs (l.134-150) computes are equal: [sads]. *)
Definition sad_index (c : Z) : Z := Z.abs (Z.max (Z.min (Z.shiftr c 2) 255) (-255)).
Definition sad_mv_cost (sads : list Z) (v : mv) (weight : Z) : option Z :=
  let? y := nth_error sads (Z.to_nat (sad_index (snd v))) in
  let? x := nth_error sads (Z.to_nat (sad_index (fst v))) in
  Some (wrap 32 ((wrap 32 (y + x) * weight + 128) / 256)).

(** costs.cc l.222-226: [tables] by axis (y, x), sign and size. *)
Definition mv_table (tables : list (list (list Z))) (axis : nat) (c : Z) : option Z :=
  let? t := nth_error tables axis in
  let? t := nth_error t (if c <? 0 then 1%nat else 0%nat) in
  nth_error t (Z.to_nat (Z.abs c)).
Definition motion_vector_cost (tables : list (list (list Z))) (v : mv) (weight : Z) : option Z :=
  let? y := mv_table tables 0 (snd v) in
  let? x := mv_table tables 1 (fst v) in
  Some (wrap 32 (wrap 32 (y + x) * weight / 128)).

(** One macroblock: its place, the picture with margins, the buffer for
    predictions (whose block is overwritten every time), the distortions
    (variance.cc l.35-46, l.66-83) and the tables. *)
Record mb_search : Type := mkSearch {
  ms_col : Z; ms_row : Z; ms_w : Z; ms_h : Z;
  ms_safe : plane; ms_temp : plane;
  ms_sad : plane -> Z; ms_variance : plane -> Z;
  ms_sads : list Z; ms_mode_costs : list Z; ms_mv_costs : list (list (list Z));
  ms_weight : Z; ms_rm : Z; ms_dm : Z
}.

Definition clamp_in (s : mb_search) (v : mv) : mv := mv_clamp (ms_col s) (ms_row s) (ms_w s) (ms_h s) v.
Definition predict_in (s : mb_search) (v : mv) : option plane :=
  safe_predict MARGIN_WIDTH 16 (ms_col s) (ms_row s) v (ms_safe s) (ms_temp s).

(** l.189, l.208-213. *)
Definition score_in (s : mb_search) (base v : mv) : option Z :=
  let base := clamp_in s base in
  let? p := predict_in s (clamp_in s (mv_add v base)) in
  let? rate := sad_mv_cost (ms_sads s) v (ms_weight s) in
  Some (rdcost rate (ms_sad s p) 1 1).

(** l.272-326: the vector of a mode; [Some None]: the mode is skipped. In real
    time NEWMV is searched for at one macroblock of sixteen. *)
Definition mode_vector (s : mb_search) (realtime : bool) (census : scorer) (mode : Z) : option (option mv) :=
  let best_ref := clamp_in s (sc_best census) in
  let nonzero v := if mv_empty v then None else Some v in
  if mode =? NEWMV then
    if realtime && negb ((ms_col s mod 4 =? 0) && (ms_row s mod 4 =? 0)) then Some None
    else let? v := new_offset (score_in s best_ref) in Some (nonzero (mv_add v best_ref))
  else if mode =? NEARMV then Some (nonzero (clamp_in s (sc_near census)))
  else if mode =? NEARESTMV then Some (nonzero (clamp_in s (sc_nearest census)))
  else Some (Some mv_zero).

(** l.328-344: the cost of a mode with its vector. *)
Definition mode_cost (s : mb_search) (census : scorer) (mode : Z) (v : mv) : option Z :=
  let best_ref := clamp_in s (sc_best census) in
  let? p := predict_in s v in
  let? rate := nth_error (ms_mode_costs s) (Z.to_nat mode) in
  let? extra := (if mode =? NEWMV then motion_vector_cost (ms_mv_costs s) (mv_sub v best_ref) 96 else Some 0) in
  Some (rdcost (wrap 32 (rate + extra)) (ms_variance s p) (ms_rm s) (ms_dm s)).

(** l.240-243, l.270-351: the mode and vector with the least cost, beginning with what
    luma_mb_best_prediction_mode has found ([intra], with its cost). *)
Definition inter_modes : list Z := [ZEROMV; NEARESTMV; NEARMV; NEWMV].
Definition choose_mode (s : mb_search) (realtime : bool) (census : scorer) (intra : Z) (cost : Z) : option (Z * mv * Z) :=
  ofold (fun best mode =>
    let? o := mode_vector s realtime census mode in
    match o with
    | None => Some best
    | Some v => let? c := mode_cost s census mode v in Some (if c <? snd best then (mode, v, c) else best)
    end) inter_modes (intra, mv_zero, cost).
