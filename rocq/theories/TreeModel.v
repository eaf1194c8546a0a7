(** The code trees. Source: src/decoder/modemv_data.hh l.37-48,
    src/decoder/modemv_data.cc l.162-229, l.281. *)
From Verif Require Import Base.

(** modemv_data.hh l.37-38: enum mbmode. *)
Definition DC_PRED := 0. Definition V_PRED := 1. Definition H_PRED := 2. Definition TM_PRED := 3.
Definition B_PRED := 4. Definition NEARESTMV := 5. Definition NEARMV := 6. Definition ZEROMV := 7.
Definition NEWMV := 8. Definition SPLITMV := 9.
(** modemv_data.hh l.42-44: enum bmode. *)
Definition B_DC_PRED := 0. Definition B_TM_PRED := 1. Definition B_VE_PRED := 2. Definition B_HE_PRED := 3.
Definition B_LD_PRED := 4. Definition B_RD_PRED := 5. Definition B_VR_PRED := 6. Definition B_VL_PRED := 7.
Definition B_HD_PRED := 8. Definition B_HU_PRED := 9. Definition LEFT4X4 := 10. Definition ABOVE4X4 := 11.
Definition ZERO4X4 := 12. Definition NEW4X4 := 13.
(** modemv_data.hh l.48: enum reference_frame. *)
Definition CURRENT_FRAME := 0. Definition LAST_FRAME := 1. Definition GOLDEN_FRAME := 2. Definition ALTREF_FRAME := 3.

(** modemv_data.cc l.162-168. *)
Definition kf_y_mode_tree : list Z := [-B_PRED; 2; 4; 6; -DC_PRED; -V_PRED; -H_PRED; -TM_PRED].
(** modemv_data.cc l.170-176. *)
Definition y_mode_tree : list Z := [-DC_PRED; 2; 4; 6; -V_PRED; -H_PRED; -TM_PRED; -B_PRED].
(** modemv_data.cc l.178-183. *)
Definition uv_mode_tree : list Z := [-DC_PRED; 2; -V_PRED; 4; -H_PRED; -TM_PRED].
(** modemv_data.cc l.185-196. *)
Definition b_mode_tree : list Z :=
  [-B_DC_PRED; 2; -B_TM_PRED; 4; -B_VE_PRED; 6; 8; 12; -B_HE_PRED; 10; -B_RD_PRED; -B_VR_PRED;
   -B_LD_PRED; 14; -B_VL_PRED; 16; -B_HD_PRED; -B_HU_PRED].
(** modemv_data.cc l.198-207. *)
Definition small_mv_tree : list Z := [2; 8; 4; 6; 0; -1; -2; -3; 10; 12; -4; -5; -6; -7].
(** modemv_data.cc l.209-215. *)
Definition mv_ref_tree : list Z := [-ZEROMV; 2; -NEARESTMV; 4; -NEARMV; 6; -NEWMV; -SPLITMV].
(** modemv_data.cc l.217-222. *)
Definition submv_ref_tree : list Z := [-LEFT4X4; 2; -ABOVE4X4; 4; -ZERO4X4; -NEW4X4].
(** modemv_data.cc l.224-229. *)
Definition split_mv_tree : list Z := [-3; 2; -2; 4; 0; -1].
(** modemv_data.cc l.281. *)
Definition segment_id_tree : list Z := [2; 4; 0; -1; -2; -3].
