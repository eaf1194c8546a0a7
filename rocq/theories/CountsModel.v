(** How often the encoder would code which bit with which probability of the
    token table. Sources: src/encoder/serializer.cc l.455-593,
    src/encoder/encoder.cc l.418-438, src/encoder/encode_intra.cc l.407-440. *)
From Verif Require Import Base BoolCoderModel ParserModel TokenModel MVModel MBModel FrameModel SearchModel.

(** macroblock.hh l.45-49: TokenBranchCounts, flattened as in [coeff_prob]: how often
    false and how often true. The constructor leaves zeros. *)
Definition branch_counts : Type := list (Z * Z).
Definition no_counts : branch_counts := repeat (0, 0) (Z.to_nat 1056).
Definition count_index (type band ctx node : Z) : Z := ((type * 8 + band) * 3 + ctx) * 11 + node.
(** [.first++] and [.second++] on a pair of uint32_t. *)
Definition bump (counts : branch_counts) (i : Z) (b : bool) : branch_counts :=
  let '(f, t) := nth (Z.to_nat i) counts (0, 0) in
  set_nth counts (Z.to_nat i) (if b then (f, wrap 32 (t + 1)) else (wrap 32 (f + 1), t)).

(** serializer.cc l.499-568: a non-zero coefficient; [base] is the index of
    node 0. The counts and the next context; [None]: the exception. *)
Definition count_value (base : Z) (v : Z) (c : branch_counts) : option (branch_counts * Z) :=
  let first c n := bump c (base + n) false in
  let second c n := bump c (base + n) true in
  let c := second c 1 in
  if v =? 1 then Some (first c 2, 1)
  else
    let c := second c 2 in
    if v =? 2 then Some (first (first c 3) 4, 2)
    else if v =? 3 then Some (first (second (first c 3) 4) 5, 2)
    else if v =? 4 then Some (second (second (first c 3) 4) 5, 2)
    else
      let c := second c 3 in
      if v <? base_value token_decoder_1 then Some (first (first c 6) 7, 2)
      else if v <? upper_limit token_decoder_1 then Some (second (first c 6) 7, 2)
      else
        let c := second c 6 in
        if v <? upper_limit token_decoder_2 then Some (first (first c 8) 9, 2)
        else if v <? upper_limit token_decoder_3 then Some (second (first c 8) 9, 2)
        else
          let c := second c 8 in
          if v <? upper_limit token_decoder_4 then Some (first c 10, 2)
          else if v <? upper_limit token_decoder_5 then Some (second c 10, 2)
          else None.

(** l.479-568: the loop, [n] coefficients from [index]. *)
Fixpoint count_loop (type : Z) (coefs : list Z) (n index : nat) (ctx : Z) (lwz : bool) (c : branch_counts)
  : option (branch_counts * Z * bool) :=
  match n with
  | O => Some (c, ctx, lwz)
  | S n =>
      let v := Z.abs (nth (zz index) coefs 0) in
      let base := count_index type (band_of index) ctx 0 in
      let c := if lwz then c else bump c base true in
      if v =? 0 then count_loop type coefs n (S index) 0 true (bump c (base + 1) false)
      else
        match count_value base v c with
        | None => None
        | Some (c, ctx) => count_loop type coefs n (S index) ctx false c
        end
  end.

(** l.455-578: one block. [ctx0]: as in [serialize_tokens]. *)
Definition count_block (type ctx0 : Z) (coefs : list Z) (c : branch_counts) : option branch_counts :=
  let len := coded_length type coefs in
  let start := first_index type in
  match count_loop type coefs (len - start) start ctx0 false c with
  | None => None
  | Some (c, ctx, lwz) =>
      if lwz then None (* assert( last_was_zero == false ) *)
      else if (len <? 16)%nat then Some (bump c (count_index type (band_of (Nat.max len start)) ctx 0) false)
      else Some c
  end.

(** The blocks of a plane in raster order. *)
Fixpoint count_blocks (type : Z) (w : nat) (above left : option (list block)) (l : list block) (ks : list nat) (c : branch_counts)
  : option branch_counts :=
  match ks with
  | [] => Some c
  | k :: ks =>
      match count_block type (blk_ctx w above left l k) (fst (nth k l fresh_block)) c with
      | None => None
      | Some c => count_blocks type w above left l ks c
      end
  end.
Definition count_plane (type : Z) (w : nat) (above left : option (list block)) (l : list block) (c : branch_counts) : option branch_counts :=
  count_blocks type w above left l (seq 0 (length l)) c.

(** l.580-587: one macroblock: the Y2 block is not counted, and whether the
    tokens of the macroblock will be written is not asked. *)
Definition count_mb (W : nat) (cs : list mbcoef) (i : nat) (m : mbinfo) (c : mbcoef) (counts : branch_counts) : option branch_counts :=
  let a := above_of W cs i in
  let l := left_of W cs i in
  match count_plane (y_type m) 4 (option_map co_y a) (option_map co_y l) (co_y c) counts with
  | None => None
  | Some counts =>
      match count_plane UV_type 2 (option_map co_u a) (option_map co_u l) (co_u c) counts with
      | None => None
      | Some counts => count_plane UV_type 2 (option_map co_v a) (option_map co_v l) (co_v c) counts
      end
  end.

(** encode_intra.cc l.418-436, encode_inter.cc l.603-636: all macroblocks in
    raster order. [cs]: the coefficients of the whole frame; the ones above
    and to the left are in place when a macroblock is counted. *)
Fixpoint count_frame (W : nat) (cs : list mbcoef) (i : nat) (todo : list (mbinfo * mbcoef)) (counts : branch_counts) : option branch_counts :=
  match todo with
  | [] => Some counts
  | (m, c) :: r =>
      match count_mb W cs i m c counts with
      | None => None
      | Some counts => count_frame W cs (S i) r counts
      end
  end.

(** encoder.cc l.418-438: the updates for the header; [old]: the updates that
    are in the header before (it is not cleared between frames). *)
Definition optimize_tables (tbl : list Z) (old : list (option Z)) (counts : branch_counts) : option (list (option Z)) :=
  omap (fun '((p, o), (f, t)) =>
          match token_update p f t with
          | None => None
          | Some None => Some o
          | Some (Some u) => Some (Some u)
          end) (combine (combine tbl old) counts).
