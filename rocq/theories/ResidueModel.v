(** The encoder's residues: forward transforms, quantisation and the search for
    a cheaper quantisation. Sources: src/decoder/dct.cc (portable branches),
    src/decoder/quantization.cc l.148-178, src/encoder/encoder.cc l.195-416,
    src/encoder/encode_intra.cc l.48-72, l.168-222, l.286-334,
    src/encoder/encode_inter.cc l.375-434, l.479-506. *)
From Verif Require Import Base MVModel TokenModel FrameModel RasterModel TransformModel QuantModel.

(** * Forward transforms *)

(** dct.cc l.71-80: one row. Results are stored as int16_t. *)
Definition fdct_row (x0 x1 x2 x3 : Z) : option (list Z) :=
  let? a1 := i32 ((x0 + x3) * 8) in
  let? b1 := i32 ((x1 + x2) * 8) in
  let? c1 := i32 ((x1 - x2) * 8) in
  let? d1 := i32 ((x0 - x3) * 8) in
  let? r0 := i32 (a1 + b1) in
  let? r2 := i32 (a1 - b1) in
  let? p := i32 (c1 * 2217) in
  let? q := i32 (d1 * 5352) in
  let? s := i32 (p + q) in
  let? r1 := i32 (s + 14500) in
  let? p := i32 (d1 * 2217) in
  let? q := i32 (c1 * 5352) in
  let? s := i32 (p - q) in
  let? r3 := i32 (s + 7500) in
  Some [s16 r0; s16 (Z.shiftr r1 12); s16 r2; s16 (Z.shiftr r3 12)].

(** dct.cc l.89-98: one column, from top to bottom. *)
Definition fdct_column (x0 x1 x2 x3 : Z) : option (list Z) :=
  let? a1 := i32 (x0 + x3) in
  let? b1 := i32 (x1 + x2) in
  let? c1 := i32 (x1 - x2) in
  let? d1 := i32 (x0 - x3) in
  let? s := i32 (a1 + b1) in
  let? r0 := i32 (s + 7) in
  let? s := i32 (a1 - b1) in
  let? r2 := i32 (s + 7) in
  let? p := i32 (c1 * 2217) in
  let? q := i32 (d1 * 5352) in
  let? s := i32 (p + q) in
  let? r1 := i32 (s + 12000) in
  let? p := i32 (d1 * 2217) in
  let? q := i32 (c1 * 5352) in
  let? s := i32 (p - q) in
  let? r3 := i32 (s + 51000) in
  Some [s16 (Z.shiftr r0 4); s16 (Z.shiftr r1 16 + (if d1 =? 0 then 0 else 1)); s16 (Z.shiftr r2 4); s16 (Z.shiftr r3 16)].

(** Columns of results to raster order. *)
Definition transpose4 (cols : list (list Z)) : list Z :=
  flat_map (fun r => map (fun c => nth r c 0) cols) [0; 1; 2; 3]%nat.

(** dct.cc l.65-102, on the sixteen differences in raster order. The second
    loop works in place, column by column. *)
Definition fdct (input : list Z) : option (list Z) :=
  let? rows := omap (fun i => fdct_row (nth16 input (4 * i)) (nth16 input (4 * i + 1)) (nth16 input (4 * i + 2)) (nth16 input (4 * i + 3)))
                    [0; 1; 2; 3] in
  let mid := concat rows in
  let? cols := omap (fun i => fdct_column (nth16 mid i) (nth16 mid (i + 4)) (nth16 mid (i + 8)) (nth16 mid (i + 12))) [0; 1; 2; 3] in
  Some (transpose4 cols).

(** dct.cc l.45-63: a 4x4 block of the picture and its prediction, row by row. *)
Definition differences (block prediction : list Z) : list Z :=
  map (fun '(b, p) => s16 (b - p)) (combine block prediction).
Definition subtract_dct (block prediction : list Z) : option (list Z) := fdct (differences block prediction).

(** dct.cc l.121-129: one row. *)
Definition wht_row (x0 x1 x2 x3 : Z) : option (list Z) :=
  let? a1 := i32 ((x0 + x2) * 4) in
  let? d1 := i32 ((x1 + x3) * 4) in
  let? c1 := i32 ((x1 - x3) * 4) in
  let? b1 := i32 ((x0 - x2) * 4) in
  let? s := i32 (a1 + d1) in
  let? r0 := i32 (s + (if a1 =? 0 then 0 else 1)) in
  let? r1 := i32 (b1 + c1) in
  let? r2 := i32 (b1 - c1) in
  let? r3 := i32 (a1 - d1) in
  Some [s16 r0; s16 r1; s16 r2; s16 r3].

(** dct.cc l.149-157: rounding towards zero. *)
Definition wht_round (x : Z) : option Z :=
  let? x := i32 (x + (if x <? 0 then 1 else 0)) in
  let? y := i32 (x + 3) in
  Some (s16 (Z.shiftr y 3)).

(** dct.cc l.139-157: one column. *)
Definition wht_column (x0 x1 x2 x3 : Z) : option (list Z) :=
  let? a1 := i32 (x0 + x2) in
  let? d1 := i32 (x1 + x3) in
  let? c1 := i32 (x1 - x3) in
  let? b1 := i32 (x0 - x2) in
  let? a2 := i32 (a1 + d1) in
  let? b2 := i32 (b1 + c1) in
  let? c2 := i32 (b1 - c1) in
  let? d2 := i32 (a1 - d1) in
  omap wht_round [a2; b2; c2; d2].

(** dct.cc l.106-164. *)
Definition wht (input : list Z) : option (list Z) :=
  let? rows := omap (fun i => wht_row (nth16 input (4 * i)) (nth16 input (4 * i + 1)) (nth16 input (4 * i + 2)) (nth16 input (4 * i + 3)))
                    [0; 1; 2; 3] in
  let mid := concat rows in
  let? cols := omap (fun i => wht_column (nth16 mid i) (nth16 mid (i + 4)) (nth16 mid (i + 8)) (nth16 mid (i + 12))) [0; 1; 2; 3] in
  Some (transpose4 cols).

(** * The search for a cheaper quantisation *)

(** What the search asks costs.hh for: the cost of a token (type, band,
    context, token) and of the extra bits of a coefficient, and the two
    multipliers (encoder.hh l.152-153). The tables are read at indices below
    their sizes only. *)
Record costs : Type := mkCosts {
  token_cost : Z -> Z -> Z -> Z -> Z;
  value_cost : Z -> Z;
  rate_multiplier : Z;
  distortion_multiplier : Z
}.

(** costs.cc l.613-617. *)
Definition coeff_base_cost (cs : costs) (c : Z) : option Z :=
  if (-2048 <=? c) && (c <=? 2047) then Some (value_cost cs c) else None.

(** encoder.cc l.410-416: uint32_t arithmetic. *)
Definition rdcost (cs : costs) (rate distortion : Z) : Z :=
  wrap 32 (wrap 32 (128 + wrap 32 (rate * rate_multiplier cs)) / 256 + wrap 32 (distortion * distortion_multiplier cs)).

(** tokens.hh l.36-49. *)
Definition EOB_token := 11.

(** costs.cc l.242-261. *)
Definition token_for_coeff (c : Z) : Z :=
  let a := Z.abs c in
  if a <=? 4 then a
  else if a <=? 6 then 5
  else if a <=? 10 then 6
  else if a <=? 18 then 7
  else if a <=? 34 then 8
  else if a <=? 66 then 9
  else 10.

(** costs.hh l.14-15. *)
Definition prev_token_class (t : Z) : Z :=
  nth (Z.to_nat t) [0; 1; 2; 2; 2; 2; 2; 2; 2; 2; 2; 0] 0.

(** encoder.cc l.224-233: TrellisNode. [n_next]: [None] is 255. The cost of the
    nodes other than the first is not used. *)
Record node : Type := mkNode { n_rate : Z; n_dist : Z; n_coeff : Z; n_token : Z; n_next : option bool }.

(** encoder.cc l.277-285. *)
Definition sentinel : node := mkNode 0 0 0 EOB_token None.

(** The two levels of one position; [true] is the second. *)
Definition pick (p : node * node) (second : bool) : node := if second then snd p else fst p.

(** The largest uint32_t. *)
Definition u32_max := 4294967295.

(** The loops at l.327-351 and l.386-393: the cheaper of two, the first if they
    are equal; [None]: neither is below the largest uint32_t. *)
Definition cheaper (c0 c1 : Z) : option bool :=
  if c0 <? u32_max then Some (c1 <? c0) else if c1 <? u32_max then Some true else None.

(** encoder.cc l.313-367: the node for the coefficient [cand] at index [idx],
    where [f] is the quantisation factor and [orig] the unquantised coefficient.
    [None]: an index of 255 is used, an assertion fails, or int overflows. *)
Definition trellis_node (cs : costs) (type : Z) (idx : nat) (f orig cand : Z) (next : node * node) : option node :=
  let? p := i32 (cand * f) in
  let? d := i32 (orig - p) in
  let diff := s16 d in
  let sse := wrap 32 (diff * diff) in
  let token := token_for_coeff cand in
  let dist second := wrap 32 (n_dist (pick next second) + sse) in
  let rate second :=
    if (idx <? 15)%nat
    then wrap 32 (n_rate (pick next second) + token_cost cs type (band_of (S idx)) (prev_token_class token) (n_token (pick next second)))
    else n_rate (pick next second) in
  let? best := cheaper (rdcost cs (rate false) (dist false)) (rdcost cs (rate true) (dist true)) in
  if negb (cand =? 0) || negb (n_token (pick next best) =? EOB_token) then
    let? v := coeff_base_cost cs cand in
    Some (mkNode (wrap 32 (rate best + v)) (dist best) cand token (Some best))
  else Some (mkNode 0 sse 0 EOB_token None).

(** encoder.cc l.298-307: one step towards zero. *)
Definition towards_zero (q : Z) : Z := if q <? 0 then Z.min 0 (s16 (q + 1)) else Z.max 0 (s16 (q - 1)).

(** encoder.cc l.289-368: both levels at one index. [None]: division by zero
    or the above. *)
Definition trellis_levels (cs : costs) (type : Z) (dc ac : Z) (coefs : list Z) (idx : nat) (next : node * node) : option (node * node) :=
  let f := if (idx =? 0)%nat then dc else ac in
  if f =? 0 then None else
  let orig := nth (zz idx) coefs 0 in
  let q := s16 (Z.quot orig f) in
  let? n0 := trellis_node cs type idx f orig q next in
  let? n1 := if q =? 0 then Some n0 else trellis_node cs type idx f orig (towards_zero q) next in
  Some (n0, n1).

(** encoder.cc l.288: indices [first + n - 1] down to [first]; the result lists
    the positions from [first] on. *)
Fixpoint trellis_build (cs : costs) (type dc ac : Z) (coefs : list Z) (first n : nat) : option (list (node * node)) :=
  match n with
  | O => Some [(sentinel, sentinel)]
  | S n' =>
      let? rest := trellis_build cs type dc ac coefs (S first) n' in
      match rest with
      | [] => None
      | next :: _ => let? p := trellis_levels cs type dc ac coefs first next in Some (p :: rest)
      end
  end.

(** encoder.cc l.405-407: zeros from index [i] on. *)
Definition clear_from (i : nat) (coefs : list Z) : list Z :=
  fold_left (fun c k => list_set c (zz k) 0) (seq i (16 - i)) coefs.

(** encoder.cc l.395-407: follow the path. [None]: an index of 255, or past the
    end of the positions that were set. *)
Fixpoint trellis_walk (trellis : list (node * node)) (i : nat) (choice : option bool) (coefs : list Z) : option (list Z) :=
  if (16 <=? i)%nat then Some coefs
  else match trellis, choice with
  | p :: rest, Some c =>
      let n := pick p c in
      if n_token n =? EOB_token then Some (clear_from i coefs)
      else trellis_walk rest (S i) (n_next n) (list_set coefs (zz i) (n_coeff n))
  | _, _ => None
  end.

(** encoder.cc l.220-408. [ctx]: the context from the neighbouring blocks, 0 to
    2. [None] also if both costs of the first index are the largest uint32_t:
    min_choice is then not initialised. *)
Definition trellis_quantize (cs : costs) (type ctx dc ac : Z) (coefs : list Z) : option (list Z) :=
  let first := first_index type in
  let n := coded_length type coefs in
  if (n =? 0)%nat then Some (repeat 0 16)
  else
    let? trellis := trellis_build cs type dc ac coefs first (n - first) in
    match trellis with
    | [] => None
    | p :: _ =>
        let cost c := let nd := pick p c in
          rdcost cs (wrap 32 (n_rate nd + token_cost cs type (band_of first) ctx (n_token nd))) (n_dist nd) in
        let? choice := cheaper (cost false) (cost true) in
        trellis_walk trellis first (Some choice) coefs
    end.

(** encoder.cc l.195-218. *)
Definition check_reset_y2 (q : Quantizer) (coefs : list Z) : list Z :=
  if (35 <=? q_y2_dc q) && (35 <=? q_y2_ac q) then coefs
  else if fold_left (fun s c => s + Z.abs c) coefs 0 <? 35 then repeat 0 16 else coefs.

(** * Blocks of a macroblock *)

(** encoder.cc l.238-253: the factors for a type of block; quantization.cc
    l.159-178. *)
Definition factors (q : Quantizer) (type : Z) : Z * Z :=
  if type =? UV_type then (q_uv_dc q, q_uv_ac q)
  else if type =? Y2_type then (q_y2_dc q, q_y2_ac q)
  else (q_y_dc q, q_y_ac q).

(** First pass ([None]): plain quantisation; second pass: the search, with
    costs and, block by block, contexts from outside. *)
Definition quantise (pass : option costs) (ctx : Z) (q : Quantizer) (type : Z) (coefs : list Z) : option (list Z) :=
  let '(dc, ac) := factors q type in
  match pass with
  | None => quantize dc ac coefs
  | Some cs => trellis_quantize cs type ctx dc ac coefs
  end.

(** block.hh: calculate_has_nonzero. *)
Definition with_flag (c : list Z) : block := (c, existsb (fun x => negb (x =? 0)) c).

(** A 4x4 block with its own DC coefficient: encode_intra.cc l.48-67 (B_PRED),
    l.297-333 and encode_inter.cc l.479-503 (chroma). *)
Definition code_block (pass : option costs) (ctx : Z) (q : Quantizer) (type : Z) (original prediction : list Z) : option block :=
  let? c := subtract_dct original prediction in
  let? c := quantise pass ctx q type c in
  Some (with_flag c).

(** A luma block under a Y2 block: encode_intra.cc l.186-208, encode_inter.cc
    l.413-428. Also gives the DC coefficient that was taken out. *)
Definition code_block_y2 (pass : option costs) (ctx : Z) (q : Quantizer) (original prediction : list Z) : option (block * Z) :=
  let? c := subtract_dct original prediction in
  let? d := quantise pass ctx q Y_after_Y2 (list_set c 0 0) in
  Some (with_flag d, nth 0 c 0).

(** The Y2 block: encode_intra.cc l.210-221, encode_inter.cc l.430-433. *)
Definition code_y2 (pass : option costs) (ctx : Z) (q : Quantizer) (dcs : list Z) : option block :=
  let? c := wht dcs in
  let? c := quantise pass ctx q Y2_type (match pass with None => c | Some _ => check_reset_y2 q c end) in
  Some (with_flag c).
