(** The decisions of the encoder that do not depend on pixels: probabilities
    from counts, and the searches for a quantiser and for a loop-filter level.
    Sources: src/encoder/encoder.cc l.48-55, l.419-512, l.514-557, l.591-629,
    src/encoder/encode_inter.cc l.508-575, src/decoder/frame_header.hh l.147-190.
    What the searches measure (the size of a trial frame, the quality of a
    picture) is a function of the theorems. *)
From Verif Require Import Base.

(** encoder.cc l.48-55 on unsigned (32 bits); None: division by zero. *)
Definition calc_prob (false_count total : Z) : option Z :=
  if false_count =? 0 then Some 0
  else if total =? 0 then None
  else Some (Z.max 1 (Z.min 255 (wrap 32 (256 * false_count) / total))).

(** The total of the callers (encoder.cc l.428, encode_inter.cc l.516,
    l.560-562): a sum in 32 bits. *)
Definition branch_prob (false_count true_count : Z) : option Z :=
  calc_prob false_count (wrap 32 (false_count + true_count)).

(** encoder.cc l.424-435: the update written for one node of the token tree,
    if any; None: division by zero. *)
Definition token_update (current false_count true_count : Z) : option (option Z) :=
  match branch_prob false_count true_count with
  | None => None
  | Some prob => Some (if (0 <? prob) && negb (prob =? current) then Some prob else None)
  end.

(** frame_header.hh l.178-186. *)
Definition read_half_prob (half_prob : Z) : Z :=
  if half_prob =? 0 then 1 else wrap 8 (2 * half_prob).
Definition write_prob (prob : Z) : Z := prob / 2.

(** frame_header.hh l.159-167: None is the exception; the field holds 7 bits'
    worth of value. *)
Definition mv_prob_update (x : Z) : option Z :=
  if read_half_prob (write_prob x) =? x then Some (write_prob x) else None.

(** encode_inter.cc l.513-520: the update written for one probability of the
    motion vectors, if any. The conversion of the argument to uint8_t is
    explicit. The outer None: division by zero or the exception. *)
Definition mv_update (current false_count true_count : Z) : option (option Z) :=
  match branch_prob false_count true_count with
  | None => None
  | Some prob =>
      if (1 <? prob) && negb (prob =? current) then
        match mv_prob_update (wrap 8 (2 * (prob / 2))) with
        | None => None
        | Some h => Some (Some h)
        end
      else Some None
  end.

(** The references a macroblock may use (src/decoder/frame_header.hh). *)
Inductive mb_reference : Type := RCurrent | RLast | RGolden | RAltref.

(** encode_inter.cc l.530-558: the counts of the three branches. The counters
    have 32 bits. *)
Definition count_reference (p : (Z * Z) * (Z * Z) * (Z * Z)) (r : mb_reference) : (Z * Z) * (Z * Z) * (Z * Z) :=
  let '((a, b), (c, d), (e, f)) := p in
  match r with
  | RCurrent => ((wrap 32 (a + 1), b), (c, d), (e, f))
  | RLast => ((a, wrap 32 (b + 1)), (wrap 32 (c + 1), d), (e, f))
  | RGolden => ((a, wrap 32 (b + 1)), (c, wrap 32 (d + 1)), (wrap 32 (e + 1), f))
  | RAltref => ((a, wrap 32 (b + 1)), (c, wrap 32 (d + 1)), (e, wrap 32 (f + 1)))
  end.

(** encode_inter.cc l.560-574: a probability of the header, left alone if the
    counts say 0. *)
Definition header_prob (old false_count true_count : Z) : option Z :=
  match branch_prob false_count true_count with
  | None => None
  | Some prob => Some (if 0 <? wrap 8 prob then wrap 8 prob else old)
  end.

(** encode_inter.cc l.525-575 on the references of the macroblocks in order.
    The result: prob_inter, prob_references_last, prob_references_golden. *)
Definition optimize_interframe_probs (old_inter old_last old_golden : Z) (refs : list mb_reference) : option (Z * Z * Z) :=
  let '((a, b), (c, d), (e, f)) := fold_left count_reference refs ((0, 0), (0, 0), (0, 0)) in
  match header_prob old_inter a b, header_prob old_last c d, header_prob old_golden e f with
  | Some p, Some q, Some r => Some (p, q, r)
  | _, _, _ => None
  end.

(** encoder.cc l.438-457 on has_nonzero of the macroblocks in order. The
    counters are size_t, the parameters of calc_prob unsigned, the field of the
    header 8 bits. *)
Definition optimize_prob_skip (nonzero : list bool) : option Z :=
  match calc_prob (wrap 32 (zlen (filter (fun b => b) nonzero))) (wrap 32 (zlen nonzero)) with
  | None => None
  | Some p => Some (wrap 8 p)
  end.

Section Target.
(** estimate_frame_size (src/encoder/size_estimation.cc) may leave its trial
    frames and other scratch data of the encoder changed: it gets and returns a
    state. *)
Context {T : Type}.
Variable estimate : T -> Z -> Z * T.
Variable target : Z.

(** encoder.cc l.612-626. None: the fuel has run out. 255 stands for no
    quantiser yet. *)
Fixpoint target_loop (fuel : nat) (t : T) (lo hi best : Z) : option (Z * T) :=
  match fuel with
  | O => None
  | S fuel' =>
      if lo <=? hi then
        let q := Z.quot (lo + hi) 2 in
        let (size, t') := estimate t q in
        if (size <=? target) || ((lo =? hi) && (best =? 255)) then
          target_loop fuel' t' lo (q - 1) q
        else target_loop fuel' t' (q + 1) hi best
      else Some (best, t)
  end.

(** encoder.cc l.597-608: the window. *)
Definition target_window (last : option Z) : Z * Z :=
  match last with
  | None => (4, 127)
  | Some l => (if 4 <=? l - 16 then l - 16 else 4, Z.min 127 (l + 16))
  end.

(** encoder.cc l.591-628 without the final encoding: the quantiser it uses. *)
Definition target_search (fuel : nat) (t : T) (last : option Z) : option (Z * T) :=
  let (lo, hi) := target_window last in target_loop fuel t lo hi 255.
End Target.

(** How a measured quality compares with the wanted one; unordered if one of
    them is not a number. *)
Inductive comparison_ssim : Type := AtLeast | Below | Unordered.

Section Quality.
Context {T : Type}.
(** A trial encoding (encoder.cc l.531, update_state = true: it does change the
    encoder's state) and the comparison of its quality with the minimum. *)
Variable measure : T -> Z -> comparison_ssim * T.

(** encoder.cc l.527-553. None: the fuel has run out. *)
Fixpoint quality_loop (fuel : nat) (t : T) (lo hi : Z) (found : bool) (best : Z) : option (Z * T) :=
  match fuel with
  | O => None
  | S fuel' =>
      if lo <=? hi then
        let q := Z.quot (lo + hi) 2 in
        let (c, t') := measure t q in
        let take := match c with AtLeast => true | _ => (lo =? hi) && negb found end in
        let found' := if take then true else found in
        let best' := if take then q else best in
        if lo =? hi then Some (best', t')
        else match c with
             | Below => quality_loop fuel' t' lo (q - 1) found' best'
             | _ => quality_loop fuel' t' (q + 1) hi found' best'
             end
      else Some (best, t)
  end.

(** encoder.cc l.514-555: the quantiser of the final encoding. *)
Definition quality_search (fuel : nat) (t : T) : option (Z * T) := quality_loop fuel t 0 127 false 0.
End Quality.

(** The quality a trial encoding returns (encode_inter.cc l.652,
    encode_intra.cc l.455): it is computed only if asked for; encoder.cc l.531
    does not ask (the default of encoder.hh l.334-337 is false). Qualities are
    given by their comparison with the minimum. *)
Definition returned_quality {Q} (compute_ssim : bool) (quality zero : Q) : Q :=
  if compute_ssim then quality else zero.

Section Level.
Context {Q : Type}.
(** [>] on doubles. *)
Variable gt : Q -> Q -> bool.
(** The quality of the picture filtered at a level (encoder.cc l.489-498: each
    time from a fresh copy of the unfiltered picture). *)
Variable quality : Z -> Q.

(** encoder.cc l.488-507. The levels stay below 64, so the uint8_t counter does
    not wrap. *)
Fixpoint level_loop (fuel : nat) (level max_level : Z) (best_quality : Q) (best : Z) : Z :=
  match fuel with
  | O => best
  | S fuel' =>
      if level <=? max_level then
        if gt (quality level) best_quality then level_loop fuel' (level + 1) max_level (quality level) level
        else best
      else best
  end.

(** encoder.cc l.475-487: the window; the previous level is a uint8_t. *)
Definition level_window (last : option Z) : Z * Z :=
  match last with
  | None => (0, 63)
  | Some l => (if 0 <? l then l - 1 else 0, Z.min 63 (l + 1))
  end.

(** encoder.cc l.472-509: the level of the frame; [start] is -1.0. *)
Definition level_search (start : Q) (last : option Z) : Z :=
  let (lo, hi) := level_window last in level_loop 65 lo hi start 0.
End Level.
