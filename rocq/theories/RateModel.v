(** The weights of rate and distortion. Source: src/encoder/encoder.cc
    l.178-193. The double arithmetic is that of IEEE 754 binary64 with rounding
    to nearest, even (SpecFloat of the standard library). *)
From Coq Require Import SpecFloat.
From Verif Require Import Base.

Definition f64_mul : spec_float -> spec_float -> spec_float := SFmul 53 1024.
(** An unsigned integer below 2^53 as a double. *)
Definition f64_of (n : Z) : spec_float := binary_normalize 53 1024 n 0 false.
(** The literal 2.80: the double nearest to it. *)
Definition f64_2_80 : spec_float := S754_finite false 6305039478318694 (-51).

(** The conversion of a double to uint32_t; [None]: undefined behaviour (the
    value is not in the range). *)
Definition f64_to_u32 (x : spec_float) : option Z :=
  match x with
  | S754_zero _ => Some 0
  | S754_finite false m e =>
      let v := if 0 <=? e then Z.shiftl (Zpos m) e else Z.shiftr (Zpos m) (- e) in
      if v <? 2 ^ 32 then Some v else None
  | _ => None
  end.

(** l.178-193; [y_ac]: the quantiser's step, uint16_t. RATE_MULTIPLIER and
    DISTORTION_MULTIPLIER. *)
Definition update_rd_multipliers (y_ac : Z) : option (Z * Z) :=
  let q_ac := f64_of (if y_ac <? 160 then y_ac else 160) in
  match f64_to_u32 (f64_mul (f64_mul q_ac q_ac) f64_2_80) with
  | None => None
  | Some rate => Some (if 1000 <? rate then (rate / 100, 1) else (rate, 100))
  end.
