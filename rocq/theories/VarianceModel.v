(** Block differences that the encoder's decisions are based on
    (src/encoder/variance.cc l.33-82 without SSE2, and
    src/encoder/variance_sse2.cc with it).  A block is the list of its rows;
    the pointer and stride arithmetic of the SSE2 code is replaced by
    taking these rows in order. *)
From Verif Require Import Base MVModel RasterModel.

(** block.at( i, j ): column i, row j (src/util/2d.hh l.302-306). *)
Definition cell (b : list (list Z)) (i j : nat) : Z := nth i (nth j b []) 0.

(** One pass of the two loops of l.40-44, 55-60 and 71-78. *)
Definition loops {A} (size : nat) (f : A -> nat -> nat -> A) (a : A) : A :=
  fold_left (fun a i => fold_left (fun a j => f a i j) (seq 0 size) a) (seq 0 size) a.

(** variance.cc l.34-47: Encoder::sad. *)
Definition sad (size : nat) (b p : list (list Z)) : Z :=
  loops size (fun res i j => wrap 32 (res + Z.abs (cell b i j - cell p i j))) 0.

(** variance.cc l.49-63: Encoder::sse. *)
Definition sse (size : nat) (b p : list (list Z)) : Z :=
  loops size (fun res i j => let diff := s16 (cell b i j - cell p i j) in wrap 32 (res + diff * diff)) 0.

(** variance.cc l.65-82: Encoder::variance.  [sum] is an int32_t; a sum of
    at most 256 differences of bytes never leaves it, and the model does not
    bound it. *)
Definition variance (size : nat) (b p : list (list Z)) : Z :=
  let '(res, sum) :=
    loops size (fun '(res, sum) i j =>
                  let diff := s16 (cell b i j - cell p i j) in (wrap 32 (res + diff * diff), sum + diff)) (0, 0) in
  let n := Z.of_nat (size * size) in
  wrap 32 (res - (sum * sum) / n).

(** ** SSE2 registers: eight lanes of 16 bits (signed), four of 32 bits. *)

(** A lane of 32 bits as a signed number. *)
Definition s32 (z : Z) : Z := (z + 2147483648) mod 4294967296 - 2147483648.

Definition lanes2 (f : Z -> Z -> Z) (a b : list Z) : list Z := map (fun '(x, y) => f x y) (combine a b).
(** _mm_add_epi16, _mm_sub_epi16, _mm_add_epi32. *)
Definition add_epi16 := lanes2 (fun x y => s16 (x + y)).
Definition sub_epi16 := lanes2 (fun x y => s16 (x - y)).
Definition add_epi32 := lanes2 (fun x y => s32 (x + y)).
(** _mm_srli_si128 by a whole number k of lanes: lane 0 is the lowest. *)
Definition srli (k : nat) (v : list Z) : list Z := skipn k v ++ repeat 0 k.
(** _mm_madd_epi16( v, v ): sums of the products of adjacent lanes. *)
Fixpoint madd_self (v : list Z) : list Z :=
  match v with
  | x :: y :: t => s32 (x * x + y * y) :: madd_self t
  | _ => []
  end.
(** _mm_unpacklo_epi8( a, b ) on the low four bytes of a and b. *)
Fixpoint interleave (a b : list Z) : list Z :=
  match a, b with
  | x :: a', y :: b' => x :: y :: interleave a' b'
  | _, _ => []
  end.

Definition zero16 : list Z := repeat 0 8.
Definition zero32 : list Z := repeat 0 4.

(** The sum of all lanes as at l.53-57: 8, 4 and 2 bytes down, then lane 0
    as an int16_t. *)
Definition fold16 (v : list Z) : Z :=
  let v := add_epi16 v (srli 4 v) in
  let v := add_epi16 v (srli 2 v) in
  let v := add_epi16 v (srli 1 v) in
  nth 0 v 0.
(** The same for four lanes of 32 bits (l.63-65): the result is stored in an
    unsigned int. *)
Definition fold32 (v : list Z) : Z :=
  let v := add_epi32 v (srli 2 v) in
  let v := add_epi32 v (srli 1 v) in
  wrap 32 (nth 0 v 0).

Definition row (b : list (list Z)) (i : nat) : list Z := nth i b [].

(** variance_sse2.cc l.40-66: get4x4var_sse2; result sse, sum.  READ64
    (l.35-38) interleaves two rows. *)
Definition get4x4var (b p : list (list Z)) : Z * Z :=
  let src0 := interleave (row b 0) (row b 1) in
  let src1 := interleave (row b 2) (row b 3) in
  let ref0 := interleave (row p 0) (row p 1) in
  let ref1 := interleave (row p 2) (row p 3) in
  let diff0 := sub_epi16 src0 ref0 in
  let diff1 := sub_epi16 src1 ref1 in
  (fold32 (add_epi32 (madd_self diff0) (madd_self diff1)), fold16 (add_epi16 diff0 diff1)).

(** The accumulation of two registers of differences (l.89-92, 131-134). *)
Definition accumulate (diff0 diff1 : list Z) (acc : list Z * list Z) : list Z * list Z :=
  let '(vsum, vsse) := acc in
  (add_epi16 (add_epi16 vsum diff0) diff1,
   add_epi32 (add_epi32 vsse (madd_self diff0)) (madd_self diff1)).

(** variance_sse2.cc l.68-106: vpx_get8x8var_sse2. *)
Definition get8x8var (b p : list (list Z)) : Z * Z :=
  let '(vsum, vsse) :=
    fold_left (fun acc i => accumulate (sub_epi16 (row b i) (row p i)) (sub_epi16 (row b (i + 1)) (row p (i + 1))) acc)
              [0; 2; 4; 6]%nat (zero16, zero32) in
  (fold32 vsse, fold16 vsum).

(** variance_sse2.cc l.108-151: vpx_get16x16var_sse2: the low and the high
    eight pixels of a row; the sum is added up from two lanes. *)
Definition get16x16var (b p : list (list Z)) : Z * Z :=
  let '(vsum, vsse) :=
    fold_left (fun acc i => accumulate (sub_epi16 (firstn 8 (row b i)) (firstn 8 (row p i)))
                                       (sub_epi16 (skipn 8 (row b i)) (skipn 8 (row p i))) acc)
              (seq 0 16) (zero16, zero32) in
  let vsum := add_epi16 vsum (srli 4 vsum) in
  let vsum := add_epi16 vsum (srli 2 vsum) in
  (fold32 vsse, nth 0 vsum 0 + nth 1 vsum 0).

(** variance_sse2.cc l.172-178, 198-204, 224-230: the three variances in
    use (sizes 4, 8 and 16); None where sum * sum overflows an int. *)
Definition int_sq (sum : Z) : option Z := if sum * sum <=? 2147483647 then Some (sum * sum) else None.
Definition variance4x4 (b p : list (list Z)) : option Z :=
  let '(e, sum) := get4x4var b p in
  let? q := int_sq sum in Some (wrap 32 (e - q / 2 ^ 4)).
Definition variance8x8 (b p : list (list Z)) : option Z :=
  let '(e, sum) := get8x8var b p in
  let? q := int_sq sum in Some (wrap 32 (e - q / 2 ^ 6)).
Definition variance16x16 (b p : list (list Z)) : Z :=
  let '(e, sum) := get16x16var b p in
  wrap 32 (e - wrap 32 (sum * sum) / 2 ^ 8).
