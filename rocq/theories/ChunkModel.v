(** Views of memory: src/util/chunk.hh. *)
From Verif Require Import Base.

(** A Chunk is a pointer and a size; here: the buffer it points into, the
    offset of the pointer in it, and the size (uint64_t). *)
Record chunk : Type := mkChunk {
  c_mem : list Z;
  c_off : Z;
  c_size : Z
}.

(** chunk.hh l.75-83: view of a whole string or vector. *)
Definition chunk_of (l : list Z) : chunk := mkChunk l 0 (zlen l).
(** Chunk( nullptr, 0 ). *)
Definition null_chunk : chunk := mkChunk [] 0 0.

(** The bytes the view covers (those that are inside of the buffer). *)
Definition cbytes (c : chunk) : list Z := firstn (Z.to_nat (c_size c)) (skipn (Z.to_nat (c_off c)) (c_mem c)).

(** Errors: std::out_of_range; behaviour that C++ leaves undefined. *)
Inductive cerr : Type := RangeError | Undefined.

(** chunk.hh l.54-59. *)
Definition bounds_check (c : chunk) (len : Z) : res cerr unit :=
  if c_size c <? len then Err RangeError else Ok tt.

(** chunk.hh l.93-98. *)
Definition csub (c : chunk) (offset len : Z) : res cerr chunk :=
  let! _ := bounds_check c offset in
  let! _ := bounds_check c (wrap 64 (offset + len)) in
  Ok (mkChunk (c_mem c) (c_off c + offset) len).

(** chunk.hh l.88-91. *)
Definition ctail (c : chunk) (offset : Z) : res cerr chunk := csub c offset (wrap 64 (c_size c - offset)).

(** Little-endian value of a byte string. *)
Fixpoint le_value (l : list Z) : Z :=
  match l with
  | [] => 0
  | b :: r => b + 256 * le_value r
  end.

(** Reading the byte at the view's start plus [i]; undefined outside of the
    buffer. *)
Definition cbyte (c : chunk) (i : Z) : res cerr Z :=
  if (c_off c + i <? 0) then Err Undefined
  else match nth_error (c_mem c) (Z.to_nat (c_off c + i)) with
       | Some b => Ok b
       | None => Err Undefined
       end.

Fixpoint cread (c : chunk) (n : nat) (i : Z) : res cerr (list Z) :=
  match n with
  | O => Ok []
  | S n' => let! b := cbyte c i in let! r := cread c n' (i + 1) in Ok (b :: r)
  end.

(** chunk.hh l.44-52, l.105-124 (the machine's byte order is undone by
    le16toh and friends). *)
Definition extract (n : nat) (c : chunk) : res cerr Z :=
  let! _ := bounds_check c (Z.of_nat n) in
  let! l := cread c n 0 in
  Ok (le_value l).
Definition octet := extract 1.
Definition le16 := extract 2.
Definition le32 := extract 4.
Definition le64 := extract 8.

(** chunk.hh l.100-103. *)
Definition to_string (c : chunk) : res cerr (list Z) := cread c (Z.to_nat (c_size c)) 0.

(** An int converted to uint64_t, for the int [b << (8 * i)] of chunk.hh l.136
    with a byte [b]: defined for i <= 3 (for i = 3 the sign bit may be set,
    which GCC and C++20 define as two's complement wrap); larger shifts are
    undefined. *)
Definition shl_int (b i : Z) : res cerr Z :=
  if i <=? 3 then
    let v := b * 2 ^ (8 * i) in
    Ok (wrap 64 (if v <? 2 ^ 31 then v else v - 2 ^ 32))
  else Err Undefined.

(** chunk.hh l.61-67: [1 << n] is an int, undefined from 31 on. *)
Definition bit_mask (n : Z) : res cerr Z :=
  if 63 <? n then Err RangeError
  else if 31 <=? n then Err Undefined
  else Ok (2 ^ n - 1).

(** chunk.hh l.134-137. *)
Fixpoint bits_loop (c : chunk) (n : nat) (i : Z) (val : Z) : res cerr Z :=
  match n with
  | O => Ok val
  | S n' => let! b := cbyte c i in
            let! v := shl_int b i in
            bits_loop c n' (i + 1) (Z.lor val v)
  end.

(** chunk.hh l.126-140. *)
Definition bits (c : chunk) (bit_offset bit_length : Z) : res cerr Z :=
  let byte_len := wrap 64 (1 + wrap 64 (bit_offset + bit_length - 1) / 8) in
  let! _ := bounds_check c byte_len in
  if 8 <? byte_len then Err RangeError
  else
    let! val := bits_loop c (Z.to_nat byte_len) 0 0 in
    let! mask := bit_mask bit_length in
    Ok (Z.land (Z.shiftr val bit_offset) mask).
