(** The uncompressed part of a frame and its partitions.
    Sources: src/decoder/uncompressed_chunk.cc, src/encoder/serializer.cc
    l.741-799. *)
From Verif Require Import Base ChunkModel.

(** Exceptions: Invalid, Unsupported; undefined behaviour. *)
Inductive uc_error : Type := UcInvalid | UcUnsupported | UcUndefined.

(** uncompressed_chunk.hh l.37-43. *)
Definition NO_CORRUPTION := 0. Definition CORRUPTED_RESIDUES := 1.
Definition CORRUPTED_FIRST_PARTITION := 2. Definition CORRUPTED_FRAME := 3.

(** uncompressed_chunk.hh l.54-61 (the reconstruction filter is always
    Bicubic). [uc_loop_filter]: true = Normal, false = NoFilter. *)
Record uchunk : Type := mkUC {
  uc_key : bool;
  uc_loop_filter : bool;
  uc_show : bool;
  uc_experimental : bool;
  uc_first : chunk;
  uc_rest : chunk;
  uc_corruption : Z
}.

(** An exception inside of the try block: out_of_range, with the value that
    show_frame_ has by then, or another one. *)
Inductive uc_raise : Type :=
| URange (show : bool)
| UThrow (e : uc_error).

Definition lift_c {A} (show : bool) (m : res cerr A) : res uc_raise A :=
  match m with
  | Ok a => Ok a
  | Err RangeError => Err (URange show)
  | Err Undefined => Err (UThrow UcUndefined)
  end.

(** uncompressed_chunk.cc l.47-116: the try block. Before show_frame_ has been
    assigned it is false. *)
Definition uc_try (frame : chunk) (expected_width expected_height : Z) (accept_partial : bool) : res uc_raise uchunk :=
  let! b0 := lift_c false (bits frame 0 1) in
  let key := b0 =? 0 in
  let! b4 := lift_c false (bits frame 4 1) in
  let show := negb (b4 =? 0) in
  let! version := lift_c show (bits frame 1 3) in
  let! (normal, experimental) :=
    (if version =? 0 then Ok (true, false)
     else if version =? 4 then Ok (true, true)
     else if version =? 6 then Ok (false, true)
     else Err (UThrow UcUnsupported)) in
  let! len := lift_c show (bits frame 5 19) in
  let offset := if key then 10 else 3 in
  let! corruption :=
    (if c_size frame <=? offset + len then
       if accept_partial then Ok CORRUPTED_FIRST_PARTITION else Err (UThrow UcInvalid)
     else Ok NO_CORRUPTION) in
  let! (first, rest) :=
    (if corruption =? CORRUPTED_FIRST_PARTITION then
       let! first := lift_c show (csub frame offset (wrap 64 (c_size frame - offset))) in
       Ok (first, null_chunk)
     else
       let! first := lift_c show (csub frame offset len) in
       let! rest := lift_c show (csub frame (offset + len) (wrap 64 (c_size frame - offset - len))) in
       Ok (first, rest)) in
  let! _ :=
    (if key then
       let! code := lift_c show (csub frame 3 3) in
       let! s := lift_c show (to_string code) in
       let! _ := (if (list_eq_dec Z.eq_dec s [157; 1; 42]) then Ok tt else Err (UThrow UcInvalid)) in
       let! sizes := lift_c show (csub frame 6 4) in
       let! hs := lift_c show (bits sizes 14 2) in
       let! vs := lift_c show (bits sizes 30 2) in
       let! fw := lift_c show (bits sizes 0 14) in
       let! fh := lift_c show (bits sizes 16 14) in
       if negb (fw =? expected_width) || negb (fh =? expected_height) || negb (hs =? 0) || negb (vs =? 0)
       then Err (UThrow UcUnsupported) else Ok tt
     else Ok tt) in
  Ok (mkUC key normal show experimental first rest corruption).

(** uncompressed_chunk.cc l.34-130. When out_of_range is caught the partitions
    are still the null ones. *)
Definition uncompressed_chunk (frame : chunk) (expected_width expected_height : Z) (accept_partial : bool)
  : res uc_error uchunk :=
  match uc_try frame expected_width expected_height accept_partial with
  | Ok u => Ok u
  | Err (UThrow e) => Err e
  | Err (URange show) =>
      if accept_partial then Ok (mkUC false true show false null_chunk null_chunk CORRUPTED_FRAME)
      else Err UcInvalid
  end.

(** uncompressed_chunk.cc l.137-142. *)
Fixpoint partition_lengths (n : nat) (rest : chunk) : res cerr (list Z * chunk) :=
  match n with
  | O => Ok ([], rest)
  | S n' =>
      let! len := bits rest 0 24 in
      let! rest' := ctail rest 3 in
      let! (ls, r) := partition_lengths n' rest' in
      Ok (len :: ls, r)
  end.

(** uncompressed_chunk.cc l.144-152. *)
Fixpoint take_partitions (ls : list Z) (rest : chunk) : res cerr (list chunk) :=
  match ls with
  | [] => Ok [rest]
  | len :: r =>
      let! p := csub rest 0 len in
      let! rest' := ctail rest len in
      let! ps := take_partitions r rest' in
      Ok (p :: ps)
  end.

(** uncompressed_chunk.cc l.132-155. *)
Definition dct_partitions (u : uchunk) (num : nat) : res cerr (list chunk) :=
  let! (ls, rest) := partition_lengths (num - 1) (uc_rest u) in
  take_partitions ls rest.

(** ** Writer *)

Definition byte_of (z : Z) : Z := wrap 8 z.
Definition flag (b : bool) : Z := if b then 1 else 0.

(** serializer.cc l.787-792; all but the last partition. *)
Fixpoint length_bytes (parts : list (list Z)) : list Z :=
  match parts with
  | [] => []
  | [_] => []
  | p :: r =>
      let len := wrap 32 (zlen p) in
      [byte_of (Z.land len 255); byte_of (Z.shiftr (Z.land len 65280) 8); byte_of (Z.shiftr (Z.land len 16711680) 16)]
      ++ length_bytes r
  end.

(** serializer.cc l.741-799. [None]: throws Invalid. *)
Definition make_frame (key_frame show_frame experimental reference_update : bool) (width height : Z)
           (first_partition : list Z) (dct_parts : list (list Z)) : option (list Z) :=
  if (16383 <? width) || (16383 <? height) then None
  else if match dct_parts with [] => true | _ => false end then None
  else
    let len := wrap 32 (zlen first_partition) in
    Some (
      [ byte_of (Z.lor (Z.lor (Z.lor (Z.lor (flag (negb key_frame)) (Z.shiftl (flag reference_update) 2))
                                     (Z.shiftl (flag experimental) 3))
                              (Z.shiftl (flag show_frame) 4))
                       (Z.shiftl (Z.land len 7) 5));
        byte_of (Z.shiftr (Z.land len 2040) 3);
        byte_of (Z.shiftr (Z.land len 522240) 11) ] ++
      (if key_frame then
         [157; 1; 42;
          byte_of (Z.land width 255); byte_of (Z.shiftr (Z.land width 16128) 8);
          byte_of (Z.land height 255); byte_of (Z.shiftr (Z.land height 16128) 8)]
       else []) ++
      first_partition ++ length_bytes dct_parts ++ concat dct_parts).
