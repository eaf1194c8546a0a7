(** Datagrams of Salsify: fragments of frames and acknowledgements.
    Sources: src/net/packet.cc, src/net/packet.hh. Sending (packet.cc
    l.231-243, l.329-332) is not modelled. *)
From Verif Require Import Base ChunkModel.

(** packet.hh l.57. *)
Definition MAXIMUM_PAYLOAD : Z := 1400.

(** packet.hh l.43-54. *)
Record packet : Type := mkPacket {
  pk_valid : bool;
  pk_connection : Z;
  pk_source : Z;
  pk_target : Z;
  pk_frame : Z;
  pk_fragment : Z;
  pk_count : Z;
  pk_time : Z;
  pk_payload : list Z
}.

(** out_of_range of a Chunk; runtime_error; a failed assertion; undefined
    behaviour; a loop that is not finished. *)
Inductive packet_error : Type := PRange | PInvalid | PAssert | PUndefined | PUnfinished.
Definition from_chunk {A} (r : res cerr A) : res packet_error A :=
  match r with
  | Ok a => Ok a
  | Err RangeError => Err PRange
  | Err Undefined => Err PUndefined
  end.

(** packet.cc l.37-49 (little-endian; the version for 64 bits is not used). *)
Definition put16 (n : Z) : list Z := [n mod 256; n / 256 mod 256].
Definition put32 (n : Z) : list Z := [n mod 256; n / 256 mod 256; n / 65536 mod 256; n / 16777216 mod 256].

(** packet.cc l.58-87: the packet and next_fragment_start. *)
Definition outgoing_packet (whole_frame : list Z) (connection source target frame_no fragment_no time : Z) : res packet_error (packet * Z) :=
  if zlen whole_frame =? 0 then Err PAssert
  else
    let first_byte := wrap 64 (MAXIMUM_PAYLOAD * fragment_no) in
    if negb (first_byte <? zlen whole_frame) then Err PAssert
    else
      let len := Z.min (zlen whole_frame - first_byte) MAXIMUM_PAYLOAD in
      if negb (first_byte + len <=? zlen whole_frame) then Err PAssert
      else
        let payload := firstn (Z.to_nat len) (skipn (Z.to_nat first_byte) whole_frame) in
        Ok (mkPacket true connection source target frame_no fragment_no 0 time payload, first_byte + len).

(** packet.cc l.89-108. *)
Definition parse_packet (str : chunk) : res packet_error packet :=
  let field {A} (o n : Z) (get : chunk -> res cerr A) := from_chunk (let! c := csub str o n in get c) in
  let! connection := field 0 2 le16 in
  let! source := field 2 4 le32 in
  let! target := field 6 4 le32 in
  let! frame_no := field 10 4 le32 in
  let! fragment_no := field 14 2 le16 in
  let! count := field 16 2 le16 in
  let! time := field 18 4 le32 in
  let! payload := from_chunk (let! c := ctail str 22 in to_string c) in
  if fragment_no >=? count then Err PInvalid
  else match payload with
       | [] => Err PInvalid
       | _ => Ok (mkPacket true connection source target frame_no fragment_no count time payload)
       end.

(** packet.cc l.110-121. *)
Definition empty_packet : packet := mkPacket false 0 0 0 0 0 0 0 [].

(** packet.cc l.123-136. *)
Definition packet_string (p : packet) : res packet_error (list Z) :=
  if negb (0 <? pk_count p) then Err PAssert
  else Ok (put16 (pk_connection p) ++ put32 (pk_source p) ++ put32 (pk_target p) ++ put32 (pk_frame p) ++ put16 (pk_fragment p) ++
           put16 (pk_count p) ++ put32 (pk_time p) ++ pk_payload p).

(** packet.cc l.138-142. *)
Definition set_count (p : packet) (x : Z) : res packet_error packet :=
  let p' := mkPacket (pk_valid p) (pk_connection p) (pk_source p) (pk_target p) (pk_frame p) (pk_fragment p) x (pk_time p) (pk_payload p) in
  if pk_fragment p' <? pk_count p' then Ok p' else Err PAssert.
(** packet.hh l.94. *)
Definition set_time (p : packet) (x : Z) : packet :=
  mkPacket (pk_valid p) (pk_connection p) (pk_source p) (pk_target p) (pk_frame p) (pk_fragment p) (pk_count p) x (pk_payload p).

(** packet.hh l.99-108. *)
Record fragmented : Type := mkFragmented {
  fr_connection : Z;
  fr_source : Z;
  fr_target : Z;
  fr_frame : Z;
  fr_count : Z;
  fr_fragments : list packet;
  fr_remaining : Z
}.

(** packet.cc l.161-165. [fuel] bounds the number of passes. *)
Fixpoint fragment_loop (fuel : nat) (whole_frame : list Z) (connection source target frame_no fragment_no next : Z) : res packet_error (list packet) :=
  if next <? zlen whole_frame then
    match fuel with
    | O => Err PUnfinished
    | S fuel' =>
        let! (p, next') := outgoing_packet whole_frame connection source target frame_no fragment_no 0 in
        let! r := fragment_loop fuel' whole_frame connection source target frame_no (wrap 16 (fragment_no + 1)) next' in
        Ok (p :: r)
    end
  else Ok [].

(** packet.cc l.172-174. *)
Fixpoint set_counts (l : list packet) (x : Z) : res packet_error (list packet) :=
  match l with
  | [] => Ok []
  | p :: r => let! p' := set_count p x in let! r' := set_counts r x in Ok (p' :: r')
  end.

(** packet.cc l.144-175. front() of an empty vector is undefined. *)
Definition outgoing (fuel : nat) (connection source target frame_no time : Z) (whole_frame : list Z) : res packet_error fragmented :=
  let! l := fragment_loop fuel whole_frame connection source target frame_no 0 0 in
  match l with
  | [] => Err PUndefined
  | p :: r =>
      let l := set_time p time :: r in
      let count := wrap 16 (zlen l) in
      let! l := set_counts l count in
      Ok (mkFragmented connection source target frame_no count l 0)
  end.

(** packet.cc l.193-218. *)
Definition sane (f : fragmented) (p : packet) : bool :=
  (pk_connection p =? fr_connection f) && (pk_source p =? fr_source f) && (pk_target p =? fr_target f) && (pk_count p =? fr_count f) &&
  (pk_frame p =? fr_frame f) && (pk_fragment p <? fr_count f).

Fixpoint replace_nth (l : list packet) (n : nat) (p : packet) : list packet :=
  match l, n with
  | [], _ => []
  | _ :: r, O => p :: r
  | x :: r, S n' => x :: replace_nth r n' p
  end.

(** packet.cc l.220-229; remaining_fragments_ is an uint32_t. *)
Definition add_packet (f : fragmented) (p : packet) : res packet_error fragmented :=
  if negb (sane f p) then Err PInvalid
  else match nth_error (fr_fragments f) (Z.to_nat (pk_fragment p)) with
       | None => Err PUndefined
       | Some old =>
           if pk_valid old then Ok f
           else Ok (mkFragmented (fr_connection f) (fr_source f) (fr_target f) (fr_frame f) (fr_count f)
                                 (replace_nth (fr_fragments f) (Z.to_nat (pk_fragment p)) p) (wrap 32 (fr_remaining f - 1)))
       end.

(** packet.cc l.177-191. *)
Definition incoming (connection : Z) (p : packet) : res packet_error fragmented :=
  let f := mkFragmented connection (pk_source p) (pk_target p) (pk_frame p) (pk_count p) (repeat empty_packet (Z.to_nat (pk_count p))) (pk_count p) in
  if negb (sane f p) then Err PInvalid else add_packet f p.

(** packet.cc l.245-248. *)
Definition complete (f : fragmented) : bool := fr_remaining f =? 0.
(** packet.cc l.250-257. *)
Definition packets (f : fragmented) : res packet_error (list packet) :=
  if negb (complete f) || negb (zlen (fr_fragments f) =? fr_count f) then Err PInvalid else Ok (fr_fragments f).
(** packet.cc l.259-272. *)
Definition whole (f : fragmented) : res packet_error (list Z) :=
  if negb (complete f) then Err PInvalid else Ok (concat (map pk_payload (fr_fragments f))).
(** packet.cc l.274-287. *)
Fixpoint payloads_until_missing (l : list packet) : list Z :=
  match l with
  | [] => []
  | p :: r => if pk_valid p then pk_payload p ++ payloads_until_missing r else []
  end.
Definition partial_frame (f : fragmented) : list Z := payloads_until_missing (fr_fragments f).

(** ** Acknowledgements *)

(** packet.hh l.161-168. *)
Record ack : Type := mkAck {
  ak_connection : Z;
  ak_frame : Z;
  ak_fragment : Z;
  ak_delay : Z;
  ak_current : Z;
  ak_complete : list Z
}.

(** packet.cc l.307-309. *)
Fixpoint parse_states (str : chunk) (n : nat) (i : Z) : res packet_error (list Z) :=
  match n with
  | O => Ok []
  | S n' =>
      let! s := from_chunk (let! c := csub str (wrap 64 (20 + i * 4)) 4 in le32 c) in
      let! r := parse_states str n' (i + 1) in
      Ok (s :: r)
  end.
(** packet.cc l.299-310. The allocation of the states (l.305) is not
    modelled: a datagram of 20 bytes may ask for 2^32 of them. *)
Definition parse_ack (str : chunk) : res packet_error ack :=
  let field (o n : Z) (get : chunk -> res cerr Z) := from_chunk (let! c := csub str o n in get c) in
  let! connection := field 0 2 le16 in
  let! frame_no := field 2 4 le32 in
  let! fragment_no := field 6 2 le16 in
  let! delay := field 8 4 le32 in
  let! current := field 12 4 le32 in
  let! count := field 16 4 le32 in
  let! states := parse_states str (Z.to_nat count) 0 in
  Ok (mkAck connection frame_no fragment_no delay current states).
(** packet.cc l.312-327. *)
Definition ack_string (a : ack) : list Z :=
  put16 (ak_connection a) ++ put32 (ak_frame a) ++ put16 (ak_fragment a) ++ put32 (ak_delay a) ++ put32 (ak_current a) ++
  put32 (wrap 32 (zlen (ak_complete a))) ++ concat (map put32 (ak_complete a)).
