(** IVF files: reader, writer and merging.
    Sources: src/util/ivf.cc, src/util/ivf.hh, src/util/ivf_writer.cc,
    src/util/file.cc, src/util/mmap_region.cc, src/frontend/xc-merge.cc. *)
From Verif Require Import Base ChunkModel.

(** ivf.hh l.52-53. *)
Definition IVF_HEADER_LEN : Z := 32.
Definition IVF_FRAME_HEADER_LEN : Z := 12.

(** ** Reader *)

(** ivf.hh l.40-49. *)
Record ivf : Type := mkIvf {
  iv_file : chunk;
  iv_fourcc : list Z;
  iv_width : Z;
  iv_height : Z;
  iv_rate : Z;
  iv_scale : Z;
  iv_count : Z;
  iv_hash : Z;
  iv_index : list (Z * Z)
}.

(** Invalid, Unsupported; unix_error from mapping an empty file; undefined
    behaviour. Running out of memory (ivf.cc l.62 reserves 16 bytes per frame
    that the header announces) is not modelled. *)
Inductive ivf_error : Type := IInvalid | IUnsupported | ISystem | IUndefined.

(** ivf.cc l.73-76. *)
Definition truncated {A} (r : res cerr A) : res ivf_error A :=
  match r with
  | Ok a => Ok a
  | Err RangeError => Err IInvalid
  | Err Undefined => Err IUndefined
  end.

(** "DKIF". *)
Definition DKIF : list Z := [68; 75; 73; 70].
Fixpoint same_bytes (a b : list Z) : bool :=
  match a, b with
  | [], [] => true
  | x :: a', y :: b' => (x =? y) && same_bytes a' b'
  | _, _ => false
  end.

(** ivf.cc l.65-71. frame_header_len is an int and frame_len an uint32_t, so
    their sum is an uint32_t; position is an uint64_t. *)
Fixpoint ivf_index (file : chunk) (n : nat) (position : Z) : res cerr (list (Z * Z)) :=
  match n with
  | O => Ok []
  | S n' =>
      let! frame_header := csub file position IVF_FRAME_HEADER_LEN in
      let! frame_len := le32 frame_header in
      let! r := ivf_index file n' (wrap 64 (position + wrap 32 (IVF_FRAME_HEADER_LEN + frame_len))) in
      Ok ((wrap 64 (position + IVF_FRAME_HEADER_LEN), frame_len) :: r)
  end.

(** ivf.cc l.36-76; file.cc l.41-46; mmap_region.cc l.36-43: mapping zero
    bytes fails. [file]: the bytes of the file. *)
Definition ivf_open (file : list Z) : res ivf_error ivf :=
  if zlen file =? 0 then Err ISystem
  else
    let f := chunk_of file in
    let field {A} (hd : chunk) (o n : Z) (get : chunk -> res cerr A) := truncated (let! c := csub hd o n in get c) in
    let! hd := truncated (csub f 0 IVF_HEADER_LEN) in
    let! fourcc := field hd 8 4 to_string in
    let! w := field hd 12 2 le16 in
    let! h := field hd 14 2 le16 in
    let! rate := field hd 16 4 le32 in
    let! scale := field hd 20 4 le32 in
    let! count := field hd 24 4 le32 in
    let! hash := field hd 28 4 le32 in
    let! magic := field hd 0 4 to_string in
    if negb (same_bytes magic DKIF) then Err IInvalid
    else
      let! version := field hd 4 2 le16 in
      if negb (version =? 0) then Err IUnsupported
      else
        let! len := field hd 6 2 le16 in
        if negb (len =? IVF_HEADER_LEN) then Err IUnsupported
        else
          let! index := truncated (ivf_index f (Z.to_nat count) IVF_HEADER_LEN) in
          Ok (mkIvf f fourcc w h rate scale count hash index).

(** ivf.cc l.78-82. vector::at throws std::out_of_range. *)
Definition ivf_frame (v : ivf) (i : Z) : res cerr chunk :=
  match nth_error (iv_index v) (Z.to_nat i) with
  | Some (o, n) => csub (iv_file v) o n
  | None => Err RangeError
  end.

(** ** Writer *)

(** ivf_writer.cc l.43-53. *)
Definition le16_bytes (v : Z) : list Z := [v mod 256; (v / 256) mod 256].
Definition le32_bytes (v : Z) : list Z := [v mod 256; (v / 256) mod 256; (v / 65536) mod 256; (v / 16777216) mod 256].

(** What the writer does to its file: bytes appended by write(2), or bytes
    stored through the mapping of the header. *)
Inductive file_op : Type :=
| Append (l : list Z)
| Patch (offset : nat) (l : list Z).
Definition patch (file : list Z) (offset : nat) (l : list Z) : list Z :=
  firstn offset file ++ l ++ skipn (offset + length l) file.
Definition perform (file : list Z) (op : file_op) : list Z :=
  match op with
  | Append l => file ++ l
  | Patch o l => patch file o l
  end.

(** ivf_writer.hh l.37-42; the width and the height are never read again. *)
Record writer : Type := mkWriter {
  iw_file : list Z;
  iw_size : Z;
  iw_count : Z
}.
(** internal_error of the constructor; a failed assertion. *)
Inductive writer_error : Type := WFourcc | WAssert.

(** ivf_writer.cc l.71-82. *)
Definition ivf_header (fourcc : list Z) (w h rate scale : Z) : list Z :=
  DKIF ++ [0; 0] ++ le16_bytes IVF_HEADER_LEN ++ fourcc ++ le16_bytes w ++ le16_bytes h ++ le32_bytes rate ++ le32_bytes scale ++ repeat 0 8.

(** ivf_writer.cc l.55-90 on a newly created or truncated file (l.144-155). *)
Definition writer_open (fourcc : list Z) (w h rate scale : Z) : res writer_error writer :=
  if negb (zlen fourcc =? 4) then Err WFourcc
  else
    let file := perform [] (Append (ivf_header fourcc w h rate scale)) in
    let size := 0 + zlen (ivf_header fourcc w h rate scale) in
    if negb (zlen file =? size) then Err WAssert
    else Ok (mkWriter file size 0).

(** ivf_writer.cc l.92-99. *)
Definition writer_set_hash (v : writer) (hash : Z) : writer :=
  mkWriter (perform (iw_file v) (Patch 28 (le32_bytes hash))) (iw_size v) (iw_count v).

(** The frame count in the header, l.110, l.139. *)
Definition stored_count (file : list Z) : Z := le_value (firstn 4 (skipn 24 file)).

(** ivf_writer.cc l.115-120. *)
Definition frame_header (frame : list Z) : list Z := le32_bytes (wrap 32 (zlen frame)) ++ repeat 0 8.
(** The file operations of append_frame in their order: l.123, l.128, l.136.
    The first two are loops of write(2) calls (FdModel.v); the third is a
    memcpy of four bytes. *)
Definition append_ops (count : Z) (frame : list Z) : list file_op :=
  [Append (frame_header frame); Append frame; Patch 24 (le32_bytes (wrap 32 (count + 1)))].

(** ivf_writer.cc l.101-142; the result is the offset of the frame. *)
Definition writer_append (v : writer) (frame : list Z) : res writer_error (writer * Z) :=
  if negb (iw_count v =? stored_count (iw_file v)) then Err WAssert
  else if negb (iw_size v =? zlen (iw_file v)) then Err WAssert
  else
    let file := perform (perform (iw_file v) (Append (frame_header frame))) (Append frame) in
    let offset := wrap 64 (iw_size v + zlen (frame_header frame)) in
    let size := wrap 64 (offset + zlen frame) in
    if negb (zlen file =? size) then Err WAssert
    else
      let count := wrap 32 (iw_count v + 1) in
      let file := perform file (Patch 24 (le32_bytes count)) in
      if negb (count =? stored_count file) then Err WAssert
      else Ok (mkWriter file size count, offset).

(** ** Merging *)

(** Errors of the two readers, of the comparison (l.63-65), of a frame access
    (l.70, l.74) and of the writer. *)
Inductive merge_error : Type :=
| MOpen (e : ivf_error) | MDimensions | MFrame (e : cerr) | MWrite (e : writer_error).

(** xc-merge.cc l.69-71, l.73-75. *)
Fixpoint copy_frames (v : ivf) (n : nat) (i : Z) (out : writer) : res merge_error writer :=
  match n with
  | O => Ok out
  | S n' =>
      match ivf_frame v i with
      | Err e => Err (MFrame e)
      | Ok c => match writer_append out (cbytes c) with
                | Err e => Err (MWrite e)
                | Ok (out', _) => copy_frames v n' (i + 1) out'
                end
      end
  end.

(** "VP80". *)
Definition VP80 : list Z := [86; 80; 56; 48].

(** xc-merge.cc l.60-77: the bytes of the output file. *)
Definition merge (file1 file2 : list Z) : res merge_error (list Z) :=
  match ivf_open file1, ivf_open file2 with
  | Err e, _ => Err (MOpen e)
  | Ok _, Err e => Err (MOpen e)
  | Ok v1, Ok v2 =>
      if negb (iv_width v1 =? iv_width v2) || negb (iv_height v1 =? iv_height v2) then Err MDimensions
      else match writer_open VP80 (iv_width v1) (iv_height v1) 1 1 with
           | Err e => Err (MWrite e)
           | Ok out =>
               let! out := copy_frames v1 (Z.to_nat (iv_count v1)) 0 out in
               let! out := copy_frames v2 (Z.to_nat (iv_count v2)) 0 out in
               Ok (iw_file out)
           end
  end.
