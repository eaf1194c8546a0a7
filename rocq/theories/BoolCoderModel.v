(** Model of the boolean entropy coder.
    Sources: src/encoder/bool_encoder.hh and src/decoder/bool_decoder.hh. *)
From Verif Require Import Base.

(** One coded bit: its value and the probability it is coded with. *)
Definition event : Type := (bool * Z)%type.

(** ** Encoder *)

(** bool_encoder.hh l.39-56: the table [vp8_norm], given here by its row
    structure (index 0 maps to 0, 1 to 7, 2-3 to 6, 4-7 to 5, 8-15 to 4,
    16-31 to 3, 32-63 to 2, 64-127 to 1, 128-255 to 0). *)
Definition vp8_norm (r : Z) : Z :=
  if r =? 0 then 0
  else if r <? 2 then 7
  else if r <? 4 then 6
  else if r <? 8 then 5
  else if r <? 16 then 4
  else if r <? 32 then 3
  else if r <? 64 then 2
  else if r <? 128 then 1
  else 0.

(** bool_encoder.hh l.60-66: the state of a BoolEncoder. The output vector is
    kept in reverse (most recent byte first). *)
Record benc : Type := mkBenc {
  be_out : list Z;      (* output_, reversed *)
  be_range : Z;         (* range_ *)
  be_bottom : Z;        (* bottom_ *)
  be_bc : Z             (* bit_count_ *)
}.

(** bool_encoder.hh l.60-66, l.105-108: initial state. *)
Definition benc_init : benc := mkBenc [] 255 0 (-24).

(** bool_encoder.hh l.68-76: add_one_to_output, walking back from the end of
    the vector. [None]: the walk leaves the vector (the [assert] fails or
    memory before the vector is accessed). *)
Fixpoint add_one (rout : list Z) : option (list Z) :=
  match rout with
  | [] => None
  | b :: r =>
      if b =? 255 then
        match r with
        | [] => None  (* assert( it != output_.begin() ) *)
        | _ => match add_one r with
               | Some r' => Some (0 :: r')
               | None => None
               end
        end
      else Some (wrap 8 (b + 1) :: r)
  end.

(** bool_encoder.hh l.110-143: put. Unsigned 32-bit arithmetic is explicit.
    [bit_count_] is a (signed) char; it stays between -24 and 7. *)
Definition bput (e : benc) (ev : event) : option benc :=
  let '(value, prob) := ev in
  let split := wrap 32 (1 + Z.shiftr (wrap 32 ((be_range e - 1) * prob)) 8) in
  let bottom := if value : bool then wrap 32 (be_bottom e + split) else be_bottom e in
  let range := if value then wrap 32 (be_range e - split) else split in
  let shift := vp8_norm range in
  let range := wrap 32 (Z.shiftl range shift) in
  let bc := be_bc e + shift in
  if 0 <=? bc then
    let offset := shift - bc in
    match (if negb (Z.land (wrap 32 (Z.shiftl bottom (offset - 1))) 2147483648 =? 0)
           then add_one (be_out e)
           else Some (be_out e)) with
    | None => None
    | Some out =>
        let out := wrap 8 (Z.shiftr bottom (24 - offset)) :: out in
        let bottom := wrap 32 (Z.shiftl bottom offset) in
        let bottom := Z.land bottom 16777215 in
        Some (mkBenc out range (wrap 32 (Z.shiftl bottom bc)) (bc - 8))
    end
  else
    Some (mkBenc (be_out e) range (wrap 32 (Z.shiftl bottom shift)) bc).

Fixpoint bputs (e : benc) (evs : list event) : option benc :=
  match evs with
  | [] => Some e
  | ev :: r => match bput e ev with
               | None => None
               | Some e' => bputs e' r
               end
  end.

(** bool_encoder.hh l.78-82: flush (32 times put(false) with the default
    probability 128). *)
Definition flush_events : list event := repeat (false, 128) 32.

(** bool_encoder.hh l.145-151: finish; together with the puts this is the
    complete life of an encoder. *)
Definition bool_encode (evs : list event) : option (list Z) :=
  match bputs benc_init (evs ++ flush_events) with
  | None => None
  | Some e => Some (rev (be_out e))
  end.

(** ** Decoder *)

(** bool_decoder.hh l.45-54: state of a BoolDecoder. [bd_chunk] is the unread
    rest of the chunk. *)
Record bdec : Type := mkBdec {
  bd_chunk : list Z;
  bd_range : Z;
  bd_value : Z;
  bd_bc : Z;
  bd_valid : bool;
  bd_complete : bool
}.

(** bool_decoder.hh l.56-65: load_octet. *)
Definition load_octet (d : bdec) : bdec :=
  match bd_chunk d with
  | b :: r => mkBdec r (bd_range d) (Z.lor (bd_value d) b) (bd_bc d) (bd_valid d) (bd_complete d)
  | [] => if bd_complete d then d
          else mkBdec [] (bd_range d) (bd_value d) (bd_bc d) false (bd_complete d)
  end.

(** bool_decoder.hh l.67-79: constructor. *)
Definition bdec_init (complete : bool) (chunk : list Z) : bdec :=
  let d := load_octet (mkBdec chunk 255 0 0 true complete) in
  let d := mkBdec (bd_chunk d) (bd_range d) (wrap 32 (Z.shiftl (bd_value d) 8))
                  (bd_bc d) (bd_valid d) (bd_complete d) in
  load_octet d.

(** bool_decoder.hh l.97-104: the renormalisation loop. The fuel 8 is enough
    for every range >= 1 (theorem [bget_safe] shows that the loop condition
    is false on exit, i.e. the fuel never runs out). *)
Fixpoint bnorm (fuel : nat) (d : bdec) : bdec :=
  match fuel with
  | O => d
  | S f =>
      if bd_range d <? 128 then
        let v := wrap 32 (Z.shiftl (bd_value d) 1) in
        let r := wrap 32 (Z.shiftl (bd_range d) 1) in
        let bc := bd_bc d + 1 in
        if bc =? 8 then
          bnorm f (load_octet (mkBdec (bd_chunk d) r v 0 (bd_valid d) (bd_complete d)))
        else
          bnorm f (mkBdec (bd_chunk d) r v bc (bd_valid d) (bd_complete d))
      else d
  end.

(** bool_decoder.hh l.82-107: get. *)
Definition bget (prob : Z) (d : bdec) : bool * bdec :=
  let split := wrap 32 (1 + Z.shiftr (wrap 32 ((bd_range d - 1) * prob)) 8) in
  let SPLIT := wrap 32 (Z.shiftl split 8) in
  if SPLIT <=? bd_value d then
    (true, bnorm 8 (mkBdec (bd_chunk d) (wrap 32 (bd_range d - split))
                           (wrap 32 (bd_value d - SPLIT)) (bd_bc d) (bd_valid d) (bd_complete d)))
  else
    (false, bnorm 8 (mkBdec (bd_chunk d) split (bd_value d) (bd_bc d) (bd_valid d) (bd_complete d))).

(** Reading a sequence of bits with given probabilities. *)
Fixpoint bgets (probs : list Z) (d : bdec) : list bool * bdec :=
  match probs with
  | [] => ([], d)
  | p :: r => let '(b, d') := bget p d in
              let '(bs, d'') := bgets r d' in
              (b :: bs, d'')
  end.
