(** Reading and writing through a file descriptor.
    Sources: src/util/file_descriptor.hh, src/util/exception.hh.
    The counters of calls (l.50-54) are not modelled. *)
From Verif Require Import Base ChunkModel.

(** ** The kernel *)

(** An answer to write(2) or read(2): an error, or the willingness to move up
    to [n] bytes. Linux never moves more than 0x7ffff000 bytes at once, so that
    the count survives the conversion to int of SystemCall (exception.hh
    l.108-115). *)
Inductive answer : Type := Refuse | Upto (n : Z).
Definition MAX_RW_COUNT : Z := 2147479552.
Definition moved (n available : Z) : Z := Z.max 0 (Z.min n (Z.min available MAX_RW_COUNT)).

(** write(2) of [request]: the count. *)
Definition kernel_write (a : answer) (request : list Z) : option Z :=
  match a with
  | Refuse => None
  | Upto n => Some (moved n (zlen request))
  end.
(** read(2) of at most [limit] bytes of what is left in the stream. It moves
    at least one byte unless the stream has ended (or [limit] is 0). *)
Definition kernel_read (a : answer) (limit : Z) (stream : list Z) : option Z :=
  match a with
  | Refuse => None
  | Upto n => Some (moved (Z.max 1 n) (Z.min limit (zlen stream)))
  end.

(** unix_error; the exceptions about writes; undefined behaviour; still
    waiting for the kernel (the answers have been used up). *)
Inductive fd_error : Type := FSystem | FNothing | FZero | FEof | FUndefined | FWaiting.

(** ** Writing *)

(** l.126-139. The result: how the call ended and the bytes that the kernel
    took. *)
Fixpoint write_chunk (c : chunk) (l : list answer) : res fd_error unit * list Z :=
  if c_size c =? 0 then (Ok tt, [])
  else match l with
       | [] => (Err FWaiting, [])
       | a :: l' =>
           match kernel_write a (cbytes c) with
           | None => (Err FSystem, [])
           | Some n =>
               let sent := firstn (Z.to_nat n) (cbytes c) in
               if n =? 0 then (Err FZero, sent)
               else match ctail c n with
                    | Err _ => (Err FUndefined, sent)
                    | Ok c' => let '(r, more) := write_chunk c' l' in (r, sent ++ more)
                    end
           end
       end.

(** l.97-113: one write; the result is the iterator, a position in
    [buffer]. *)
Definition write_once (buffer : list Z) (it : Z) (a : answer) : res fd_error Z * list Z :=
  if it >=? zlen buffer then (Err FNothing, [])
  else match kernel_write a (skipn (Z.to_nat it) buffer) with
       | None => (Err FSystem, [])
       | Some n => if n =? 0 then (Err FZero, []) else (Ok (it + n), firstn (Z.to_nat n) (skipn (Z.to_nat it) buffer))
       end.
(** l.115-124, from position [it]. *)
Fixpoint write_string (buffer : list Z) (write_all : bool) (it : Z) (l : list answer) : res fd_error Z * list Z :=
  if it >=? zlen buffer then (Err FNothing, [])
  else match l with
       | [] => (Err FWaiting, [])
       | a :: l' =>
           match write_once buffer it a with
           | (Err e, sent) => (Err e, sent)
           | (Ok it', sent) =>
               if write_all && negb (it' =? zlen buffer)
               then let '(r, more) := write_string buffer write_all it' l' in (r, sent ++ more)
               else (Ok it', sent)
           end
       end.

(** ** Reading *)

Definition BUFFER_SIZE : Z := 1048576.

(** What is left of the stream and of the answers, and eof_. *)
Record source : Type := mkSource { s_stream : list Z; s_answers : list answer; s_eof : bool }.

(** l.158-176. *)
Definition read (limit : Z) (s : source) : res fd_error (list Z) * source :=
  if s_eof s then (Err FEof, s)
  else match s_answers s with
       | [] => (Err FWaiting, s)
       | a :: l =>
           match kernel_read a (Z.min BUFFER_SIZE limit) (s_stream s) with
           | None => (Err FSystem, mkSource (s_stream s) l (s_eof s))
           | Some n => (Ok (firstn (Z.to_nat n) (s_stream s)), mkSource (skipn (Z.to_nat n) (s_stream s)) l (n =? 0))
           end
       end.

(** l.178-190; [ret]: what has been read. The number of calls is bounded by
    the answers. *)
Fixpoint read_exactly_loop (fuel : nat) (ret : list Z) (len : Z) (s : source) : res fd_error (list Z) * source :=
  if zlen ret <? len then
    match fuel with
    | O => (Err FWaiting, s)
    | S fuel' =>
        match read (len - zlen ret) s with
        | (Err e, s') => (Err e, s')
        | (Ok b, s') =>
            if s_eof s' then (Err FEof, s')
            else read_exactly_loop fuel' (ret ++ b) len s'
        end
    end
  else if zlen ret =? len then (Ok ret, s) else (Err FUndefined, s).
Definition read_exactly (len : Z) (s : source) : res fd_error (list Z) * source :=
  read_exactly_loop (S (length (s_answers s))) [] len s.

(** l.141-156. *)
Fixpoint getline_loop (fuel : nat) (ret : list Z) (s : source) : res fd_error (list Z) * source :=
  match fuel with
  | O => (Err FWaiting, s)
  | S fuel' =>
      match read 1 s with
      | (Err e, s') => (Err e, s')
      | (Ok b, s') =>
          if s_eof s' || (match b with [10] => true | _ => false end) then (Ok ret, s')
          else getline_loop fuel' (ret ++ b) s'
      end
  end.
Definition getline (s : source) : res fd_error (list Z) * source :=
  getline_loop (S (length (s_answers s))) [] s.
