(** The pacer of outgoing datagrams. Sources: src/net/pacer.hh l.37-77,
    src/salsify/salsify-sender.cc l.685-700 (the action that sends what is due).
    Times are in nanoseconds (system_clock of libstdc++); time_point arithmetic
    that leaves 64 bits (the year 2262) is not modelled. *)
From Verif Require Import Base.

(** pacer.hh l.41-44. *)
Record scheduled : Type := mkScheduled { sc_when : Z; sc_what : list Z }.

(** The conversion of a long to an int. *)
Definition to_int (n : Z) : Z := (n + 2 ^ 31) mod 2 ^ 32 - 2 ^ 31.

(** pacer.hh l.49-61; [now] is the reading of the clock. duration_cast
    truncates towards zero. *)
Definition ms_until_due (queue : list scheduled) (now : Z) : Z :=
  match queue with
  | [] => 1000
  | s :: _ => let millis := to_int (Z.quot (sc_when s - now) 1000000) in if millis <? 0 then 0 else millis
  end.

(** pacer.hh l.64-72. The clock is read only if the queue is empty. *)
Definition push (queue : list scheduled) (now : Z) (payload : list Z) (delay_microseconds : Z) : list scheduled :=
  match queue with
  | [] => [mkScheduled now payload]
  | s :: r => queue ++ [mkScheduled (sc_when (last r s) + 1000 * delay_microseconds) payload]
  end.

(** salsify-sender.cc l.690-695: the loop. [clock] gives the readings of the
    clock, one per evaluation of the condition; the first component of the
    result are the datagrams with the reading after which they were sent. *)
Fixpoint send_loop (queue : list scheduled) (clock : nat -> Z) : list (Z * scheduled) * list scheduled :=
  match queue with
  | [] => ([], [])
  | s :: r =>
      if ms_until_due queue (clock O) =? 0 then
        let (sent, rest) := send_loop r (fun n => clock (S n)) in ((clock O, s) :: sent, rest)
      else ([], queue)
  end.
(** salsify-sender.cc l.687-700, with poller.cc l.52-54: the poller asks
    whether something is due ([asked]), the callback asserts it ([asserted]).
    None: the assertion fails. The assertion inside of the loop (l.691) is a
    theorem: ms_until_due of an empty queue is not 0. *)
Definition send_action (queue : list scheduled) (asked asserted : Z) (clock : nat -> Z) : option (list (Z * scheduled) * list scheduled) :=
  if negb (ms_until_due queue asked =? 0) then Some ([], queue)
  else if negb (ms_until_due queue asserted =? 0) then None
  else Some (send_loop queue clock).

(** What happens to a pacer. *)
Inductive pacer_event : Type :=
| Push (now : Z) (payload : list Z) (delay : Z)
| Send (asked asserted : Z) (clock : nat -> Z).

(** A history: the datagrams that left, and the queue. *)
Fixpoint pacer_run (queue : list scheduled) (l : list pacer_event) : option (list (Z * scheduled) * list scheduled) :=
  match l with
  | [] => Some ([], queue)
  | Push now payload delay :: r => pacer_run (push queue now payload delay) r
  | Send asked asserted clock :: r =>
      match send_action queue asked asserted clock with
      | None => None
      | Some (sent, queue') =>
          match pacer_run queue' r with
          | None => None
          | Some (sent', queue'') => Some (sent ++ sent', queue'')
          end
      end
  end.
