(** The sender of Salsify. Source: src/salsify/salsify-sender.cc l.160-172
    (size of the next frame), l.181-187 (sequence numbers), l.268-320 (state),
    l.341-521 (start of an encoding), l.524-656 (its end), l.658-685
    (acknowledgements). The encoder is a parameter: its state and fingerprint
    (Encoder::minihash); what the jobs give is an input. Not modelled: the
    camera, the quantisers of the jobs and their exceptions, the concurrent
    thread (between the start of an encoding and its end the jobs are only
    copied), the pacer (PacerModel.v), the averages of times. *)
From Verif Require Import Base PacketModel ReceiverModel.

(** get() of an empty Optional (an assertion); encoders.at( ) of an unknown
    state (out_of_range); undefined behaviour; packet.cc. *)
Inductive sender_error : Type := SGet | SMissing (state : Z) | SUndefined | SPacket (e : packet_error).

(** l.269 numeric_limits<uint32_t>::max(), l.273 of uint64_t. *)
Definition MAX32 : Z := 4294967295.
Definition MAX64 : Z := 18446744073709551615.
(** l.276. *)
Definition MAX_SKIPPED : Z := 3.
(** l.319, in nanoseconds. *)
Definition CONSERVATIVE_FOR : Z := 5000000000.

(** Conversion of a 64-bit value to int64_t. *)
Definition to_int64 (x : Z) : Z := if x <? 9223372036854775808 then x else x - 18446744073709551616.

Section Sender.
Context {E : Type}.
Variable hash : E -> Z.
Variable connection : Z.
Variable conventional : bool.

(** l.268-320. The job is the encoder of encode_jobs (all jobs of a frame have
    copies of the same one). *)
Record sender : Type := mkSender {
  sn_initial : Z;
  sn_encoders : list (Z * E);
  sn_states : list Z;
  sn_acked : option Z;
  sn_assumed : option Z;
  sn_complete : list Z;
  sn_until : Z;
  sn_cumulative : list Z;
  sn_last : Z;
  sn_delay : Z;
  sn_frame : Z;
  sn_skipped : Z;
  sn_job : option E
}.
Definition sender_start (e : E) (now : Z) : sender :=
  mkSender (hash e) [(hash e, e)] [] None None [] now [] MAX64 MAX32 0 0 None.

(** l.362-378. *)
Fixpoint cleanup (states : list Z) (encoders : list (Z * E)) (acked : Z) (assumed : option Z) : res sender_error (list Z * list (Z * E)) :=
  match states with
  | [] => Ok ([], encoders)
  | s :: r =>
      if s =? acked then Ok (states, encoders)
      else match assumed with
           | None => Err SGet
           | Some a =>
               if s =? a then Ok (states, encoders)
               else cleanup r (if existsb (Z.eqb s) r then encoders else erase encoders s) acked assumed
           end
  end.

(** l.393-401, l.425-433. *)
Definition known_state (s : sender) : Z := match sn_complete s with [] => sn_initial s | c => last c 0 end.

Definition get {A} (o : option A) : res sender_error A := match o with Some a => Ok a | None => Err SGet end.

(** l.382-441, with the encoders after the cleanup. [t1] and [t2] are the two
    readings of the clock. *)
Definition select (s : sender) (encoders : list (Z * E)) (t1 t2 : Z) : res sender_error (Z * Z) :=
  if t1 <? sn_until s then Ok (known_state s, sn_until s)
  else match sn_acked s with
       | None => Ok (match sn_assumed s with None => sn_initial s | Some a => a end, sn_until s)
       | Some c =>
           match lookup encoders c with
           | None => Ok (known_state s, t2 + CONSERVATIVE_FOR)
           | Some _ => let! a := get (sn_assumed s) in Ok (a, sn_until s)
           end
       end.

(** l.341-521. The second component is the state that was selected. *)
Definition start (s : sender) (t1 t2 : Z) : res sender_error (sender * option Z) :=
  match sn_job s with
  | Some _ => Ok (s, None)
  | None =>
      let! (states, encoders) :=
        match sn_acked s with
        | None => Ok (sn_states s, sn_encoders s)
        | Some c =>
            if negb (c =? sn_initial s) && match lookup (sn_encoders s) c with Some _ => true | None => false end
            then cleanup (sn_states s) (sn_encoders s) c (sn_assumed s)
            else Ok (sn_states s, sn_encoders s)
        end in
      let! (selected, until) := select s encoders t1 t2 in
      match lookup encoders selected with
      | None => Err (SMissing selected)
      | Some e =>
          Ok (mkSender (sn_initial s) encoders states (sn_acked s) (sn_assumed s) (sn_complete s) until (sn_cumulative s) (sn_last s) (sn_delay s)
                       (sn_frame s) (sn_skipped s) (Some e), Some selected)
      end
  end.

(** l.160-172; the product of two long must fit. *)
Definition target_size (avg_delay last_acked last_sent : Z) : res sender_error Z :=
  let avg_delay := if avg_delay =? 0 then 1 else avg_delay in
  let x := 1400 * Z.max 0 (to_int64 (wrap 64 (100000 / avg_delay - (last_sent - last_acked)))) in
  if x <? 9223372036854775808 then Ok x else Err SUndefined.

(** l.571-579. *)
Fixpoint choose (outs : list (E * list Z)) (frame_size : Z) (best : option (E * list Z)) (best_diff : Z) : option (E * list Z) :=
  match outs with
  | [] => best
  | o :: r =>
      if (zlen (snd o) <=? frame_size) && (frame_size - zlen (snd o) <? best_diff) then choose r frame_size (Some o) (frame_size - zlen (snd o))
      else choose r frame_size best best_diff
  end.

(** l.524-656: [outs] are the results of the jobs in their order (one in
    conventional mode, otherwise "improve" and "fail-small"), [time] the time
    since the last frame. The packets go to the pacer. *)
Definition finish (s : sender) (outs : list (E * list Z)) (time : Z) : res sender_error (sender * list packet) :=
  match sn_job s with
  | None => Ok (s, [])
  | Some e =>
      (* l.548-554 *)
      let! frame_size :=
        if sn_delay s =? MAX32 then Ok MAX64
        else match rev (sn_cumulative s) with
             | [] => Err SUndefined
             | c :: _ => target_size (sn_delay s) (sn_last s) c
             end in
      (* l.556-596 *)
      let best :=
        if conventional then hd_error outs
        else match choose outs frame_size None MAX64 with
             | Some o => Some o
             | None => if sn_skipped s <? MAX_SKIPPED then None else hd_error (rev outs)
             end in
      match best with
      | None =>
          Ok (mkSender (sn_initial s) (sn_encoders s) (sn_states s) (sn_acked s) (sn_assumed s) (sn_complete s) (sn_until s) (sn_cumulative s) (sn_last s)
                       (sn_delay s) (sn_frame s) (sn_skipped s + 1) None, [])
      | Some (e', frame) =>
          (* l.598-652 *)
          let! ff := match outgoing (length frame) connection (hash e) (hash e') (sn_frame s) time frame with Ok f => Ok f | Err x => Err (SPacket x) end in
          let! l := match packets ff with Ok l => Ok l | Err x => Err (SPacket x) end in
          let! before :=
            if sn_frame s >? 0 then match nth_error (sn_cumulative s) (Z.to_nat (sn_frame s - 1)) with Some c => Ok c | None => Err SUndefined end
            else Ok 0 in
          Ok (mkSender (sn_initial s) (insert (sn_encoders s) (hash e') e') (sn_states s ++ [hash e']) (sn_acked s) (Some (hash e')) (sn_complete s)
                       (sn_until s) (sn_cumulative s ++ [wrap 64 (before + fr_count ff)]) (sn_last s) (sn_delay s) (wrap 32 (sn_frame s + 1)) 0 None, l)
      end
  end.

(** l.181-187. *)
Definition ack_seq (cumulative : list Z) (frame fragment : Z) : res sender_error Z :=
  if frame >? 0 then match nth_error cumulative (Z.to_nat (frame - 1)) with Some c => Ok (wrap 64 (c + fragment)) | None => Err SUndefined end
  else Ok fragment.

(** l.658-685, for a datagram that is an acknowledgement. *)
Definition acknowledge (s : sender) (a : ack) : res sender_error sender :=
  if negb (ak_connection a =? connection) then Ok s
  else
    let! seq := ack_seq (sn_cumulative s) (ak_frame a) (ak_fragment a) in
    if negb (sn_last s =? MAX64) && (seq <? sn_last s) then Ok s
    else Ok (mkSender (sn_initial s) (sn_encoders s) (sn_states s) (Some (ak_current a)) (sn_assumed s) (ak_complete a) (sn_until s) (sn_cumulative s)
                      seq (ak_delay a) (sn_frame s) (sn_skipped s) (sn_job s)).

(** What may happen to the sender. *)
Inductive sender_event : Type :=
| Start (t1 t2 : Z)
| Finish (outs : list (E * list Z)) (time : Z)
| Acknowledge (a : ack).
Definition sender_step (s : sender) (v : sender_event) : res sender_error (sender * list packet) :=
  match v with
  | Start t1 t2 => let! (s', _) := start s t1 t2 in Ok (s', [])
  | Finish outs time => finish s outs time
  | Acknowledge a => let! s' := acknowledge s a in Ok (s', [])
  end.
(** The state and everything that was sent. *)
Fixpoint sender_run (s : sender) (l : list sender_event) : res sender_error (sender * list packet) :=
  match l with
  | [] => Ok (s, [])
  | v :: r => let! (s', p) := sender_step s v in let! (s'', q) := sender_run s' r in Ok (s'', p ++ q)
  end.
End Sender.
Arguments sender E : clear implicits.
Arguments sender_event E : clear implicits.

(** ** Both ends and the network *)

Section System.
Context {D : Type}.
Variable decode : D -> list Z -> option D.
Variable hash : D -> Z.
Variable connection : Z.
Variable conventional : bool.

(** Everything that was ever sent stays in the network: what is delivered, in
    which order and how often, is chosen by the events. *)
Record system : Type := mkSystem {
  sy_sender : sender D;
  sy_receiver : receiver D;
  sy_packets : list packet;
  sy_acks : list ack
}.
Definition system_start (d : D) : system := mkSystem (sender_start hash d 0) (receiver_start hash d) [] [].

(** The encoder knows the decoder's state; an encoding is a frame, the new state
    is what a decoder makes of it. *)
Inductive system_event : Type :=
| VStart (t1 t2 : Z)
| VFinish (frames : list (list Z)) (time : Z)
| VPacket (i : nat) (time delay : Z)
| VAck (i : nat).

(** The step succeeds; an end fails; the event is impossible (something that was
    not sent; a frame that decoders refuse). *)
Inductive outcome : Type := Continues (s : system) | SenderFails (e : sender_error) | ReceiverFails (e : receiver_error) | Impossible.

Fixpoint encodings (d : D) (frames : list (list Z)) : option (list (D * list Z)) :=
  match frames with
  | [] => Some []
  | f :: r =>
      match decode d f, encodings d r with
      | Some d', Some l => Some ((d', f) :: l)
      | _, _ => None
      end
  end.

Definition system_step (s : system) (v : system_event) : outcome :=
  match v with
  | VStart t1 t2 =>
      match start (sy_sender s) t1 t2 with
      | Ok (s', _) => Continues (mkSystem s' (sy_receiver s) (sy_packets s) (sy_acks s))
      | Err e => SenderFails e
      end
  | VFinish frames time =>
      match sn_job (sy_sender s) with
      | None => Impossible
      | Some d =>
          match encodings d frames with
          | None => Impossible
          | Some outs =>
              match finish hash connection conventional (sy_sender s) outs time with
              | Ok (s', l) => Continues (mkSystem s' (sy_receiver s) (sy_packets s ++ l) (sy_acks s))
              | Err e => SenderFails e
              end
          end
      end
  | VPacket i time delay =>
      match nth_error (sy_packets s) i with
      | None => Impossible
      | Some p =>
          match receive decode hash connection (sy_receiver s) p time delay with
          | Ok (r, _, a) => Continues (mkSystem (sy_sender s) r (sy_packets s) (sy_acks s ++ match a with Some x => [x] | None => [] end))
          | Err e => ReceiverFails e
          end
      end
  | VAck i =>
      match nth_error (sy_acks s) i with
      | None => Impossible
      | Some a =>
          match acknowledge connection (sy_sender s) a with
          | Ok s' => Continues (mkSystem s' (sy_receiver s) (sy_packets s) (sy_acks s))
          | Err e => SenderFails e
          end
      end
  end.

Fixpoint system_run (s : system) (l : list system_event) : outcome :=
  match l with
  | [] => Continues s
  | v :: r => match system_step s v with Continues s' => system_run s' r | o => o end
  end.
End System.
Arguments system D : clear implicits.
