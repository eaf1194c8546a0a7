(** The receiver of Salsify. Source: src/salsify/salsify-receiver.cc l.55-83,
    l.117-135 and l.198-316 (the state and the handler of a datagram). The
    decoder is a parameter: its state, what decoding a frame makes of it (None:
    an exception), and its fingerprint (Decoder::minihash). The display, the
    log and the arithmetic of the average delay (doubles, l.68-77) are not
    modelled: the average is an input of each step. An exception leaves main and
    ends the program (poller.cc l.86 does not catch it). *)
From Verif Require Import Base PacketModel.

(** An exception or abort of packet.cc; an exception of the decoder; the
    assertion of l.291; the one of l.66. *)
Inductive receiver_error : Type := RPacket (e : packet_error) | RDecode | RPrune | RClock.

Section Receiver.
Context {D : Type}.
Variable decode : D -> list Z -> option D.
Variable hash : D -> Z.

(** l.198-208. unordered_maps are association lists. *)
Record receiver : Type := mkReceiver {
  rc_frames : list (Z * fragmented);
  rc_next : Z;
  rc_update : Z;              (* last_update_ of the average *)
  rc_current : Z;
  rc_initial : Z;
  rc_complete : list Z;
  rc_decoders : list (Z * D);
  rc_player : D
}.
Definition receiver_start (d : D) : receiver := mkReceiver [] 0 0 (hash d) (hash d) [] [(hash d, d)] d.

Fixpoint lookup {A} (l : list (Z * A)) (k : Z) : option A :=
  match l with
  | [] => None
  | (k', a) :: r => if k' =? k then Some a else lookup r k
  end.
Fixpoint erase {A} (l : list (Z * A)) (k : Z) : list (Z * A) :=
  match l with
  | [] => []
  | (k', a) :: r => if k' =? k then erase r k else (k', a) :: erase r k
  end.
(** insert does not replace. *)
Definition insert {A} (l : list (Z * A)) (k : Z) (a : A) : list (Z * A) :=
  match lookup l k with Some _ => l | None => (k, a) :: l end.

(** l.117-135. *)
Definition enqueue_frame (d : D) (frame : list Z) : res receiver_error D :=
  match frame with
  | [] => Ok d
  | _ => match decode d frame with Some d' => Ok d' | None => Err RDecode end
  end.
(** What is given to the decoder, for the log. *)
Definition fed (no : Z) (frame : list Z) : list (Z * list Z) := match frame with [] => [] | _ => [(no, frame)] end.

(** l.234-239: [n] passes, beginning with frame [i]. The third component lists
    the frames given to the decoder. *)
Fixpoint display_previous (n : nat) (i : Z) (frames : list (Z * fragmented)) (d : D) : res receiver_error (list (Z * fragmented) * D * list (Z * list Z)) :=
  match n with
  | O => Ok (frames, d, [])
  | S n' =>
      match lookup frames i with
      | None => display_previous n' (i + 1) frames d
      | Some f =>
          let! d' := enqueue_frame d (partial_frame f) in
          let! (frames', d'', log) := display_previous n' (i + 1) (erase frames i) d' in
          Ok (frames', d'', fed i (partial_frame f) ++ log)
      end
  end.

(** l.280-292. *)
Fixpoint prune (complete : list Z) (decoders : list (Z * D)) (source : Z) : res receiver_error (list Z * list (Z * D)) :=
  match complete with
  | [] => Err RPrune
  | s :: r => if negb (s =? source) then prune r (erase decoders s) source else Ok (complete, decoders)
  end.

Definition of_packet {A} (r : res packet_error A) : res receiver_error A := match r with Ok a => Ok a | Err e => Err (RPacket e) end.

(** l.215-316. [time] is the kernel's timestamp of the datagram, [delay] the
    average after it. The result: the new state, the frames given to the decoder
    with their numbers, the acknowledgement. *)
Definition receive (connection : Z) (r : receiver) (p : packet) (time delay : Z) : res receiver_error (receiver * list (Z * list Z) * option ack) :=
  if pk_frame p <? rc_next r then Ok (r, [], None)
  else
    (* l.227-243 *)
    let! (frames, player, next, current, log) :=
      if pk_frame p >? rc_next r then
        let! (frames, player, log) := display_previous (Z.to_nat (pk_frame p - rc_next r)) (rc_next r) (rc_frames r) (rc_player r) in
        Ok (frames, player, pk_frame p, hash player, log)
      else Ok (rc_frames r, rc_player r, rc_next r, rc_current r, []) in
    (* l.246-259 *)
    let! frames :=
      match lookup frames (pk_frame p) with
      | Some f => let! f' := of_packet (add_packet f p) in Ok (map (fun x => if fst x =? pk_frame p then (fst x, f') else x) frames)
      | None => let! f := of_packet (incoming connection p) in Ok ((pk_frame p, f) :: frames)
      end in
    (* l.262-310 *)
    let! (frames, next, current, states, decoders, player, log) :=
      match lookup frames next with
      | Some f =>
          if complete f then
            let source := fr_source f in
            let (player, current) :=
              if negb (current =? source) then
                match lookup (rc_decoders r) source with Some d => (d, source) | None => (player, current) end
              else (player, current) in
            let! (states, decoders) :=
              if (current =? source) && negb (source =? rc_initial r) then prune (rc_complete r) (rc_decoders r) source
              else Ok (rc_complete r, rc_decoders r) in
            let! frame := of_packet (whole f) in
            let! player := enqueue_frame player frame in
            let current := hash player in
            let (decoders, states) :=
              if (current =? fr_target f) && negb (current =? rc_initial r) then (insert decoders current player, states ++ [current])
              else (decoders, states) in
            Ok (erase frames next, next + 1, current, states, decoders, player, log ++ fed next frame)
          else Ok (frames, next, current, rc_complete r, rc_decoders r, player, log)
      | None => Ok (frames, next, current, rc_complete r, rc_decoders r, player, log)
      end in
    (* l.312, l.64-80 *)
    if negb (rc_update r <=? time) then Err RClock
    else
      let a := mkAck connection (pk_frame p) (pk_fragment p) delay current states in
      Ok (mkReceiver frames next time current (rc_initial r) states decoders player, log, Some a).

(** A history: each step is a packet with its timestamp and the average. *)
Fixpoint receive_all (connection : Z) (r : receiver) (l : list (packet * Z * Z)) : res receiver_error (receiver * list (Z * list Z) * list ack) :=
  match l with
  | [] => Ok (r, [], [])
  | (p, time, delay) :: rest =>
      let! (r', log, a) := receive connection r p time delay in
      let! (r'', log', acks) := receive_all connection r' rest in
      Ok (r'', log ++ log', match a with Some x => x :: acks | None => acks end)
  end.
End Receiver.
Arguments receiver D : clear implicits.
