(** Properties C05, C06: frame headers. *)
From Verif Require Import Base BoolCoderModel ParserModel HeaderModel Tables BoolEncProofs ParserProofs HeaderProofs CodingSpec.

(** C05. [kfh_ok] (HeaderProofs) says that every field fits its bit width, the
    arrays have their fixed lengths and the segmentation map probabilities are
    present exactly when the map is updated. *)
Theorem C05_key_frame_header_round_trip :
  forall h, kfh_ok h -> reads_back key_frame_header_decode (key_frame_header_events h) h.
Proof. intros h H. apply parses_reads_back; [apply kfh_events_ok|apply parses_kfh; exact H]. Qed.

(** C06. *)
Theorem C06_inter_frame_header_round_trip :
  forall h, ifh_ok h -> reads_back inter_frame_header_decode (inter_frame_header_events h) h.
Proof. intros h H. apply parses_reads_back; [apply ifh_events_ok|apply parses_ifh; exact H]. Qed.

(** C06, motion-vector probabilities: exactly the values 1 and the even values
    from 2 to 254 can be expressed by a 7-bit code, and the code chosen by the
    writer is read as that value. *)
Theorem C06_mv_probability_codes :
  (forall p, 0 <= p <= 255 ->
     (is_settable_value p = true <-> p = 1 \/ (Z.Even p /\ 2 <= p))) /\
  (forall p, 0 <= p <= 255 -> is_settable_value p = true ->
     0 <= write_prob p < 2 ^ 7 /\ read_half_prob (write_prob p) = p) /\
  (forall code, 0 <= code < 2 ^ 7 ->
     1 <= read_half_prob code <= 254 /\ is_settable_value (read_half_prob code) = true).
Proof.
  unfold is_settable_value, read_half_prob, write_prob, wrap.
  repeat apply conj; intros p Hp; rewrite ?Z.shiftr_div_pow2, ?Z.shiftl_mul_pow2 by lia; change (2 ^ 1) with 2;
    change (2 ^ 8) with 256 in *; change (2 ^ 7) with 128 in *.
  - destruct (p / 2 =? 0) eqn:E.
    + split; [intros; left; lia|]. intros [->|[_ H]]; lia.
    + split.
      * intros H. right. split; [exists (p / 2); lia|lia].
      * intros [->|[[k ->] H]]; [cbn in E; lia|]. lia.
  - intros H. destruct (p / 2 =? 0) eqn:E; lia.
  - destruct (p =? 0) eqn:E.
    + replace p with 0 by lia. cbn. split; [lia|reflexivity].
    + split; [lia|]. destruct (p * 2 mod 256 / 2 =? 0) eqn:E2; lia.
Qed.

Ltac fcons := repeat first [apply Forall_cons | apply Forall_nil].

Definition example_seg : UpdateSegmentation :=
  mkUS true (Some (mkSFD true [Some (-127); None; Some 3; Some 0] [None; Some 63; Some (-63); None]))
       (Some [Some 255; None; Some 1]).
Definition example_qi : QuantIndices := mkQI 127 (Some (-15)) None (Some 15) None (Some 1).

Example C05_example :
  kfh_ok (mkKFH false false (Some example_seg) false 63 7
                (Some (Some (mkLFD [Some 1; None; Some (-63); None] [None; None; None; Some 63]))) 3 example_qi true
                (Some 0 :: Some 255 :: repeat None 1054) (Some 200)).
Proof.
  assert (N : forall w n, Forall (o_ok (u_ok w)) (repeat None n)).
  { intros w n. apply Forall_forall. intros x Hx. apply repeat_spec in Hx. subst. intros a E. discriminate. }
  constructor; cbn -[Z.pow]; unfold o_ok, u_ok, s_ok, example_qi, example_seg; try lia.
  - intros a E; injection E as <-. constructor; cbn -[Z.pow].
    + split; intros; [discriminate|reflexivity].
    + intros a E; injection E as <-. constructor; cbn -[Z.pow]; try reflexivity;
        fcons; intros a E; try discriminate; injection E as <-; unfold s_ok; lia.
    + intros a E; injection E as <-. split; [reflexivity|].
      fcons; intros a E; try discriminate; injection E as <-; unfold u_ok; lia.
  - intros a E; injection E as <-. intros a E; injection E as <-. constructor; cbn -[Z.pow]; try reflexivity;
      fcons; intros a E; try discriminate; injection E as <-; unfold s_ok; lia.
  - constructor; cbn -[Z.pow]; unfold o_ok, u_ok, s_ok; try lia; intros a E; try discriminate; injection E as <-; lia.
  - constructor; [intros a E; injection E as <-; unfold u_ok; lia|].
    constructor; [intros a E; injection E as <-; unfold u_ok; lia|]. apply (N 8 1054%nat).
  - intros a E; injection E as <-. lia.
Qed.

Example C06_example :
  ifh_ok (mkIFH (Some example_seg) false 1 2 None 0 example_qi false true (Some 2) None true false true true
                (repeat None 1056) None 10 20 30 (Some [1; 2; 3; 255]) None (Some 127 :: Some 0 :: repeat None 36)).
Proof.
  assert (N : forall w n, Forall (o_ok (u_ok w)) (repeat None n)).
  { intros w n. apply Forall_forall. intros x Hx. apply repeat_spec in Hx. subst. intros a E. discriminate. }
  constructor; cbn -[Z.pow]; unfold o_ok, u_ok, s_ok, example_qi, example_seg; try lia;
    try (intros a E; discriminate); try (split; congruence); try reflexivity.
  - intros a E; injection E as <-. constructor; cbn -[Z.pow].
    + split; intros; [discriminate|reflexivity].
    + intros a E; injection E as <-. constructor; cbn -[Z.pow]; try reflexivity;
        fcons; intros a E; try discriminate; injection E as <-; unfold s_ok; lia.
    + intros a E; injection E as <-. split; [reflexivity|].
      fcons; intros a E; try discriminate; injection E as <-; unfold u_ok; lia.
  - constructor; cbn -[Z.pow]; unfold o_ok, u_ok, s_ok; try lia; intros a E; try discriminate; injection E as <-; lia.
  - intros a E; injection E as <-. lia.
  - apply (N 8 1056%nat).
  - intros a E; injection E as <-. split; [reflexivity|]. fcons; lia.
  - constructor; [intros a E; injection E as <-; unfold u_ok; lia|].
    constructor; [intros a E; injection E as <-; unfold u_ok; lia|]. apply (N 7 36%nat).
Qed.

Print Assumptions C05_key_frame_header_round_trip.
Print Assumptions C06_inter_frame_header_round_trip.
Print Assumptions C06_mv_probability_codes.
