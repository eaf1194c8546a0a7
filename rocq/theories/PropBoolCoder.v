(** Properties C01, C02, C03: the boolean entropy coder. *)
From Verif Require Import Base BoolCoderModel BoolEncProofs BoolCoderProofs BoolDecSafety.

(** C01. Bits written with given probabilities are read back. [complete] is the
    decoder's constructor argument, which must not matter here. *)
Theorem C01_bool_coder_round_trip :
  forall (evs : list (bool * Z)) (complete : bool),
    Forall (fun ev => 0 <= snd ev <= 255) evs ->
    exists bytes,
      bool_encode evs = Some bytes /\
      Forall (fun b => 0 <= b <= 255) bytes /\
      fst (bgets (map snd evs) (bdec_init complete bytes)) = map fst evs.
Proof.
  intros evs complete H.
  destruct (bool_coder_ready complete evs) as (bs & E & B & R).
  { eapply Forall_impl; [|exact H]. intros ev Hev. unfold event_ok, prob_ok. cbn beta in Hev. lia. }
  exists bs. split; [exact E|]. split; [eapply Forall_impl; [|exact B]; unfold byte_ok; lia|].
  apply ready_bgets. exact R.
Qed.

Example C01_example :
  let evs := [(true, 255); (true, 255); (true, 255); (true, 1); (false, 0); (true, 128); (false, 200);
              (true, 17); (true, 255); (true, 254); (false, 3); (true, 255); (true, 250)] in
  Forall (fun ev : bool * Z => 0 <= snd ev <= 255) evs /\
  option_map (fun bs => fst (bgets (map snd evs) (bdec_init true bs))) (bool_encode evs) = Some (map fst evs).
Proof. split; [repeat constructor; cbn; lia|vm_compute; reflexivity]. Qed.

(** C02. No sequence of puts, finished or not, makes the carry leave the
    output buffer ([None] in the model). The range stays in the domain of the
    normalisation table, the bit count stays in the domain of the shifts (the
    shift amounts of put are then between 0 and 23) and bottom never wraps. *)
Theorem C02_carry_stays_inside :
  forall evs : list (bool * Z),
    Forall (fun ev => 0 <= snd ev <= 255) evs ->
    (exists e, bputs benc_init evs = Some e /\
               128 <= be_range e <= 255 /\ -24 <= be_bc e <= -1 /\
               0 <= be_bottom e /\ be_bottom e + be_range e <= 2 ^ 32) /\
    bool_encode evs <> None.
Proof.
  intros evs H.
  assert (H' : Forall event_ok evs).
  { eapply Forall_impl; [|exact H]. intros ev Hev. unfold event_ok, prob_ok. cbn beta in Hev. lia. }
  split.
  - destruct (bputs_ok evs benc_init binv_init H') as (e & E & I & _). exists e. split; [exact E|].
    destruct I as [_ R B Z0 T _].
    assert (2 ^ (33 + be_bc e) <= 2 ^ 32) by (apply Z.pow_le_mono_r; lia). lia.
  - destruct (bool_encode_value evs H') as (bs & V & r & T & E & _). rewrite E. discriminate.
Qed.

(** A carry that really runs through 0xff bytes: the events before leave the
    output 125 255 255, the events after turn it into 126 0 0. *)
Definition carry_before : list (bool * Z) :=
  combine (fst (bgets (repeat 100 45) (bdec_init true [126]))) (repeat 100 45).

Example C02_example :
  Forall (fun ev : bool * Z => 0 <= snd ev <= 255) (carry_before ++ repeat (true, 1) 16) /\
  option_map (fun e => rev (be_out e)) (bputs benc_init carry_before) = Some [125; 255; 255] /\
  option_map (fun e => firstn 3 (rev (be_out e))) (bputs benc_init (carry_before ++ repeat (true, 128) 16)) =
    Some [126; 0; 0] /\
  add_one [255; 255; 7] = Some [0; 0; 8] /\ add_one [255; 255] = None /\ add_one [] = None.
Proof.
  split.
  - apply Forall_forall. intros ev H.
    assert (E : forallb (fun ev : bool * Z => (0 <=? snd ev) && (snd ev <=? 255)) (carry_before ++ repeat (true, 1) 16) = true)
      by (vm_compute; reflexivity).
    rewrite forallb_forall in E. specialize (E ev H). lia.
  - vm_compute. repeat split.
Qed.

(** C03. On any bytes and any probabilities the decoder answers with as many
    bits as it was asked for, what it has not consumed is a suffix of the
    input, its interval is normalised (so the renormalisation loop has really
    ended), and missing bytes count as zero bytes. *)
Theorem C03_decoder_total :
  forall (bytes : list Z) (complete : bool) (probs : list Z),
    Forall (fun b => 0 <= b <= 255) bytes ->
    Forall (fun p => 0 <= p <= 255) probs ->
    let '(bits, d) := bgets probs (bdec_init complete bytes) in
    length bits = length probs /\
    (exists consumed, bytes = consumed ++ bd_chunk d) /\
    128 <= bd_range d <= 255 /\ 0 <= bd_value d < 2 ^ 32 /\ 0 <= bd_bc d <= 7 /\
    (forall k, fst (bgets probs (bdec_init complete (bytes ++ repeat 0 k))) = bits).
Proof.
  intros bytes complete probs Hb Hp.
  assert (Hb' : bytes_ok bytes) by (eapply Forall_impl; [|exact Hb]; unfold byte_ok; lia).
  assert (Hp' : Forall prob_ok probs) by (eapply Forall_impl; [|exact Hp]; unfold prob_ok; lia).
  destruct (bdec_init_safe complete bytes Hb') as (S0 & (pre & P0)).
  destruct (bgets_safe probs _ S0 Hp') as (S1 & L & (pre2 & P1)).
  assert (Z0 : forall k, fst (bgets probs (bdec_init complete (bytes ++ repeat 0 k))) = fst (bgets probs (bdec_init complete bytes))).
  { intros k. symmetry. apply (bgets_padded k). apply bdec_init_padded. }
  destruct (bgets probs (bdec_init complete bytes)) as [bits d]. cbn [fst snd] in *.
  split; [exact L|]. split; [exists (pre ++ pre2); rewrite <- app_assoc, <- P1; exact P0|].
  destruct S1. auto.
Qed.

Example C03_example :
  let '(bits, d) := bgets (repeat 128 20) (bdec_init false [255; 255; 3]) in
  bits = repeat true 20 /\ bd_chunk d = [] /\ bd_valid d = false.
Proof. vm_compute. repeat split. Qed.

Print Assumptions C01_bool_coder_round_trip.
Print Assumptions C02_carry_stays_inside.
Print Assumptions C03_decoder_total.
