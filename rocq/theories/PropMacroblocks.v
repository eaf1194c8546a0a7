(** Properties C09 and C10: macroblock headers of whole frames. *)
From Verif Require Import Base BoolCoderModel ParserModel Tables TreeModel HeaderModel MVModel MBModel.
From Verif Require Import BoolEncProofs ParserProofs HeaderProofs MVProofs CodingSpec PropTrees MBProofs MBDecoded.

(** C09. A W x H macroblock key frame. [kf_mb_ok h] (MBProofs): the segment id
    is present iff the header updates the map, the skip flag iff the header has
    prob_skip_false; modes are intra modes; sub-block modes are those of the
    format, and the implied ones unless B_PRED. *)
Theorem C09_key_frame_modes_round_trip :
  forall (h : KeyFrameHeader) (W H : nat) (l : list mbinfo),
    kfh_ok h -> (0 < W)%nat -> length l = (W * H)%nat -> Forall (kf_mb_ok h) l ->
    exists evs, kf_macroblocks_events h W l = Some evs /\ reads_back (kf_macroblocks_decode h W H) evs l.
Proof.
  intros h W H l HH HW HL HF. destruct (codes_kf_macroblocks h W H l HH HW HL HF) as (evs & E & O & P).
  exists evs. split; [exact E|]. apply parses_reads_back; assumption.
Qed.

(** Every frame the parser can produce, whatever the bits, is such a frame, so
    it can be written and is read back the same. *)
Theorem C09_parsed_key_frame_modes_round_trip :
  forall (h : KeyFrameHeader) (W H : nat) (d : bdec),
    kfh_ok h -> (0 < W)%nat ->
    let l := fst (kf_macroblocks_decode h W H d) in
    length l = (W * H)%nat /\ Forall (kf_mb_ok h) l /\
    exists evs, kf_macroblocks_events h W l = Some evs /\ reads_back (kf_macroblocks_decode h W H) evs l.
Proof.
  intros h W H d HH HW l. destruct (yields_kf_macroblocks h W H d) as [HL HF]. fold l in HL, HF.
  split; [exact HL|]. split; [exact HF|]. apply C09_key_frame_modes_round_trip; assumption.
Qed.

(** C10. Inter frames. [if_mb_ok] (MBProofs): as above, and the reference
    selectors are present exactly when the format has them, NEARESTMV, NEARMV
    and ZEROMV macroblocks have the vector that the census of the neighbours
    gives them, NEWMV vectors differ from the clamped best vector by a codable
    difference, and the sixteen vectors of a SPLITMV macroblock are constant on
    each partition and agree with its partition's sub-mode. *)
Theorem C10_inter_frame_modes_round_trip :
  forall (h : InterFrameHeader) (pt : ProbabilityTables) (W H : nat) (l : list mbinfo),
    ifh_ok h -> pt_ok pt -> (0 < W)%nat -> length l = (W * H)%nat ->
    (forall i m, nth_error l i = Some m -> if_mb_ok h W H l i m) ->
    exists evs, if_macroblocks_events h pt W H l = Some evs /\ reads_back (if_macroblocks_decode h pt W H) evs l.
Proof.
  intros h pt W H l HH HP HW HL HF. destruct (codes_if_macroblocks h pt W H l HH HP HW HL HF) as (evs & E & O & P).
  exists evs. split; [exact E|]. apply parses_reads_back; assumption.
Qed.

Theorem C10_parsed_inter_frame_modes_round_trip :
  forall (h : InterFrameHeader) (pt : ProbabilityTables) (W H : nat) (d : bdec),
    ifh_ok h -> pt_ok pt -> (0 < W)%nat ->
    let l := fst (if_macroblocks_decode h pt W H d) in
    length l = (W * H)%nat /\ (forall i m, nth_error l i = Some m -> if_mb_ok h W H l i m) /\
    exists evs, if_macroblocks_events h pt W H l = Some evs /\ reads_back (if_macroblocks_decode h pt W H) evs l.
Proof.
  intros h pt W H d HH HP HW l. destruct (yields_if_macroblocks h pt W H HW d) as [HL HF]. fold l in HL, HF.
  split; [exact HL|]. split; [exact HF|]. apply C10_inter_frame_modes_round_trip; assumption.
Qed.

(** The headers read from any bits satisfy the hypotheses as well. *)
Theorem C05_parsed_header_is_encodable : forall d, kfh_ok (fst (key_frame_header_decode d)).
Proof. exact yields_kfh. Qed.
Theorem C06_parsed_header_is_encodable : forall d, ifh_ok (fst (inter_frame_header_decode d)).
Proof. exact yields_ifh. Qed.

(** The census never indexes outside of its arrays: at most three vectors are
    recorded and each count is a row of the six-row probability table. *)
Definition scorer_inv (budget : Z) (n : nat) (s : scorer) : Prop :=
  exists a b c e, sc_scores s = [a; b; c; e] /\ length (sc_mvs s) = 4%nat /\ 0 <= a /\ 0 <= b /\ 0 <= c /\ 0 <= e /\
    a + b + c + e <= budget /\ 0 <= sc_split s <= budget /\ (sc_index s <= n)%nat.

Lemma scorer_add_inv s score nb budget n : 0 <= score -> (n < 3)%nat -> scorer_inv budget n s ->
  scorer_inv (budget + score) (S n) (scorer_add s score nb).
Proof.
  intros H0 Hn (a & b & c & e & E1 & E2 & H1 & H2 & H3 & H4 & H5 & H6 & H7). unfold scorer_add.
  destruct nb as [nb|]; [|exists a, b, c, e; repeat split; auto; lia].
  destruct (nb_inter nb); [|exists a, b, c, e; repeat split; auto; lia].
  set (m := if Bool.eqb (nb_flipped nb) (sc_flipped s) then nb_mv nb else mv_neg (nb_mv nb)). clearbody m.
  assert (X : exists a b c e, sc_scores (scorer_add_mv s score m) = [a; b; c; e] /\
     length (sc_mvs (scorer_add_mv s score m)) = 4%nat /\ 0 <= a /\ 0 <= b /\ 0 <= c /\ 0 <= e /\
     a + b + c + e <= budget + score /\ sc_split (scorer_add_mv s score m) = sc_split s /\
     (sc_index (scorer_add_mv s score m) <= S n)%nat).
  { unfold scorer_add_mv. rewrite E1. destruct (mv_empty m).
    - cbn [sc_scores sc_mvs sc_split sc_index set_nth nth].
      exists (a + score), b, c, e. repeat split; auto; lia.
    - assert (IDX : (sc_index s = 0 \/ sc_index s = 1 \/ sc_index s = 2)%nat) by lia.
      destruct (mv_eqb m (nth (sc_index s) (sc_mvs s) mv_zero)); cbn [sc_scores sc_mvs sc_split sc_index];
        destruct IDX as [I|[I|I]]; rewrite I; cbn [set_nth nth];
        [ exists (a + score), b, c, e | exists a, (b + score), c, e | exists a, b, (c + score), e
        | exists a, (b + score), c, e | exists a, b, (c + score), e | exists a, b, c, (e + score) ];
        rewrite ?set_nth_length; repeat split; auto; lia. }
  destruct X as (a' & b' & c' & e' & F1 & F2 & F3 & F4 & F5 & F6 & F7 & F8 & F9).
  exists a', b', c', e'. destruct (nb_split nb); cbn [sc_scores sc_mvs sc_split sc_index]; repeat split; auto; lia.
Qed.

Theorem C10_census_within_tables :
  forall flipped above left above_left,
    (sc_index (scorer_add (scorer_add (scorer_add (scorer_init flipped) 2 above) 2 left) 1 above_left) <= 3)%nat /\
    length (sc_contexts (mv_census flipped above left above_left)) = 4%nat /\
    Forall (fun c => 0 <= c <= 5) (sc_contexts (mv_census flipped above left above_left)).
Proof.
  intros flipped above left above_left. unfold mv_census.
  assert (I : scorer_inv 5 3 (scorer_add (scorer_add (scorer_add (scorer_init flipped) 2 above) 2 left) 1 above_left)).
  { apply (scorer_add_inv _ 1 _ 4 2); [lia|lia|]. apply (scorer_add_inv _ 2 _ 2 1); [lia|lia|].
    apply (scorer_add_inv _ 2 _ 0 0); [lia|lia|]. exists 0, 0, 0, 0. cbn. repeat split; auto; lia. }
  set (s := scorer_add _ 1 above_left) in *. clearbody s.
  destruct I as (a & b & c & e & E1 & E2 & H1 & H2 & H3 & H4 & H5 & H6 & H7).
  split; [exact H7|]. split; [reflexivity|].
  unfold scorer_calculate, sc_contexts. rewrite E1. cbn [nth].
  destruct (negb (e =? 0) && mv_eqb (nth (sc_index s) (sc_mvs s) mv_zero) (nth 1 (sc_mvs s) mv_zero)); cbn [set_nth nth].
  - destruct (b + e <? c) eqn:EC; cbn [set_nth nth sc_scores sc_split];
      repeat (apply Forall_cons; [lia|]); constructor.
  - destruct (b <? c) eqn:EC; cbn [set_nth nth sc_scores sc_split];
      repeat (apply Forall_cons; [lia|]); constructor.
Qed.

(** ** Examples *)

Definition example_us := mkUS true None (Some [Some 100; None; Some 200]).
Definition example_ifh :=
  mkIFH (Some example_us) false 0 0 None 0 (mkQI 0 None None None None None) false false (Some 1) (Some 2)
        true false false true (repeat None 1056) (Some 128) 20 100 128 None None (repeat None 38).
Definition example_kfh :=
  mkKFH false false (Some example_us) false 0 0 None 0 (mkQI 0 None None None None None) true (repeat None 1056) (Some 128).
Definition default_tables := mkPT k_default_coeff_probs k_default_mv_probs k_default_y_mode_probs k_default_uv_mode_probs.
Definition example_bytes : list Z := map (fun n => (n * n * 7 + n + 91) mod 256) (map Z.of_nat (seq 1 60)).
Definition example_inter_mbs : list mbinfo := fst (if_macroblocks_decode example_ifh default_tables 3 2 (bdec_init true example_bytes)).
Definition example_key_mbs : list mbinfo := fst (kf_macroblocks_decode example_kfh 3 2 (bdec_init true example_bytes)).

Lemma example_us_ok : us_ok example_us.
Proof.
  constructor; cbn.
  - split; congruence.
  - intros a E; discriminate.
  - intros a E; injection E as <-. split; [reflexivity|].
    repeat apply Forall_cons; [| | |apply Forall_nil]; intros a E; try discriminate; injection E as <-; unfold u_ok; lia.
Qed.

Lemma repeat_none_ok {A} (P : A -> Prop) n : Forall (o_ok P) (repeat None n).
Proof. apply Forall_forall. intros x Hx. apply repeat_spec in Hx. subst. intros a E. discriminate. Qed.

Lemma example_ifh_ok : ifh_ok example_ifh.
Proof.
  constructor; cbn -[Z.pow repeat]; unfold o_ok, u_ok; try lia;
    try (intros a E; discriminate); try (split; congruence); try reflexivity;
    try (apply repeat_none_ok); try (intros a E; injection E as <-; try exact example_us_ok; lia).
  constructor; cbn -[Z.pow]; unfold o_ok, u_ok; try lia; intros a E; discriminate.
Qed.

Lemma example_kfh_ok : kfh_ok example_kfh.
Proof.
  constructor; cbn -[Z.pow repeat]; unfold o_ok, u_ok; try lia;
    try (intros a E; discriminate); try (split; congruence); try reflexivity;
    try (apply repeat_none_ok); try (intros a E; injection E as <-; try exact example_us_ok; lia).
  constructor; cbn -[Z.pow]; unfold o_ok, u_ok; try lia; intros a E; discriminate.
Qed.

Lemma default_tables_ok : pt_ok default_tables.
Proof. split; [|split; [|split]]; apply forallb_probs; vm_compute; reflexivity. Qed.

(** A 3x2 frame with two split partition schemes, nearest, near and new
    vectors, and sign-flipped neighbours meets the hypotheses of C10. *)
Example C10_example :
  ifh_ok example_ifh /\ pt_ok default_tables /\
  length example_inter_mbs = 6%nat /\
  (forall i m, nth_error example_inter_mbs i = Some m -> if_mb_ok example_ifh 3 2 example_inter_mbs i m) /\
  map mb_ymode example_inter_mbs = [SPLITMV; SPLITMV; NEARESTMV; SPLITMV; NEARMV; NEWMV] /\
  map mb_partition example_inter_mbs = [Some 1; Some 3; None; Some 3; None; None] /\
  map mb_flipped example_inter_mbs = [false; false; true; true; false; false].
Proof.
  split; [exact example_ifh_ok|]. split; [exact default_tables_ok|].
  destruct (yields_if_macroblocks example_ifh default_tables 3 2 ltac:(lia) (bdec_init true example_bytes)) as [HL HF].
  split; [exact HL|]. split; [exact HF|]. repeat split; vm_compute; reflexivity.
Qed.

Example C09_example :
  kfh_ok example_kfh /\ length example_key_mbs = 6%nat /\ Forall (kf_mb_ok example_kfh) example_key_mbs /\
  map mb_ymode example_key_mbs = [TM_PRED; V_PRED; B_PRED; B_PRED; B_PRED; B_PRED].
Proof.
  split; [exact example_kfh_ok|].
  destruct (yields_kf_macroblocks example_kfh 3 2 (bdec_init true example_bytes)) as [HL HF].
  split; [exact HL|]. split; [exact HF|]. vm_compute. reflexivity.
Qed.

Print Assumptions C09_key_frame_modes_round_trip.
Print Assumptions C09_parsed_key_frame_modes_round_trip.
Print Assumptions C10_inter_frame_modes_round_trip.
Print Assumptions C10_parsed_inter_frame_modes_round_trip.
Print Assumptions C10_census_within_tables.
Print Assumptions C05_parsed_header_is_encodable.
Print Assumptions C06_parsed_header_is_encodable.
