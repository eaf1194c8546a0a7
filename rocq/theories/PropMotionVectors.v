(** Properties C08 (motion vector coding) and C49 (clamping). *)
From Verif Require Import Base BoolCoderModel ParserModel TreeModel MVModel Tables BoolEncProofs ParserProofs MVProofs CodingSpec.

(** C08. [probs]: the 19 probabilities of one component. *)
Theorem C08_component_round_trip :
  forall probs num,
    Forall (fun p => 0 <= p <= 255) probs ->
    Z.Even num -> Z.abs num < 2048 ->
    exists evs, write_component probs num = Some evs /\ reads_back (read_component probs) evs num.
Proof.
  intros probs num HP HE HB. destruct (write_component_some probs num) as (evs & E & O).
  exists evs. split; [exact E|]. apply parses_reads_back.
  - apply O. eapply Forall_impl; [|exact HP]. unfold prob_ok. intros; lia.
  - apply parses_comp_codable; [|exact E]. split; [exact HE|]. destruct HE as [k ->]. lia.
Qed.

(** Odd components in range lose their low bit, rounding down. *)
Theorem C08_odd_component_rounded :
  forall probs num,
    Forall (fun p => 0 <= p <= 255) probs ->
    Z.Odd num -> -2047 < num < 2048 ->
    exists evs, write_component probs num = Some evs /\ reads_back (read_component probs) evs (num - 1).
Proof.
  intros probs num HP [k ->] HB. destruct (write_component_some probs (2 * k + 1)) as (evs & E & O).
  exists evs. split; [exact E|].
  assert (S : Z.shiftr (2 * k + 1) 1 = k) by (rewrite Z.shiftr_div_pow2 by lia; change (2 ^ 1) with 2; lia).
  apply parses_reads_back.
  - apply O. eapply Forall_impl; [|exact HP]. unfold prob_ok. intros; lia.
  - eapply parses_eq; [eapply parses_component; [|exact E]; rewrite S; lia|rewrite S; lia].
Qed.

(** Whatever the bits, the reader returns an even number below 2048 in
    magnitude, so no other component can come back unchanged. *)
Theorem C08_reader_range :
  forall probs d, Z.Even (fst (read_component probs d)) /\ Z.abs (fst (read_component probs d)) < 2048.
Proof. intros probs d. destruct (read_component_range probs d). split; [assumption|lia]. Qed.

(** Both components of a vector. *)
Theorem C08_vector_round_trip :
  forall probs x y,
    Forall (fun p => 0 <= p <= 255) probs ->
    Z.Even x -> Z.Even y -> Z.abs x < 2048 -> Z.abs y < 2048 ->
    exists evs, write_mv probs (x, y) = Some evs /\ reads_back (read_mv probs) evs (x, y).
Proof.
  intros probs x y HP EX EY HX HY.
  destruct (parses_mv probs (x, y)) as (evs & E & O & P).
  { split; (split; [assumption|]); cbn [fst snd]; [destruct EX as [k ->]|destruct EY as [k ->]]; lia. }
  exists evs. split; [exact E|]. apply parses_reads_back; [|exact P].
  apply O. eapply Forall_impl; [|exact HP]. unfold prob_ok. intros; lia.
Qed.

(** A component of 2048 or more is written without complaint but the reader
    does not even consume the same bits. *)
Example C08_too_long_desynchronises :
  let probs := firstn 19 k_default_mv_probs in
  match write_component probs 2048 with
  | Some evs =>
      match bool_encode (evs ++ [(true, 128); (false, 128)]) with
      | Some bytes => let '(v, d) := read_component probs (bdec_init true bytes) in
                      v = 16 /\ fst (bgets [128; 128] d) <> [true; false]
      | None => False
      end
  | None => False
  end.
Proof. vm_compute. split; [reflexivity|discriminate]. Qed.

Example C08_example :
  Forall (fun p => 0 <= p <= 255) (firstn 19 k_default_mv_probs) /\ Z.Even (-1230) /\ Z.abs (-1230) < 2048 /\
  Z.Odd (-2045) /\
  exists evs, write_component (firstn 19 k_default_mv_probs) (-1230) = Some evs /\ length evs = 12%nat.
Proof.
  split; [apply Forall_forall; intros x Hx; assert (E : forallb (fun p => (0 <=? p) && (p <=? 255)) (firstn 19 k_default_mv_probs) = true) by (vm_compute; reflexivity);
          rewrite forallb_forall in E; specialize (E x Hx); lia|].
  split; [exists (-615); reflexivity|]. split; [lia|]. split; [exists (-1023); reflexivity|].
  eexists. split; vm_compute; reflexivity.
Qed.

(** C49. Vectors are in 1/8 pixel, so a macroblock is 128 units wide.
    (column, row): a macroblock of a picture of width x height macroblocks
    (at most 1024 on a side: 16383 pixels). A clamped vector moves the
    macroblock at most one macroblock beyond the picture on every side. *)
Definition within_border (column row width height : Z) (v : Z * Z) : Prop :=
  - 128 <= 128 * column + fst v <= 128 * width /\ - 128 <= 128 * row + snd v <= 128 * height.

Definition int16_ok (v : Z * Z) : Prop := -32768 <= fst v <= 32767 /\ -32768 <= snd v <= 32767.

Lemma clamp_limits column width : 0 <= column < width -> width <= 1024 ->
  wrap 32 (wrap 32 (Z.shiftl (wrap 32 (wrap 32 (width - 1 - column) * 16)) 3) + 128) = 128 * (width - column).
Proof.
  intros H1 H2. unfold wrap. change (2 ^ 32) with 4294967296.
  rewrite (Z.mod_small (width - 1 - column)) by lia. rewrite (Z.mod_small ((width - 1 - column) * 16)) by lia.
  rewrite Z.shiftl_mul_pow2 by lia. change (2 ^ 3) with 8.
  rewrite (Z.mod_small ((width - 1 - column) * 16 * 8)) by lia. rewrite Z.mod_small by lia. lia.
Qed.

Lemma mv_clamp_eq column row width height v :
  0 <= column < width -> 0 <= row < height -> width <= 1024 -> height <= 1024 ->
  mv_clamp column row width height v =
    (Z.min (Z.max (fst v) (Z.max (- 128 * (column + 1)) (-32768))) (Z.min (128 * (width - column)) 32767),
     Z.min (Z.max (snd v) (Z.max (- 128 * (row + 1)) (-32768))) (Z.min (128 * (height - row)) 32767)).
Proof.
  intros HC HR HW HH. unfold mv_clamp. rewrite !clamp_limits by lia. rewrite !Z.shiftl_mul_pow2 by lia.
  change (2 ^ 3) with 8. f_equal; lia.
Qed.

Theorem C49_clamp_within_border :
  forall column row width height v,
    0 <= column < width -> 0 <= row < height -> width <= 1024 -> height <= 1024 ->
    within_border column row width height (mv_clamp column row width height v) /\
    int16_ok (mv_clamp column row width height v).
Proof.
  intros column row width height v HC HR HW HH. rewrite mv_clamp_eq by assumption.
  unfold within_border, int16_ok. cbn [fst snd]. lia.
Qed.

Theorem C49_clamp_idempotent :
  forall column row width height v,
    0 <= column < width -> 0 <= row < height -> width <= 1024 -> height <= 1024 ->
    mv_clamp column row width height (mv_clamp column row width height v) = mv_clamp column row width height v.
Proof.
  intros column row width height v HC HR HW HH. rewrite !mv_clamp_eq by assumption. cbn [fst snd].
  f_equal; lia.
Qed.

Theorem C49_clamp_keeps_legal :
  forall column row width height v,
    0 <= column < width -> 0 <= row < height -> width <= 1024 -> height <= 1024 ->
    int16_ok v -> within_border column row width height v ->
    mv_clamp column row width height v = v.
Proof.
  intros column row width height [x y] HC HR HW HH HI HB. rewrite mv_clamp_eq by assumption.
  unfold within_border, int16_ok in *. cbn [fst snd] in *. f_equal; lia.
Qed.

(** Clamping takes each component to the nearest allowed value. *)
Theorem C49_clamp_nearest :
  forall column row width height v w,
    0 <= column < width -> 0 <= row < height -> width <= 1024 -> height <= 1024 ->
    int16_ok v -> int16_ok w -> within_border column row width height w ->
    let c := mv_clamp column row width height v in
    Z.abs (fst c - fst v) <= Z.abs (fst w - fst v) /\ Z.abs (snd c - snd v) <= Z.abs (snd w - snd v).
Proof.
  intros column row width height [x y] [wx wy] HC HR HW HH HI HJ HB. cbv zeta. rewrite mv_clamp_eq by assumption.
  unfold within_border, int16_ok in *. cbn [fst snd] in *. lia.
Qed.

Example C49_example :
  0 <= 3 < 40 /\ 0 <= 0 < 30 /\ int16_ok (-3000, 20) /\ within_border 3 0 40 30 (5 , 7) /\
  mv_clamp 3 0 40 30 (-3000, 20) = (-512, 20).
Proof. unfold int16_ok, within_border. cbn [fst snd]. repeat split; try lia. Qed.

Print Assumptions C08_component_round_trip.
Print Assumptions C08_odd_component_rounded.
Print Assumptions C08_reader_range.
Print Assumptions C08_vector_round_trip.
Print Assumptions C49_clamp_within_border.
Print Assumptions C49_clamp_idempotent.
Print Assumptions C49_clamp_keeps_legal.
Print Assumptions C49_clamp_nearest.
