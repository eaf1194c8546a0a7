(** Property C11: whole frames. *)
From Verif Require Import Base BoolCoderModel ParserModel Tables TreeModel HeaderModel TokenModel MVModel MBModel.
From Verif Require Import ChunkModel ContainerModel FrameModel.
From Verif Require Import BoolEncProofs BoolCoderProofs ParserProofs HeaderProofs MVProofs CodingSpec PropTrees MBProofs MBDecoded.
From Verif Require Import TokenProofs ChunkProofs ContainerProofs PropContainer PropMacroblocks FrameProofs.

(** The size limits of the container format (19-bit and 24-bit lengths). *)
Definition sizes_fit (first : list Z) (parts : list (list Z)) (bytes : list Z) : Prop :=
  zlen first < 2 ^ 19 /\ Forall (fun p => zlen p < 2 ^ 24) (removelast parts) /\ zlen bytes < 2 ^ 64.

(** Macroblocks and their coefficients fit together. [coef_ok] (FrameProofs):
    no coefficients where skipped or where there is no Y2 block; sixteen values
    in -2114..2114 per block; no DC coefficient in Y blocks under a Y2 block;
    has_nonzero is right. *)
Definition coefs_ok (ms : list mbinfo) (cs : list mbcoef) : Prop :=
  length cs = length ms /\ forall i m c, nth_error ms i = Some m -> nth_error cs i = Some c -> coef_ok m c.

Lemma mb_dim_pos w : 0 < w -> (0 < mb_dim w)%nat.
Proof. unfold mb_dim. intros. lia. Qed.
Lemma partition_count_pos n : 0 <= n -> (0 < partition_count n)%nat.
Proof. intros H. unfold partition_count. assert (0 < 2 ^ n) by (apply Z.pow_pos_nonneg; lia). lia. Qed.

Lemma u8_prob_ok x : u_ok 8 x -> prob_ok x.
Proof. exact (fun H => H). Qed.

Lemma default_pt_ok : pt_ok default_pt.
Proof. exact default_tables_ok. Qed.

Lemma coeff_prob_update_ok pt ups : pt_ok pt -> Forall (o_ok (u_ok 8)) ups -> pt_ok (coeff_prob_update pt ups).
Proof.
  intros (P1 & P2 & P3 & P4) HU. repeat split; cbn [coeff_prob_update pt_coeff pt_mv pt_y_mode pt_uv_mode]; try assumption.
  apply apply_updates_ok; assumption.
Qed.

Lemma pt_update_ok pt h : pt_ok pt -> ifh_ok h -> pt_ok (pt_update pt h).
Proof.
  intros (P1 & P2 & P3 & P4) H. repeat split; cbn [pt_update pt_coeff pt_mv pt_y_mode pt_uv_mode].
  - apply apply_updates_ok; [assumption|apply (ifo_t h H)].
  - apply apply_updates_ok; [assumption|]. eapply Forall_impl; [|apply (ifo_m h H)]. intros o.
    apply o_ok_impl, half_prob_ok.
  - pose proof (ifo_y h H) as Y. destruct (if_intra_16x16_prob h) as [l|]; [|assumption]. apply (Y l eq_refl).
  - pose proof (ifo_uv h H) as Y. destruct (if_intra_chroma_prob h) as [l|]; [|assumption]. apply (Y l eq_refl).
Qed.

Lemma map_cbytes ps : map (fun p => bdec_init true (cbytes p)) ps = map (bdec_init true) (map cbytes ps).
Proof. rewrite map_map. reflexivity. Qed.

(** Container part, common to both kinds of frame. *)
Lemma frame_container key show w h first parts tbl W ms cs partial :
  0 <= w <= 16383 -> 0 <= h <= 16383 -> bytes_ok first -> Forall bytes_ok parts -> Forall (fun b => b <> []) parts ->
  (0 < length parts)%nat -> tokens_decode tbl W ms ms [] (map (bdec_init true) parts) = cs ->
  exists bytes, make_frame key show false false w h first parts = Some bytes /\ bytes_ok bytes /\
    (sizes_fit first parts bytes ->
     exists u, uncompressed_chunk (chunk_of bytes) w h partial = Ok u /\ uc_key u = key /\ uc_show u = show /\
       uc_experimental u = false /\ cbytes (uc_first u) = first /\
       frame_tokens tbl W (length parts) u ms = Ok cs).
Proof.
  intros Hw Hh Bf Bp Np Lp ET.
  assert (parts <> []) as HP by (intros ->; cbn in Lp; lia).
  assert (forall bytes, make_frame key show false false w h first parts = Some bytes -> bytes_ok bytes) as BO.
  { intros bytes. rewrite make_frame_bytes by assumption. intros EM. apply some_inj in EM. rewrite <- EM.
    apply bytes_ok_app; split; [apply head_ok|]. apply bytes_ok_app; split; [assumption|].
    apply bytes_ok_app. split; [apply length_bytes_ok|]. unfold bytes_ok. apply Forall_concat. exact Bp. }
  destruct (Z.lt_ge_cases (zlen first) (2 ^ 19)) as [L1|L1].
  2:{ destruct (make_frame key show false false w h first parts) as [bytes|] eqn:EM; [|rewrite make_frame_bytes in EM by assumption; discriminate].
      exists bytes. split; [reflexivity|]. split; [exact (BO _ eq_refl)|]. intros (S1 & _). lia. }
  destruct (Forall_Exists_dec (fun p => zlen p < 2 ^ 24) (fun p => Z_lt_dec _ _) (removelast parts)) as [L2|L2].
  2:{ destruct (make_frame key show false false w h first parts) as [bytes|] eqn:EM; [|rewrite make_frame_bytes in EM by assumption; discriminate].
      exists bytes. split; [reflexivity|]. split; [exact (BO _ eq_refl)|]. intros (_ & S2 & _). exfalso. apply Exists_exists in L2. destruct L2 as (p & Hp & N).
      apply N. exact (proj1 (Forall_forall _ _) S2 p Hp). }
  destruct (C12_container_round_trip key show false false w h first parts partial Hw Hh Bf Bp L1 L2) as (bytes & E & K).
  { destruct parts as [|p [|q r]]; cbn in Lp; [lia| |left; cbn; lia]. right. exists p. split; [reflexivity|].
    inversion Np; assumption. }
  { discriminate. }
  exists bytes. split; [exact E|]. split; [exact (BO _ E)|]. intros (_ & _ & S3). destruct (K S3) as (u & ps & E1 & E2 & E3 & E4 & _ & _ & E5 & E6 & E7).
  exists u. repeat split; try assumption. unfold frame_tokens. rewrite E6, map_cbytes, E7, ET. reflexivity.
Qed.

Theorem C11_key_frame_round_trip :
  forall (show : bool) (w h : Z) (hd : KeyFrameHeader) (ms : list mbinfo) (cs : list mbcoef) (partial : bool),
    0 < w <= 16383 -> 0 <= h <= 16383 ->
    kfh_ok hd -> key_frame_header_supported hd = true ->
    length ms = (mb_dim w * mb_dim h)%nat -> Forall (kf_mb_ok hd) ms -> coefs_ok ms cs ->
    exists first parts bytes,
      kf_first_partition hd (mb_dim w) ms = Some first /\
      serialize_frame_tokens (pt_coeff (coeff_prob_update default_pt (kf_token_prob_update hd)))
        (mb_dim w) (partition_count (kf_log2_partitions hd)) ms cs = Some parts /\
      key_frame_serialize default_pt show w h hd ms cs = Some bytes /\ bytes_ok bytes /\
      (sizes_fit first parts bytes ->
       exists u, uncompressed_chunk (chunk_of bytes) w h partial = Ok u /\ uc_key u = true /\ uc_show u = show /\
                 key_frame_parse w h u = Ok (hd, ms, cs)).
Proof.
  intros show w h hd ms cs partial Hw Hh HK HS HL HM [HC1 HC2].
  pose proof (mb_dim_pos w ltac:(lia)) as PW. set (W := mb_dim w) in *. set (H := mb_dim h) in *.
  pose proof (kfo_part hd HK) as HP. unfold u_ok in HP.
  pose proof (partition_count_pos (kf_log2_partitions hd) ltac:(lia)) as PN.
  set (n := partition_count (kf_log2_partitions hd)) in *.
  set (pt := coeff_prob_update default_pt (kf_token_prob_update hd)).
  assert (pt_ok pt) as (T1 & _) by (apply coeff_prob_update_ok; [exact default_pt_ok|apply (kfo_t hd HK)]).
  destruct (frame_tokens_round_trip (pt_coeff pt) W n ms cs T1 PW PN (eq_sym HC1) HC2) as (parts & EP & BP & NP & LP & DP).
  destruct (codes_kf_macroblocks hd W H ms HK PW HL HM) as (evs & EE & OE & PE).
  assert (Forall event_ok (key_frame_header_events hd ++ evs)) as OA by (apply Forall_app; split; [apply kfh_events_ok|exact OE]).
  destruct (bool_coder_ready true _ OA) as (first & EF & BF & _).
  destruct (frame_container true show w h first parts (pt_coeff pt) W ms cs partial ltac:(lia) Hh BF BP NP ltac:(lia) DP)
    as (bytes & EB & BB & KB).
  assert (kf_first_partition hd W ms = Some first) as EF' by (unfold kf_first_partition; rewrite EE; exact EF).
  exists first, parts, bytes. split; [exact EF'|]. split; [exact EP|]. split.
  { unfold key_frame_serialize. fold W pt n. rewrite EF', EP. exact EB. }
  split; [exact BB|]. intros SZ. destruct (KB SZ) as (u & E1 & E2 & E3 & E4 & E5 & E6). exists u. repeat split; try assumption.
  unfold key_frame_parse. rewrite E2, E4. cbn [negb]. unfold first_decoder. rewrite E5.
  destruct (bool_coder_ready (CORRUPTED_FIRST_PARTITION <=? uc_corruption u) _ OA) as (first' & EF2 & _ & R).
  assert (first' = first) as -> by congruence.
  destruct (parses_kfh hd HK _ _ R) as (d1 & ED1 & R1). rewrite ED1, HS. cbn [negb]. fold W H.
  rewrite <- (app_nil_r evs) in R1. destruct (PE _ _ R1) as (d2 & ED2 & _). rewrite ED2. fold pt n.
  rewrite LP in E6. rewrite E6. reflexivity.
Qed.

Theorem C11_inter_frame_round_trip :
  forall (pt0 : ProbabilityTables) (show : bool) (w h : Z) (hd : InterFrameHeader) (ms : list mbinfo) (cs : list mbcoef)
         (partial : bool),
    pt_ok pt0 -> 0 < w <= 16383 -> 0 <= h <= 16383 ->
    ifh_ok hd -> inter_frame_header_supported hd = true ->
    length ms = (mb_dim w * mb_dim h)%nat ->
    (forall i m, nth_error ms i = Some m -> if_mb_ok hd (mb_dim w) (mb_dim h) ms i m) -> coefs_ok ms cs ->
    exists first parts bytes,
      if_first_partition hd (pt_update pt0 hd) (mb_dim w) (mb_dim h) ms = Some first /\
      serialize_frame_tokens (pt_coeff (pt_update pt0 hd))
        (mb_dim w) (partition_count (if_log2_partitions hd)) ms cs = Some parts /\
      inter_frame_serialize pt0 show w h hd ms cs = Some bytes /\ bytes_ok bytes /\
      (sizes_fit first parts bytes ->
       exists u, uncompressed_chunk (chunk_of bytes) w h partial = Ok u /\ uc_key u = false /\ uc_show u = show /\ uc_experimental u = false /\
                 inter_frame_parse pt0 w h u = Ok (hd, ms, cs)).
Proof.
  intros pt0 show w h hd ms cs partial HT0 Hw Hh HK HS HL HM [HC1 HC2].
  pose proof (mb_dim_pos w ltac:(lia)) as PW. set (W := mb_dim w) in *. set (H := mb_dim h) in *.
  pose proof (ifo_part hd HK) as HP. unfold u_ok in HP.
  pose proof (partition_count_pos (if_log2_partitions hd) ltac:(lia)) as PN.
  set (n := partition_count (if_log2_partitions hd)) in *.
  set (pt := pt_update pt0 hd).
  assert (pt_ok pt) as TO by (apply pt_update_ok; assumption). destruct (TO) as (T1 & _).
  destruct (frame_tokens_round_trip (pt_coeff pt) W n ms cs T1 PW PN (eq_sym HC1) HC2) as (parts & EP & BP & NP & LP & DP).
  destruct (codes_if_macroblocks hd pt W H ms HK TO PW HL HM) as (evs & EE & OE & PE).
  assert (Forall event_ok (inter_frame_header_events hd ++ evs)) as OA by (apply Forall_app; split; [apply ifh_events_ok|exact OE]).
  destruct (bool_coder_ready true _ OA) as (first & EF & BF & _).
  destruct (frame_container false show w h first parts (pt_coeff pt) W ms cs partial ltac:(lia) Hh BF BP NP ltac:(lia) DP)
    as (bytes & EB & BB & KB).
  assert (if_first_partition hd pt W H ms = Some first) as EF' by (unfold if_first_partition; rewrite EE; exact EF).
  exists first, parts, bytes. split; [exact EF'|]. split; [exact EP|]. split.
  { unfold inter_frame_serialize. fold W H pt n. rewrite EF', EP. exact EB. }
  split; [exact BB|]. intros SZ. destruct (KB SZ) as (u & E1 & E2 & E3 & E4 & E5 & E6). exists u. repeat split; try assumption.
  unfold inter_frame_parse. rewrite E2. unfold first_decoder. rewrite E5.
  destruct (bool_coder_ready (CORRUPTED_FIRST_PARTITION <=? uc_corruption u) _ OA) as (first' & EF2 & _ & R).
  assert (first' = first) as -> by congruence.
  destruct (parses_ifh hd HK _ _ R) as (d1 & ED1 & R1). rewrite ED1, HS. cbn [negb]. fold W H pt.
  rewrite <- (app_nil_r evs) in R1. destruct (PE _ _ R1) as (d2 & ED2 & _). rewrite ED2. fold n.
  rewrite LP in E6. rewrite E6. reflexivity.
Qed.

(** Whatever bytes a frame was parsed from, it is a frame of the kind above;
    so it can be serialised again and is then parsed to the same frame. *)
Lemma frame_tokens_ok tbl W n u ms cs : frame_tokens tbl W n u ms = Ok cs -> coefs_ok ms cs.
Proof.
  unfold frame_tokens. destruct (dct_partitions u n) as [ps|[]]; try discriminate. intros E. injection E as <-.
  destruct (tokens_decode_ok tbl W ms ms [] (map (fun p => bdec_init true (cbytes p)) ps)) as (new & E & F).
  rewrite E. cbn [app]. split; [symmetry; exact (Forall2_len _ _ _ F)|]. apply Forall2_nth. exact F.
Qed.

Theorem C11_parsed_key_frame_is_serialisable :
  forall w h u hd ms cs,
    0 < w -> key_frame_parse w h u = Ok (hd, ms, cs) ->
    kfh_ok hd /\ key_frame_header_supported hd = true /\ length ms = (mb_dim w * mb_dim h)%nat /\
    Forall (kf_mb_ok hd) ms /\ coefs_ok ms cs.
Proof.
  intros w h u hd ms cs Hw E. unfold key_frame_parse in E.
  destruct (negb (uc_key u)); [discriminate|]. destruct (uc_experimental u); [discriminate|].
  pose proof (yields_kfh (first_decoder u)) as Y1.
  destruct (key_frame_header_decode (first_decoder u)) as [hd' d]. cbn [fst] in Y1.
  destruct (key_frame_header_supported hd') eqn:ES; [|discriminate]. cbn [negb] in E.
  pose proof (yields_kf_macroblocks hd' (mb_dim w) (mb_dim h) d) as Y2.
  destruct (kf_macroblocks_decode hd' (mb_dim w) (mb_dim h) d) as [ms' d2]. cbn [fst] in Y2.
  destruct (frame_tokens _ _ _ _ _) as [cs'|] eqn:ET; [|discriminate]. cbn [rbind] in E. injection E as <- <- <-.
  apply frame_tokens_ok in ET. destruct Y2. tauto.
Qed.

Theorem C11_parsed_inter_frame_is_serialisable :
  forall pt w h u hd ms cs,
    0 < w -> inter_frame_parse pt w h u = Ok (hd, ms, cs) ->
    ifh_ok hd /\ inter_frame_header_supported hd = true /\ length ms = (mb_dim w * mb_dim h)%nat /\
    (forall i m, nth_error ms i = Some m -> if_mb_ok hd (mb_dim w) (mb_dim h) ms i m) /\ coefs_ok ms cs.
Proof.
  intros pt w h u hd ms cs Hw E. unfold inter_frame_parse in E.
  destruct (uc_key u); [discriminate|].
  pose proof (yields_ifh (first_decoder u)) as Y1.
  destruct (inter_frame_header_decode (first_decoder u)) as [hd' d]. cbn [fst] in Y1.
  destruct (inter_frame_header_supported hd') eqn:ES; [|discriminate]. cbn [negb] in E.
  pose proof (yields_if_macroblocks hd' (pt_update pt hd') (mb_dim w) (mb_dim h) (mb_dim_pos w Hw) d) as Y2.
  destruct (if_macroblocks_decode hd' (pt_update pt hd') (mb_dim w) (mb_dim h) d) as [ms' d2]. cbn [fst] in Y2.
  destruct (frame_tokens _ _ _ _ _) as [cs'|] eqn:ET; [|discriminate]. cbn [rbind] in E. injection E as <- <- <-.
  apply frame_tokens_ok in ET. destruct Y2. tauto.
Qed.

(** ** Example: a 40 x 20 key frame in two partitions and an inter frame in
    four, with coefficients in all planes, from parsing pseudo-random bytes. *)
Fixpoint example_frame_bytes_from (seed : Z) (n : nat) : list Z :=
  match n with
  | O => []
  | S n' => seed / 65536 mod 256 :: example_frame_bytes_from ((seed * 1103515245 + 12345) mod 2147483648) n'
  end.
Definition example_frame_bytes (n : nat) : list Z := example_frame_bytes_from 777777777 n.
Definition example_kf_hd :=
  mkKFH false false (Some example_us) false 0 0 None 1 (mkQI 0 None None None None None) true (repeat (Some 90) 1056) (Some 128).
Definition example_if_hd :=
  mkIFH (Some example_us) false 0 0 None 2 (mkQI 0 None None None None None) false false (Some 1) (Some 2)
        true false false true (repeat (Some 110) 1056) (Some 128) 120 100 128 None None (repeat None 38).
Definition example_kf_ms := fst (kf_macroblocks_decode example_kf_hd 3 2 (bdec_init true (example_frame_bytes 100))).
Definition example_if_ms := fst (if_macroblocks_decode example_if_hd default_pt 3 2 (bdec_init true (example_frame_bytes 100))).
Definition example_kf_cs := tokens_decode (repeat 90 1056) 3 example_kf_ms example_kf_ms []
  (map (bdec_init true) [example_frame_bytes 1000; example_frame_bytes 700]).
Definition example_if_cs := tokens_decode (repeat 110 1056) 3 example_if_ms example_if_ms []
  (map (bdec_init true) [example_frame_bytes 800; example_frame_bytes 600; example_frame_bytes 3; example_frame_bytes 7]).

Lemma repeat_some_ok (P : Z -> Prop) x n : P x -> Forall (o_ok P) (repeat (Some x) n).
Proof. intros H. apply Forall_forall. intros y Hy. apply repeat_spec in Hy. subst. intros a [= <-]. exact H. Qed.
Lemma example_kf_hd_ok : kfh_ok example_kf_hd.
Proof.
  constructor; cbn -[Z.pow repeat]; unfold o_ok, u_ok; try lia;
    try (intros a E; discriminate); try (split; congruence); try reflexivity;
    try (apply repeat_none_ok); try (apply repeat_some_ok; lia); try (intros a E; injection E as <-; try exact example_us_ok; lia).
  constructor; cbn -[Z.pow]; unfold o_ok, u_ok; try lia; intros a E; discriminate.
Qed.
Lemma example_if_hd_ok : ifh_ok example_if_hd.
Proof.
  constructor; cbn -[Z.pow repeat]; unfold o_ok, u_ok; try lia;
    try (intros a E; discriminate); try (split; congruence); try reflexivity;
    try (apply repeat_none_ok); try (apply repeat_some_ok; lia); try (intros a E; injection E as <-; try exact example_us_ok; lia).
  constructor; cbn -[Z.pow]; unfold o_ok, u_ok; try lia; intros a E; discriminate.
Qed.

Lemma coefs_ok_decoded tbl W ms ds : coefs_ok ms (tokens_decode tbl W ms ms [] ds).
Proof.
  destruct (tokens_decode_ok tbl W ms ms [] ds) as (new & E & F). rewrite E. cbn [app].
  split; [symmetry; exact (Forall2_len _ _ _ F)|]. apply Forall2_nth. exact F.
Qed.

Definition nonzero_blocks (cs : list mbcoef) : list (Z * Z * Z) :=
  let count l := zlen (filter snd l) in map (fun c => (count (co_y c), count (co_u c), count (co_v c))) cs.

Definition reparsed_modes (o : option (list Z)) : option (list Z) :=
  match o with
  | Some bytes => match uncompressed_chunk (chunk_of bytes) 40 20 false with
                  | Ok u => match key_frame_parse 40 20 u with Ok r => Some (map mb_ymode (snd (fst r))) | Err _ => None end
                  | Err _ => None
                  end
  | None => None
  end.

Example C11_key_example :
  kfh_ok example_kf_hd /\ key_frame_header_supported example_kf_hd = true /\
  length example_kf_ms = (mb_dim 40 * mb_dim 20)%nat /\ Forall (kf_mb_ok example_kf_hd) example_kf_ms /\
  coefs_ok example_kf_ms example_kf_cs /\
  existsb (fun '(a, b, c) => (0 <? a) && (0 <? b) && (0 <? c)) (nonzero_blocks example_kf_cs) = true /\
  reparsed_modes (key_frame_serialize default_pt true 40 20 example_kf_hd example_kf_ms example_kf_cs) =
    Some (map mb_ymode example_kf_ms).
Proof.
  split; [exact example_kf_hd_ok|]. split; [reflexivity|].
  destruct (yields_kf_macroblocks example_kf_hd 3 2 (bdec_init true (example_frame_bytes 100))) as [HL HF].
  split; [exact HL|]. split; [exact HF|]. split; [apply coefs_ok_decoded|]. split; vm_compute; reflexivity.
Qed.

Example C11_inter_example :
  ifh_ok example_if_hd /\ pt_ok default_pt /\ inter_frame_header_supported example_if_hd = true /\
  length example_if_ms = (mb_dim 40 * mb_dim 20)%nat /\
  (forall i m, nth_error example_if_ms i = Some m -> if_mb_ok example_if_hd (mb_dim 40) (mb_dim 20) example_if_ms i m) /\
  coefs_ok example_if_ms example_if_cs /\
  existsb (fun '(a, b, c) => (0 <? a) && (0 <? b) && (0 <? c)) (nonzero_blocks example_if_cs) = true /\
  exists bytes, inter_frame_serialize default_pt true 40 20 example_if_hd example_if_ms example_if_cs = Some bytes /\ zlen bytes < 4000.
Proof.
  split; [exact example_if_hd_ok|]. split; [exact default_pt_ok|]. split; [reflexivity|].
  destruct (yields_if_macroblocks example_if_hd default_pt 3 2 ltac:(lia) (bdec_init true (example_frame_bytes 100))) as [HL HF].
  split; [exact HL|]. split; [exact HF|]. split; [apply coefs_ok_decoded|]. split; [vm_compute; reflexivity|].
  eexists. split; vm_compute; reflexivity.
Qed.

Print Assumptions C11_key_frame_round_trip.
Print Assumptions C11_inter_frame_round_trip.
Print Assumptions C11_parsed_key_frame_is_serialisable.
Print Assumptions C11_parsed_inter_frame_is_serialisable.
