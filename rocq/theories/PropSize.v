(** C73: the length fields of the container cannot overflow for frames of
    moderate size. *)
From Verif Require Import Base BoolCoderModel ParserModel Tables TreeModel HeaderModel HeaderProofs MVModel MBModel MBProofs MBDecoded TokenModel ChunkModel ChunkProofs ContainerModel ContainerProofs PropContainer FrameModel FrameProofs PropFrame.
From Verif Require Import QuantModel RasterModel RasterProofs TransformModel PredictModel LoopFilterModel ReconModel StateModel StateProofs PropState EncoderModel PropEncoder SerialModel SerialProofs PropSerial TerminateModel PropTerminate PropReencode ZeroModel PropZero.
From Verif Require Import ResidueModel SafeRasterModel MotionModel VarianceModel EncodeModel SearchModel CountsModel ReencodeModel EncoderApiModel ReencodeProofs PropEncode EncoderApiProofs PropEncoderApi SizeProofs.

(** ** Statements *)

(** Number of macroblocks of a picture. *)
Definition blocks_of (w h : Z) : Z := ((w + 15) / 16) * ((h + 15) / 16).
Lemma blocks_of_eq w h : 0 < w -> 0 <= h -> macroblocks w h = blocks_of w h.
Proof. intros. unfold macroblocks, blocks_of, mb_dim. rewrite Nat2Z.inj_mul, !Z2Nat.id by lia. reflexivity. Qed.

(** The boolean encoder: at most seven bits per bool, and 28 bytes. *)
Theorem C73_coder : forall evs out, bool_encode evs = Some out -> 8 * zlen out <= 7 * Z.of_nat (length evs) + 224.
Proof. exact encode_size. Qed.

(** Every key frame that fits the format is written, and parsed back as it was,
    if it has at most 2514 macroblocks, or at most 4700 and one partition. *)
Theorem C73_key_frame :
  forall (show : bool) (w h : Z) (hd : KeyFrameHeader) (ms : list mbinfo) (cs : list mbcoef) (partial : bool),
    0 < w <= 16383 -> 0 <= h <= 16383 -> kfh_ok hd -> key_frame_header_supported hd = true ->
    length ms = (mb_dim w * mb_dim h)%nat -> Forall (kf_mb_ok hd) ms -> coefs_ok ms cs ->
    blocks_of w h <= 2514 \/ kf_log2_partitions hd = 0 /\ blocks_of w h <= 4700 ->
    exists bytes u, key_frame_serialize default_pt show w h hd ms cs = Some bytes /\ bytes_ok bytes /\
      uncompressed_chunk (chunk_of bytes) w h partial = Ok u /\ uc_key u = true /\ uc_show u = show /\ key_frame_parse w h u = Ok (hd, ms, cs).
Proof.
  intros show w h hd ms cs partial Hw Hh K S LM F CO HB. rewrite <- blocks_of_eq in HB by lia.
  destruct (C11_key_frame_round_trip show w h hd ms cs partial Hw Hh K S LM F CO) as (first & parts & bytes & E1 & E2 & E3 & BB & R).
  destruct R as (u & R); [|exists bytes, u; tauto]. unfold key_frame_serialize in E3. cbv zeta in E3. rewrite E1, E2 in E3.
  exact (key_fits _ _ _ _ _ _ _ _ _ _ Hw Hh K LM CO E1 E2 E3 HB).
Qed.

(** The same for inter frames of at most 1320 macroblocks, or at most 4700 if
    there is one partition and no macroblock is split. *)
Theorem C73_inter_frame :
  forall (pt : ProbabilityTables) (show : bool) (w h : Z) (hd : InterFrameHeader) (ms : list mbinfo) (cs : list mbcoef) (partial : bool),
    pt_ok pt -> 0 < w <= 16383 -> 0 <= h <= 16383 -> ifh_ok hd -> inter_frame_header_supported hd = true ->
    length ms = (mb_dim w * mb_dim h)%nat -> (forall i m, nth_error ms i = Some m -> if_mb_ok hd (mb_dim w) (mb_dim h) ms i m) -> coefs_ok ms cs ->
    blocks_of w h <= 1320 \/ if_log2_partitions hd = 0 /\ blocks_of w h <= 4700 /\ Forall (fun m => mb_ymode m <> SPLITMV) ms ->
    exists bytes u, inter_frame_serialize pt show w h hd ms cs = Some bytes /\ bytes_ok bytes /\
      uncompressed_chunk (chunk_of bytes) w h partial = Ok u /\ uc_key u = false /\ uc_show u = show /\ inter_frame_parse pt w h u = Ok (hd, ms, cs).
Proof.
  intros pt show w h hd ms cs partial PT Hw Hh K S LM F CO HB. rewrite <- blocks_of_eq in HB by lia.
  destruct (C11_inter_frame_round_trip pt show w h hd ms cs partial PT Hw Hh K S LM F CO) as (first & parts & bytes & E1 & E2 & E3 & BB & R).
  destruct R as (u & R); [|exists bytes, u; tauto]. unfold inter_frame_serialize in E3. cbv zeta in E3. rewrite E1, E2 in E3.
  exact (inter_fits_container _ _ _ _ _ _ _ _ _ _ _ Hw Hh K LM CO (intra_sixteen _ _ _ _ F) E1 E2 E3 HB).
Qed.

(** What any encoder run writes is within the limits. *)
Theorem C73_run : forall w h l e, 0 < w <= 16383 -> 0 < h <= 16383 -> blocks_of w h <= 1320 ->
  ds_w (en_state e) = w -> ds_h (en_state e) = h -> Forall (item_ok w h) l -> run_sizes_ok w h e l.
Proof.
  intros w h l e Hw Hh HB. rewrite <- blocks_of_eq in HB by lia. revert e. induction l as [|[[[ts f] blank] scratch] l IH]; intros e Ew Eh F; [exact I|]. cbn [run_sizes_ok].
  assert (WR : writable w h f) by (apply Forall_inv in F; apply F). apply Forall_inv_tail in F. rename F into F'. destruct (write_frame (try_frames e ts) f blank scratch) as [[e' bytes]|] eqn:EW; [|exact I].
  destruct (try_state_w ts (en_state e)) as [A B]. destruct (write_written _ _ _ _ _ _ EW) as (WN & WS & _). cbn [try_frames en_state] in *. rewrite A, B, Ew, Eh in WN.
  split.
  - apply (small_sizes (fun _ _ : unit => true) tt); [lia|lia|congruence|congruence|exact WR| |right; left; exact HB]. rewrite WS in WN. exact WN.
  - apply IH; [| |exact F']; rewrite WS; destruct f as [? hd ? ? ?|? hd ? ? ?]; cbv beta iota zeta delta [update_state_key update_state_inter].
    all: try (destruct (kf_refresh_entropy_probs hd)); try (destruct (if_refresh_entropy_probs hd)); cbn; congruence.
Qed.

(** xc-terminate-chunk (C59) without a condition on lengths. *)
Theorem C73_terminated :
  forall w h d l, 0 < w <= 16383 -> 0 < h <= 16383 -> blocks_of w h <= 1320 -> decoder_good w h d -> dc_conceal d = false ->
  Forall (frame_input w h) l -> l <> [] -> forallb decoded (snd (run_frames d (map as_chunk l))) = true ->
  exists outs d2, terminate d l = Ok (outs, d2) /\ length outs = length l /\
    forall l', map fst l' = outs -> Forall (fun f => raster_for w h (snd f)) l' ->
     run_frames d (map as_chunk l') = (d2, snd (run_frames d (map as_chunk l))) /\
     dc_state d2 = dc_state (fst (run_frames d (map as_chunk l))) /\
     let r := last_picture (snd (run_frames d (map as_chunk l))) (rf_last (dc_refs d)) in dc_refs d2 = mkRefs r r r.
Proof.
  intros w h d l Hw Hh HB G HC F NE D. rewrite <- blocks_of_eq in HB by lia.
  destruct (C59_terminated_video w h d l Hw Hh G HC F NE D) as (outs & d2 & E & _ & LN & _ & _ & K). exists outs, d2. split; [exact E|]. split; [exact LN|].
  apply K. apply Forall_forall. intros b _. right. exact HB.
Qed.

(** Removal of residues (C72) without a condition on lengths. *)
Theorem C73_without_residues :
  forall w h d l, 0 < w <= 16383 -> 0 < h <= 16383 -> blocks_of w h <= 1320 -> decoder_good w h d -> dc_conceal d = false ->
  Forall (frame_input w h) l -> forallb decoded (snd (run_frames d (map as_chunk l))) = true ->
  Forall2 (fun pt f => ~ inter_without_skip pt w h (fst f)) (tables_before d l) l ->
  exists outs, zero_video d l = (outs, Ok (fst (run_frames d (map as_chunk l)))) /\ length outs = length l /\
     Forall2 (fun pt x => without_residues pt w h (fst x) (snd x)) (tables_before d l) (combine (map fst l) outs) /\
     forall d2 l2, decoder_good w h d2 -> dc_conceal d2 = false -> dc_state d2 = dc_state d -> map fst l2 = outs -> Forall (fun f => raster_for w h (snd f)) l2 ->
     dc_state (fst (run_frames d2 (map as_chunk l2))) = dc_state (fst (run_frames d (map as_chunk l))) /\
     Forall2 same_visibility (snd (run_frames d (map as_chunk l))) (snd (run_frames d2 (map as_chunk l2))).
Proof.
  intros w h d l Hw Hh HB G HC F D N. rewrite <- blocks_of_eq in HB by lia.
  destruct (C72_video w h d l Hw Hh G HC F D N) as (outs & E & LN & _ & K). exists outs. split; [exact E|]. split; [exact LN|].
  apply K. apply Forall_forall. intros b _. right. exact HB.
Qed.

(** A new encoder for pictures up to 4700 macroblocks: whatever calls are made,
    a new decoder shows as many pictures as there are chunks and ends in step. *)
Theorem C73_encoder : forall Q (gt : Q -> Q -> bool) minus_one ssim w h l a r two_pass realtime junk d scratches,
  w mod 16 = 0 -> 4 <= w <= 3968 -> 4 <= h <= 3968 -> blocks_of w h <= 4700 -> raster_for w h r -> (forall i, zlen (junk i) = (w + 512) * (h + 512)) ->
  new_api w h r two_pass realtime empty_key_header empty_inter_header junk = Some a -> Forall (item_fits w h) l -> decoder_good w h d ->
  exists a' outs, api_run gt minus_one ssim a l = Some (a', outs) /\
    Forall2 (fun x out => out <> None <-> same_size w h (snd x)) l outs /\
    (length scratches = length (sent outs) -> Forall (raster_for w h) scratches ->
     exists d' pictures, run_frames d (combine (map chunk_of (sent outs)) scratches) = (d', map (Output true) pictures) /\
       length pictures = length (sent outs) /\ (pictures <> [] -> in_step a' d' /\ last pictures r = reconstruction a')).
Proof.
  intros Q gt minus_one ssim w h l a r two_pass realtime junk d scratches W16 Hw Hh HB R J EA F GD. rewrite <- blocks_of_eq in HB by lia.
  destruct C71_empty_kept as [KK KI]. destruct (C71_new Q w h r two_pass realtime _ _ junk W16 Hw Hh R KK KI J) as (a0 & E0 & GA & HA). rewrite EA in E0. apply some_inj in E0. subst a0.
  assert (OP : one_partition a).
  { unfold new_api in EA. destruct (_ || _); [discriminate|]. cbv zeta in EA. destruct (safe_refs _ _); [|discriminate]. cbn [obind] in EA. apply some_inj in EA. subst a. split; reflexivity. }
  destruct (C71_run Q gt minus_one ssim w h l a W16 ltac:(lia) ltac:(lia) GA F) as (a' & outs & E & GA' & FO & BB & HA' & _ & K).
  exists a', outs. split; [exact E|]. split; [exact FO|]. intros LS FS.
  destruct (K d scratches GD ltac:(congruence) LS FS) as (d' & pics & E1 & LP & G' & IS & LA).
  { apply Forall_forall. intros b _. right. right. auto. }
  exists d', pics. split; [exact E1|]. split; [exact LP|]. intros NE. split.
  - apply IS. rewrite HA', HA. destruct (sent outs); [destruct pics; [congruence|discriminate]|reflexivity].
  - specialize (LA NE). rewrite <- LA. destruct pics as [|p pics]; [congruence|]. clear. revert p. induction pics as [|x l IH]; intros p; [reflexivity|apply IH].
Qed.

(** ** Examples *)

(** The bound of the coder is reached but for the constant: 64 bools that cost
    seven bits each. *)
Example C73_coder_example : match bool_encode (repeat (false, 1) 64) with Some out => zlen out | None => 0 end = 58 /\ 7 * 64 <= 8 * 58 <= 7 * 64 + 224.
Proof. split; [vm_compute; reflexivity|lia]. Qed.

(** Sizes that are within the limits, and one that is not. *)
Example C73_sizes_example : blocks_of 640 480 = 1200 /\ blocks_of 1280 720 = 3600 /\ blocks_of 854 480 = 1620 /\ blocks_of 1920 1080 = 8160.
Proof. repeat split. Qed.

(** Frames that meet the hypotheses: those of C11, in two and four partitions. *)
Example C73_frames_example :
  (kfh_ok example_kf_hd /\ key_frame_header_supported example_kf_hd = true /\ length example_kf_ms = (mb_dim 40 * mb_dim 20)%nat /\
   Forall (kf_mb_ok example_kf_hd) example_kf_ms /\ coefs_ok example_kf_ms example_kf_cs /\ blocks_of 40 20 = 6) /\
  (pt_ok default_pt /\ ifh_ok example_if_hd /\ inter_frame_header_supported example_if_hd = true /\ length example_if_ms = (mb_dim 40 * mb_dim 20)%nat /\
   (forall i m, nth_error example_if_ms i = Some m -> if_mb_ok example_if_hd (mb_dim 40) (mb_dim 20) example_if_ms i m) /\ coefs_ok example_if_ms example_if_cs).
Proof.
  pose proof C11_key_example as (A1 & A2 & A3 & A4 & A5 & _). pose proof C11_inter_example as (B1 & B2 & B3 & B4 & B5 & B6 & _).
  split; [|tauto]. split; [exact A1|]. split; [exact A2|]. split; [exact A3|]. split; [exact A4|]. split; [exact A5|reflexivity].
Qed.

(** Videos: the run of C28; that of C59 and C72; the calls of C71. *)
Example C73_videos_example :
  (blocks_of 20 10 = 2 /\ ds_w (en_state PropEncoder.ex_encoder) = 20 /\ ds_h (en_state PropEncoder.ex_encoder) = 10 /\ Forall (item_ok 20 10) PropEncoder.ex_run) /\
  (decoder_good 20 10 decoder_two /\ dc_conceal decoder_two = false /\ Forall (frame_input 20 10) video /\ video <> [] /\
   forallb decoded (snd (run_frames decoder_two (map as_chunk video))) = true) /\
  (blocks_of 32 16 = 2 /\ raster_for 32 16 ex_r32 /\ Forall (item_fits 32 16) ex_calls /\ decoder_good 32 16 (new_decoder 32 16 ex_r32) /\
   exists a : @api Z, new_api 32 16 ex_r32 true true empty_key_header empty_inter_header (fun _ => ex_junk) = Some a).
Proof.
  pose proof C28_example as (_ & _ & A & _). pose proof C59_example as (V1 & V2 & V3 & _). pose proof C71_example as ((a & E & _) & B1 & B2 & _).
  split; [split; [reflexivity|]; split; [reflexivity|]; split; [reflexivity|exact A]|].
  split; [|split; [reflexivity|]; split; [exact ex_r32_for|]; split; [exact B1|]; split; [exact B2|exists a; exact E]].
  split; [exact V1|]. split; [reflexivity|]. split; [exact V2|]. split; [discriminate|exact V3].
Qed.

Print Assumptions C73_coder.
Print Assumptions C73_key_frame.
Print Assumptions C73_inter_frame.
Print Assumptions C73_run.
Print Assumptions C73_terminated.
Print Assumptions C73_without_residues.
Print Assumptions C73_encoder.
