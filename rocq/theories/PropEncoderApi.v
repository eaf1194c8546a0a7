(** C71: the encoder's calls give a stream that a decoder follows exactly. *)
From Verif Require Import Base BoolCoderModel ParserModel Tables TreeModel HeaderModel MVModel MBModel TokenModel ChunkModel ContainerModel FrameModel.
From Verif Require Import QuantModel RasterModel TransformModel PredictModel LoopFilterModel ReconModel StateModel EncoderModel.
From Verif Require Import ResidueModel SafeRasterModel MotionModel VarianceModel EncodeModel SearchModel CountsModel ReencodeModel EncoderApiModel.
From Verif Require Import PropState HeaderProofs MBProofs TokenProofs FrameProofs RasterProofs PropQuant PropTransform PredictProofs PropInter PropIntra PropLoopFilter PropFrame.
From Verif Require Import ResidueProofs PropResidue PropVariance ReconProofs PropPicture PropRecon StateProofs PropEncoder PropSafeRaster PropMotion EncodeProofs EncodeMBProofs PropSearch PropEncode PropCounts ReencodeProofs PropReencode EncoderApiProofs.

(** ** Statements *)

(** A decoder in the state and with the references that export_decoder gives
    (without segmentation, see C28). *)
Definition in_step {Q} (a : @api Q) (d : decoder) : Prop :=
  (dc_state d, dc_refs d) = export_decoder a /\ ds_seg (dc_state d) = None.

(** The picture the encoder keeps as last reference. *)
Definition reconstruction {Q} (a : @api Q) : raster := rf_last (snd (export_decoder a)).

Definition same_size (w h : Z) (j : job) : Prop := ra_dw (jb_raster j) = w /\ ra_dh (jb_raster j) = h.
Definition quantiser_fits (c : call) : Prop := match c with WithQuantizer y => 0 <= y <= 127 | _ => True end.

(** Which quantiser a call uses: the given one; 0 or 127 for a minimum quality
    (see C45); one near the last for a size. *)
Definition quantiser_of {Q} (a : @api Q) (c : call) (y : Z) : Prop :=
  match c with
  | WithQuantizer y0 => y = y0
  | WithMinimumSsim zero_vs_minimum => y = match zero_vs_minimum with Below => 0 | _ => 127 end
  | WithTargetSize _ _ => 4 <= y <= 127 /\ forall l, en_qi (ap_enc a) = Some l -> l - 16 <= y <= l + 16
  end.

(** A chunk is short enough for the length fields of the container. *)
Definition short_chunk (bytes : list Z) : Prop := zlen bytes < 2 ^ 19.

Lemma in_step_lockstep {Q} (a : @api Q) d w h : api_good w h a -> (in_step a d <-> lockstep (ap_enc a) d).
Proof.
  intros G. unfold in_step, lockstep, export_decoder. split.
  - intros [E S]. apply pair_equal_spec in E. destruct E as [E1 E2]. rewrite E1 in S. auto.
  - intros (E1 & E2 & S). rewrite E1, E2. auto.
Qed.

(** One call with a picture of the right size: it returns bytes; the encoder
    can be used again; the frame is a key frame exactly if the encoder has no
    state yet; it has the quantiser the call asks for; a decoder that is in
    step (or any, for a key frame) shows the reconstruction that the encoder
    keeps and is in step afterwards; the recorded quality is the one of the
    picture that the decoder shows, unless some quality is not above -1.0. *)
Theorem C71_call : forall Q (gt : Q -> Q -> bool) minus_one ssim w h a c j,
  w mod 16 = 0 -> 0 < w <= 3968 -> 0 < h <= 3968 -> api_good w h a -> job_ok w h j -> quantiser_fits c ->
  exists a' bytes f y, api_call gt minus_one ssim a c j = Ok (a', bytes) /\ api_good w h a' /\ ap_has a' = true /\ bytes_ok bytes /\
    written (ds_pt (en_state (ap_enc a'))) w h f bytes /\ is_key f = negb (ap_has a) /\ frame_qi f = mkQI y None None None None None /\ quantiser_of a c y /\
    (ap_ssim a' = Some (ssim (reconstruction a') (jb_raster j)) \/ ap_ssim a' = Some minus_one /\ exists r, gt (ssim r (jb_raster j)) minus_one = false) /\ (one_partition a -> one_partition a') /\
    forall d scratch, decoder_good w h d -> (ap_has a = true -> in_step a d) -> raster_for w h scratch -> fits_container w h a bytes ->
      exists d', get_frame_output d (chunk_of bytes) scratch = (d', Output true (reconstruction a')) /\ in_step a' d' /\ decoder_good w h d'.
Proof.
  intros Q gt minus_one ssim w h a c j W16 Hw Hh G JO QF.
  destruct (call_ok_main gt minus_one ssim w h a c j W16 Hw Hh G JO QF) as (a' & f & bytes & y & E & GA & HA & K & QI & U & BY & REC & OP & BB & (WN & _) & DEC).
  exists a', bytes, f, y. split; [exact E|]. split; [exact GA|]. split; [exact HA|]. split; [exact BB|]. split; [exact WN|]. split; [exact K|].
  split; [|split; [|split; [exact REC|split; [exact OP|]]]].
  - rewrite QI. unfold only_y_ac. do 2 f_equal. unfold wrap. apply Z.mod_small. lia.
  - destruct c; cbn [uses quantiser_of] in *; try exact U. unfold allowed in U. destruct U as [U1 U2]. split; [exact U1|]. intros l El. rewrite El in U2. exact U2.
  - intros d scratch GD IS HS SH. destruct (DEC d scratch GD) as (d' & E1 & L1 & G1); try assumption.
    { intros N. apply Bool.negb_false_iff in N. specialize (IS N). apply (in_step_lockstep a d w h G) in IS. destruct IS as (I1 & I2 & I3). rewrite I1, I2. auto. }
    exists d'. split; [exact E1|]. split; [|exact G1]. apply (in_step_lockstep a' d' w h GA). exact L1.
Qed.

(** A picture of another size: an exception, whatever the state. (The model of
    a call that throws keeps the encoder, see [api_run].) *)
Theorem C71_other_size : forall Q (gt : Q -> Q -> bool) minus_one ssim w h a c j,
  api_good w h a -> ~ same_size w h j -> api_call gt minus_one ssim a c j = Err Scaling.
Proof.
  intros Q gt minus_one ssim w h a c j [[[Ew Eh _ _ _] _ _ _ _] _ _ _ _ _] N. unfold api_call. rewrite Ew, Eh.
  destruct (Z.eqb_spec w (ra_dw (jb_raster j))); destruct (Z.eqb_spec h (ra_dh (jb_raster j))); cbn [andb negb]; try reflexivity.
  exfalso. apply N. split; congruence.
Qed.

(** What is sent after a run of calls. *)
Definition sent (outs : list (option (list Z))) : list (list Z) := flat_map (fun o => match o with Some b => [b] | None => [] end) outs.

Definition item_fits (w h : Z) (x : call * job) : Prop := same_size w h (snd x) -> job_ok w h (snd x) /\ quantiser_fits (fst x).

Lemma size_dec w h j : {same_size w h j} + {~ same_size w h j}.
Proof.
  unfold same_size. destruct (Z.eq_dec (ra_dw (jb_raster j)) w); [|right; tauto]. destruct (Z.eq_dec (ra_dh (jb_raster j)) h); [left; tauto|right; tauto].
Qed.

Lemma fits_later {Q} w h (a a' : @api Q) l : (one_partition a -> one_partition a') -> Forall (fits_container w h a) l -> Forall (fits_container w h a') l.
Proof. intros O F. eapply Forall_impl; [|exact F]. intros b [L|[L|[P L]]]; [left; exact L|right; left; exact L|right; right; auto]. Qed.

(** Any sequence of calls: none but those with a picture of another size
    throws; a decoder that is given the chunks in order shows as many pictures
    as there are chunks and ends in step; its last picture is the encoder's
    reconstruction. *)
Theorem C71_run : forall Q (gt : Q -> Q -> bool) minus_one ssim w h l a,
  w mod 16 = 0 -> 0 < w <= 3968 -> 0 < h <= 3968 -> api_good w h a -> Forall (item_fits w h) l ->
  exists a' outs, api_run gt minus_one ssim a l = Some (a', outs) /\ api_good w h a' /\
    Forall2 (fun x out => out <> None <-> same_size w h (snd x)) l outs /\ Forall bytes_ok (sent outs) /\
    ap_has a' = (ap_has a || negb (length (sent outs) =? 0)%nat) /\ (one_partition a -> one_partition a') /\
    forall d scratches, decoder_good w h d -> (ap_has a = true -> in_step a d) ->
      length scratches = length (sent outs) -> Forall (raster_for w h) scratches -> Forall (fits_container w h a) (sent outs) ->
      exists d' pictures, run_frames d (combine (map chunk_of (sent outs)) scratches) = (d', map (Output true) pictures) /\
        length pictures = length (sent outs) /\ decoder_good w h d' /\ (ap_has a' = true -> in_step a' d') /\
        (pictures <> [] -> last pictures (reconstruction a) = reconstruction a').
Proof.
  intros Q gt minus_one ssim w h l. induction l as [|[c j] l IH]; intros a W16 Hw Hh G F.
  - exists a, []. cbn [api_run sent flat_map length]. split; [reflexivity|]. split; [exact G|]. split; [constructor|]. split; [constructor|]. split; [rewrite orb_false_r; reflexivity|]. split; [auto|].
    intros d [|] GD IS LS _ _; [|discriminate]. exists d, []. cbn. auto 8.
  - inversion F as [|? ? FI F']; subst. cbn [api_run]. destruct (size_dec w h j) as [S|S].
    + destruct (FI S) as [JO QF]. cbn [fst snd] in JO, QF.
      destruct (C71_call Q gt minus_one ssim w h a c j W16 Hw Hh G JO QF) as (a1 & bytes & f & y & E & G1 & H1 & BB & _ & _ & _ & _ & _ & OP & DEC).
      rewrite E. destruct (IH a1 W16 Hw Hh G1 F') as (a' & outs & -> & GA & FO & FB & HA & OP' & K). cbn [obind fst snd].
      exists a', (Some bytes :: outs). change (sent (Some bytes :: outs)) with (bytes :: sent outs). split; [reflexivity|]. split; [exact GA|].
      split; [constructor; [split; [intros _; exact S|discriminate]|exact FO]|]. split; [constructor; assumption|]. split; [rewrite HA, H1; cbn; rewrite orb_true_r; reflexivity|]. split; [auto|].
      intros d [|s scratches] GD IS LS FS SH; [discriminate|]. injection LS as LS. inversion FS as [|? ? S1 FS']; subst. inversion SH as [|? ? SH1 SH']; subst.
      destruct (DEC d s GD IS S1 SH1) as (d1 & E1 & L1 & GD1).
      destruct (K d1 scratches GD1 (fun _ => L1) LS FS' (fits_later _ _ _ _ _ OP SH')) as (d' & pics & E2 & LP & GD' & IS' & LA).
      exists d', (reconstruction a1 :: pics). cbn [map combine run_frames]. rewrite E1, E2. split; [reflexivity|]. split; [cbn [length]; congruence|]. split; [exact GD'|]. split; [exact IS'|].
      intros _. destruct pics as [|p pics].
      * assert (SE : sent outs = []) by (destruct (sent outs); [reflexivity|discriminate]). cbn [last].
        cbn in LP. rewrite SE in E2. cbn in E2. destruct scratches; [|rewrite SE in LS; discriminate]. injection E2 as <-.
        rewrite HA, H1 in IS'. destruct (IS' eq_refl) as [X _]. destruct L1 as [Y _]. unfold reconstruction. rewrite <- X, <- Y. reflexivity.
      * assert (LD : forall x y (m : list raster), m <> [] -> last m x = last m y) by (intros x y0 m; induction m as [|b m IHm]; [congruence|]; intros _; destruct m; [reflexivity|apply IHm; discriminate]).
        change (last (reconstruction a1 :: p :: pics) (reconstruction a)) with (last (p :: pics) (reconstruction a)). rewrite (LD _ (reconstruction a1)) by discriminate. apply LA. discriminate.
    + rewrite (C71_other_size Q gt minus_one ssim w h a c j G S). destruct (IH a W16 Hw Hh G F') as (a' & outs & -> & GA & FO & K). cbn [obind fst snd].
      exists a', (None :: outs). change (sent (None :: outs)) with (sent outs). split; [reflexivity|]. split; [exact GA|]. split; [|exact K].
      constructor; [|exact FO]. cbn [snd]. split; [congruence|]. intros X. contradiction.
Qed.

(** New encoders and encoders that continue a decoder, with whatever headers
    the frames from the pool have, so long as those are headers of frames
    without segmentation. *)
Theorem C71_new : forall Q w h r two_pass realtime kh ih junk,
  w mod 16 = 0 -> 4 <= w <= 3968 -> 4 <= h <= 3968 -> raster_for w h r -> key_kept kh -> inter_kept ih -> (forall i, zlen (junk i) = (w + 512) * (h + 512)) ->
  exists a : @api Q, new_api w h r two_pass realtime kh ih junk = Some a /\ api_good w h a /\ ap_has a = false.
Proof.
  intros Q w h r two rt kh ih junk W16 Hw Hh R K I J. unfold new_api. replace ((w <? 4) || (h <? 4)) with false by lia. cbv zeta.
  destruct (safe_refs_ok (fun _ _ : unit => true) (fun _ _ => tt) w h (en_refs (new_encoder w h r rt)) junk W16 ltac:(lia) ltac:(lia) R R R J) as (safe & -> & S). cbn [obind].
  eexists. split; [reflexivity|]. split; [|reflexivity]. constructor; cbn [ap_enc ap_safe ap_key ap_inter new_encoder en_level en_qi last_level_ok last_ok]; try assumption; try exact I; try exact Logic.I.
  constructor; cbn [new_encoder en_state en_refs rf_last rf_golden rf_alt]; try exact R; [|reflexivity].
  constructor; cbn [fresh_state ds_w ds_h ds_pt ds_seg ds_fa]; try reflexivity; try discriminate. apply default_pt_good.
Qed.
Theorem C71_continue : forall Q w h d two_pass realtime kh ih junk,
  w mod 16 = 0 -> 4 <= w <= 3968 -> 4 <= h <= 3968 -> decoder_good w h d -> ds_seg (dc_state d) = None -> key_kept kh -> inter_kept ih -> (forall i, zlen (junk i) = (w + 512) * (h + 512)) ->
  exists a : @api Q, api_of d two_pass realtime kh ih junk = Some a /\ api_good w h a /\ ap_has a = true /\ in_step a d.
Proof.
  intros Q w h d two rt kh ih junk W16 Hw Hh GD N K I J. pose proof GD as [GS R1 R2 R3]. pose proof GS as [Ew Eh _ _ _]. unfold api_of. rewrite Ew, Eh. replace ((w <? 4) || (h <? 4)) with false by lia.
  destruct (safe_refs_ok (fun _ _ : unit => true) (fun _ _ => tt) w h (dc_refs d) junk W16 ltac:(lia) ltac:(lia) R1 R2 R3 J) as (safe & -> & S). cbn [obind].
  eexists. split; [reflexivity|]. split; [|split; [reflexivity|split; [reflexivity|exact N]]]. constructor; cbn [ap_enc ap_safe ap_key ap_inter encoder_of en_refs en_level en_qi last_level_ok last_ok]; try assumption; try exact Logic.I.
  constructor; cbn [encoder_of en_state en_refs]; assumption.
Qed.

(** ** The headers of new frames *)

(** A decoder without input and with value 0, as zero_decoder is whatever has
    been read from it. *)
Definition zero_decoder (d : bdec) : Prop := bd_chunk d = [] /\ bd_value d = 0 /\ 1 <= bd_range d <= 255.
Definition gives {A} (m : dec A) (v : A) : Prop := forall d, zero_decoder d -> exists d', m d = (v, d') /\ zero_decoder d'.

Lemma norm_zero fuel : forall d, zero_decoder d -> zero_decoder (bnorm fuel d).
Proof.
  induction fuel as [|fuel IH]; intros d Z0; [exact Z0|]. pose proof Z0 as (C & V & R). cbn [bnorm]. destruct (bd_range d <? 128) eqn:E; [|exact Z0]. cbv zeta.
  assert (R2 : wrap 32 (Z.shiftl (bd_range d) 1) = 2 * bd_range d) by (unfold wrap; rewrite Z.shiftl_mul_pow2 by lia; rewrite Z.mod_small; lia).
  assert (V2 : wrap 32 (Z.shiftl (bd_value d) 1) = 0) by (rewrite V; reflexivity). rewrite R2, V2.
  destruct (bd_bc d + 1 =? 8); apply IH; [unfold load_octet; cbn [bd_chunk bd_complete]; rewrite C; destruct (bd_complete d)|]; repeat split; cbn [bd_chunk bd_range bd_value]; try reflexivity; try assumption; lia.
Qed.
Lemma gives_bget p : u_ok 8 p -> gives (bget p) false.
Proof.
  intros P d Z0. pose proof Z0 as (C & V & R). unfold bget. cbv zeta. unfold u_ok in P. change (2 ^ 8) with 256 in P.
  assert (A : wrap 32 ((bd_range d - 1) * p) = (bd_range d - 1) * p) by (unfold wrap; apply Z.mod_small; nia). rewrite A.
  rewrite Z.shiftr_div_pow2 by lia. change (2 ^ 8) with 256. set (x := (bd_range d - 1) * p / 256). assert (BX : 0 <= x <= bd_range d - 1) by (unfold x; split; [apply Z.div_pos; nia|apply Z.div_le_upper_bound; nia]).
  assert (S : wrap 32 (1 + x) = 1 + x) by (unfold wrap; apply Z.mod_small; lia). rewrite S.
  assert (S2 : wrap 32 (Z.shiftl (1 + x) 8) = 256 * (1 + x)) by (unfold wrap; rewrite Z.shiftl_mul_pow2 by lia; rewrite Z.mod_small; lia). rewrite S2, V.
  destruct (Z.leb_spec (256 * (1 + x)) 0); [lia|]. eexists. split; [reflexivity|]. apply norm_zero. repeat split; cbn [bd_chunk bd_range bd_value]; try assumption; lia.
Qed.
Lemma gives_bind {A B} (m : dec A) (f : A -> dec B) v u : gives m v -> gives (f v) u -> gives (dbind m f) u.
Proof. intros M F d Z0. unfold dbind. destruct (M d Z0) as (d1 & -> & Z1). apply F, Z1. Qed.
Lemma gives_ret {A} (v : A) : gives (dret v) v.
Proof. intros d Z0. exists d. auto. Qed.
Lemma gives_unsigned n : gives (unsigned_decode n) 0.
Proof.
  induction n as [|n IH]; [apply gives_ret|]. cbn [unsigned_decode]. eapply gives_bind; [apply gives_bget; unfold u_ok; lia|]. eapply gives_bind; [exact IH|].
  cbv beta iota. rewrite Z.shiftl_0_l. apply gives_ret.
Qed.
Lemma gives_flagged {A} p (m : dec A) : u_ok 8 p -> gives (flagged_decode p m) None.
Proof. intros P. unfold flagged_decode. eapply gives_bind; [apply gives_bget, P|]. apply gives_ret. Qed.
Lemma gives_flagged_all {A} (m : dec A) l : Forall (u_ok 8) l -> gives (dmap (fun p => flagged_decode p m) l) (repeat None (length l)).
Proof.
  induction l as [|p l IH]; intros F; [apply gives_ret|]. inversion F; subst. cbn [dmap length repeat]. eapply gives_bind; [apply gives_flagged; assumption|].
  eapply gives_bind; [apply IH; assumption|]. apply gives_ret.
Qed.
Lemma half_ok : u_ok 8 128. Proof. unfold u_ok. lia. Qed.
Lemma octets_ok l : forallb (fun p => (0 <=? p) && (p <? 256)) l = true -> Forall (u_ok 8) l.
Proof. intros F. rewrite forallb_forall in F. apply Forall_forall. intros p HP. specialize (F p HP). unfold u_ok. change (2 ^ 8) with 256. lia. Qed.

Ltac zeros := repeat first
  [ eapply gives_bind; [first [apply gives_bget, half_ok | apply gives_unsigned | apply gives_flagged, half_ok
                              | apply gives_flagged_all, octets_ok; vm_compute; reflexivity]|cbv beta iota]
  | apply gives_ret ].
Lemma gives_indices : gives quant_indices_decode empty_qi.
Proof. unfold quant_indices_decode. zeros. Qed.
Lemma gives_unsigned_some n : gives (optional_decode true (unsigned_decode n)) (Some 0).
Proof. unfold optional_decode. zeros. Qed.

(** A new frame that is not from the pool has the empty headers, whatever was
    read from zero_decoder before (all frames of a thread share it). *)
Theorem C71_key_header : gives key_frame_header_decode empty_key_header.
Proof.
  unfold key_frame_header_decode, token_prob_update_decode. do 8 (eapply gives_bind; [first [apply gives_bget, half_ok | apply gives_unsigned | apply gives_flagged, half_ok]|cbv beta iota]).
  eapply gives_bind; [exact gives_indices|cbv beta]. zeros.
Qed.
Theorem C71_inter_header : gives inter_frame_header_decode empty_inter_header.
Proof.
  unfold inter_frame_header_decode, token_prob_update_decode, mv_prob_update_decode.
  do 6 (eapply gives_bind; [first [apply gives_bget, half_ok | apply gives_unsigned | apply gives_flagged, half_ok]|cbv beta iota]).
  eapply gives_bind; [exact gives_indices|cbv beta]. do 2 (eapply gives_bind; [apply gives_bget, half_ok|cbv beta iota]). cbn [negb].
  do 2 (eapply gives_bind; [apply gives_unsigned_some|cbv beta]). zeros.
Qed.
Theorem C71_zero_decoder : zero_decoder (bdec_init true []).
Proof. repeat split; cbv; discriminate || reflexivity. Qed.
Lemma empty_qi_ok : qi_ok empty_qi.
Proof. constructor; try (intros x E; discriminate E). unfold u_ok, empty_qi. cbn [y_ac_qi]. lia. Qed.
Theorem C71_empty_kept : key_kept empty_key_header /\ inter_kept empty_inter_header.
Proof.
  split; (split; [|split; reflexivity]); constructor; cbn [empty_key_header empty_inter_header kf_update_segmentation kf_loop_filter_level kf_sharpness_level kf_mode_lf_adjustments kf_log2_partitions kf_quant_indices kf_token_prob_update kf_prob_skip_false
    if_update_segmentation if_loop_filter_level if_sharpness_level if_mode_lf_adjustments if_log2_partitions if_quant_indices if_refresh_golden if_copy_to_golden if_refresh_alternate if_copy_to_alternate if_token_prob_update if_prob_skip_false if_prob_inter if_prob_references_last if_prob_references_golden if_intra_16x16_prob if_intra_chroma_prob if_mv_prob_update];
    try (intros x E; discriminate E); try (apply Forall_repeat; discriminate); try (unfold u_ok; lia); try apply repeat_length; try reflexivity; try (split; [discriminate|reflexivity]);
    try (intros x E; injection E as <-; unfold u_ok; lia); apply empty_qi_ok || (split; intros _; [discriminate|reflexivity]).
Qed.

(** ** What does not hold *)

(** There is no encoder for pictures of fewer than four lines or columns:
    the constructor asserts. *)
Theorem C71_tiny_refuted : forall Q w h r two_pass realtime kh ih junk,
  w < 4 \/ h < 4 -> @new_api Q w h r two_pass realtime kh ih junk = None.
Proof. intros Q w h r two rt kh ih junk H. unfold new_api. replace ((w <? 4) || (h <? 4)) with true by lia. reflexivity. Qed.

(** Two macroblocks. The quality is a negated squared error. *)
Definition ex_o32 : raster := mkRaster 32 16 (ra_y ex_original) (ra_u ex_original) (ra_v ex_original).
Definition closeness (r o : raster) : Z := - fold_right Z.add 0 (map (fun p => (fst p - snd p) ^ 2) (combine (pl_px (ra_y r)) (pl_px (ra_y o)))).
Definition ex_trial := mkTW (fun _ => ex_mcs) (repeat 0 256) (repeat (repeat (repeat 0 (Z.to_nat 1024)) 2) 2) 1 ex_r32 ex_r32.
Definition ex_junk : list Z := repeat 0 (Z.to_nat (544 * 528)).
Definition ex_job := mkJob ex_o32 (fun _ => ex_trial) ex_r32 ex_r32 (fun _ => ex_junk).
Definition ex_small_job := mkJob (shaded 1) (fun _ => ex_trial) ex_r32 ex_r32 (fun _ => ex_junk).
Lemma ex_junk_ok (i : nat) : zlen ex_junk = (32 + 512) * (16 + 512).
Proof. unfold ex_junk, zlen. rewrite repeat_length, Z2Nat.id by lia. lia. Qed.
Opaque ex_junk.
Lemma ex_job_ok : job_ok 32 16 ex_job.
Proof.
  constructor; cbn [ex_job jb_raster jb_works jb_scratch jb_junk].
  - split; [exact (proj1 ex_original_for)|split; reflexivity].
  - intros _. constructor; cbn [ex_trial tw_costs tw_sads tw_mv_costs tw_r tw_t]; try exact ex_r32_for.
    + intros _ i. exact I.
    + apply repeat_length.
    + split; [reflexivity|]. apply Forall_repeat. split; [reflexivity|]. apply Forall_repeat. apply repeat_length.
  - exact ex_r32_for.
  - exact ex_junk_ok.
Qed.
Definition ex_start (safe : plane) : @api Z := mkApi (new_encoder 32 16 ex_r32 true) false true safe empty_key_header empty_inter_header None.
Lemma ex_new : exists safe, new_api 32 16 ex_r32 true true empty_key_header empty_inter_header (fun _ => ex_junk) = Some (ex_start safe) /\ api_good 32 16 (ex_start safe).
Proof.
  destruct (C71_new Z 32 16 ex_r32 true true empty_key_header empty_inter_header (fun _ => ex_junk) eq_refl ltac:(lia) ltac:(lia) ex_r32_for (proj1 C71_empty_kept) (proj2 C71_empty_kept) ex_junk_ok) as (a & E & G & _).
  unfold new_api in E. change ((32 <? 4) || (16 <? 4)) with false in E. cbv iota zeta in E.
  destruct (safe_refs_ok (fun _ _ : unit => true) (fun _ _ => tt) 32 16 (en_refs (new_encoder 32 16 ex_r32 true)) (fun _ => ex_junk) eq_refl ltac:(lia) ltac:(lia) ex_r32_for ex_r32_for ex_r32_for ex_junk_ok) as (safe & ES & _).
  rewrite ES in E. cbn [obind] in E. apply some_eq in E. subst a. exists safe. split; [|exact G].
  unfold new_api. change ((32 <? 4) || (16 <? 4)) with false. cbv iota zeta. rewrite ES. reflexivity.
Qed.

(** What the encoder makes of the picture with a quantiser. *)
Definition ex_result (y : Z) (safe : plane) : option (@api Z * wframe) :=
  match encode_raster Z.gtb (- 10 ^ 9) closeness true (started (ex_start safe)) ex_trial ex_o32 (only_y_ac y) false with Some (a, f, _) => Some (a, f) | None => None end.
Definition ex_blank_frame := InterW true empty_inter_header [] [] [].
Definition ex_frame (y : Z) : wframe := match ex_result y (mkPlane 0 0 []) with Some (_, f) => f | None => ex_blank_frame end.
Definition ex_header (y : Z) : KeyFrameHeader := match ex_frame y with KeyW _ hd _ _ _ => hd | _ => empty_key_header end.
Definition ex_quality (y : Z) : option Z := match ex_result y (mkPlane 0 0 []) with Some (a, _) => ap_ssim a | None => None end.
Definition ex_written (y : Z) : encoder * list Z :=
  match write_frame (new_encoder 32 16 ex_r32 true) (ex_frame y) ex_r32 ex_r32 with Some x => x | None => (new_encoder 32 16 ex_r32 true, []) end.

Lemma ex_call y f hd q e bytes : (forall safe, ex_result y safe = Some (mkApi (new_encoder 32 16 ex_r32 true) true true safe hd empty_inter_header q, f)) ->
  write_frame (new_encoder 32 16 ex_r32 true) f ex_r32 ex_r32 = Some (e, bytes) ->
  raster_for 32 16 (rf_last (en_refs e)) -> rf_golden (en_refs e) = rf_last (en_refs e) -> rf_alt (en_refs e) = rf_last (en_refs e) ->
  forall safe, exists safe', api_call Z.gtb (- 10 ^ 9) closeness (ex_start safe) (WithQuantizer y) ex_job = Ok (mkApi e true true safe' hd empty_inter_header q, bytes).
Proof.
  intros EF EW R1 R2 R3 safe.
  destruct (safe_refs_ok (fun _ _ : unit => true) (fun _ _ => tt) 32 16 (en_refs e) (jb_junk ex_job) eq_refl ltac:(lia) ltac:(lia) R1) as (safe' & ES & _); [rewrite R2; exact R1|rewrite R3; exact R1|exact ex_junk_ok|].
  exists safe'. specialize (EF safe). unfold ex_result in EF.
  unfold api_call. change (negb ((ds_w (en_state (ap_enc (ex_start safe))) =? ra_dw (jb_raster ex_job)) && (ds_h (en_state (ap_enc (ex_start safe))) =? ra_dh (jb_raster ex_job)))) with false. cbv iota zeta.
  unfold with_quantizer. change (negb (ap_has (ex_start safe))) with true. change (jb_works ex_job 0%nat) with ex_trial. change (jb_raster ex_job) with ex_o32.
  destruct (encode_raster Z.gtb (- 10 ^ 9) closeness true (started (ex_start safe)) ex_trial ex_o32 (only_y_ac y) false) as [[[a1 f1] r1]|]; [|discriminate].
  apply some_eq in EF. apply pair_equal_spec in EF. destruct EF as [-> ->]. cbn [obind fst snd]. unfold api_write. cbn [ap_enc]. change (jb_blank ex_job) with ex_r32. change (jb_scratch ex_job) with ex_r32.
  rewrite EW. cbn [obind fst snd]. rewrite ES. reflexivity.
Qed.

Definition ex_hd_200 : KeyFrameHeader := Eval vm_compute in ex_header 200.
Definition ex_f_200 : wframe := Eval vm_compute in ex_frame 200.
Definition ex_q_200 : option Z := Eval vm_compute in ex_quality 200.
Definition ex_written_200 : encoder * list Z := Eval vm_compute in ex_written 200.
Lemma ex_result_200 safe : ex_result 200 safe = Some (mkApi (new_encoder 32 16 ex_r32 true) true true safe ex_hd_200 empty_inter_header ex_q_200, ex_f_200).
Proof. vm_compute. reflexivity. Qed.
Lemma ex_write_200 : write_frame (new_encoder 32 16 ex_r32 true) ex_f_200 ex_r32 ex_r32 = Some (fst ex_written_200, snd ex_written_200).
Proof. vm_compute. reflexivity. Qed.
Definition shown_of (x : decoder * outcome) : option raster := match x with (_, Output true p) => Some p | _ => None end.
Definition ex_shown_200 : option raster := Eval vm_compute in shown_of (get_frame_output (new_decoder 32 16 ex_r32) (chunk_of (snd ex_written_200)) ex_r32).

(** Quantisers above 127, as the encoder program takes them from the command
    line: the call gives a frame, but the header has seven bits for the index,
    so the decoder uses another quantiser than the encoder. The decoder's
    picture is not the one that the encoder keeps, and is worse than what the
    encoder records. *)
Theorem C71_large_quantiser_refuted : exists y (a : @api Z) a' bytes d',
  128 <= y <= 255 /\ api_good 32 16 a /\ ap_has a = false /\ job_ok 32 16 ex_job /\ decoder_good 32 16 (new_decoder 32 16 ex_r32) /\
  api_call Z.gtb (- 10 ^ 9) closeness a (WithQuantizer y) ex_job = Ok (a', bytes) /\ short_chunk bytes /\
  exists p, get_frame_output (new_decoder 32 16 ex_r32) (chunk_of bytes) ex_r32 = (d', Output true p) /\
    p <> reconstruction a' /\ Some (closeness (reconstruction a') ex_o32) = ap_ssim a' /\ closeness p ex_o32 < closeness (reconstruction a') ex_o32.
Proof.
  destruct ex_new as (safe & _ & G).
  destruct (ex_call 200 ex_f_200 ex_hd_200 ex_q_200 (fst ex_written_200) (snd ex_written_200) ex_result_200 ex_write_200) with (safe := safe) as (safe' & E).
  { split; [|split; reflexivity]. apply raster_sized. split; [|split]; apply sized_b; vm_compute; reflexivity. }
  { reflexivity. } { reflexivity. }
  exists 200, (ex_start safe), (mkApi (fst ex_written_200) true true safe' ex_hd_200 empty_inter_header ex_q_200), (snd ex_written_200).
  exists (fst (get_frame_output (new_decoder 32 16 ex_r32) (chunk_of (snd ex_written_200)) ex_r32)).
  split; [lia|]. split; [exact G|]. split; [reflexivity|]. split; [exact ex_job_ok|]. split; [apply C57_new_decoder; [lia|lia|exact ex_r32_for]|]. split; [exact E|].
  split; [vm_compute; reflexivity|].
  exists (match ex_shown_200 with Some p => p | None => ex_r32 end). split; [vm_compute; reflexivity|].
  assert (Q : closeness (match ex_shown_200 with Some p => p | None => ex_r32 end) ex_o32 < closeness (rf_last (en_refs (fst ex_written_200))) ex_o32) by (vm_compute; reflexivity).
  split; [|split; [vm_compute; reflexivity|exact Q]].
  intros X. change (reconstruction _) with (rf_last (en_refs (fst ex_written_200))) in X. rewrite X in Q. lia.
Qed.

(** ** Examples *)

(** A new encoder, four calls (one with a smaller picture). The first frame
    is checked to be short. *)
Definition ex_calls : list (call * job) :=
  [(WithQuantizer 40, ex_job); (WithMinimumSsim AtLeast, ex_small_job); (WithTargetSize (fun _ y => 200 - y) 100, ex_job); (WithMinimumSsim AtLeast, ex_job)].
Definition ex_hd_40 : KeyFrameHeader := Eval vm_compute in ex_header 40.
Definition ex_q_40 : option Z := Eval vm_compute in ex_quality 40.
Definition ex_f_40 : wframe := Eval vm_compute in ex_frame 40.
Definition ex_written_40 : encoder * list Z := Eval vm_compute in ex_written 40.
Example C71_example :
  (exists a : @api Z, new_api 32 16 ex_r32 true true empty_key_header empty_inter_header (fun _ => ex_junk) = Some a /\ api_good 32 16 a) /\
  Forall (item_fits 32 16) ex_calls /\ decoder_good 32 16 (new_decoder 32 16 ex_r32) /\
  forall safe, exists a' bytes, api_call Z.gtb (- 10 ^ 9) closeness (ex_start safe) (WithQuantizer 40) ex_job = Ok (a', bytes) /\ short_chunk bytes /\ zlen bytes = 378 /\
    exists d', get_frame_output (new_decoder 32 16 ex_r32) (chunk_of bytes) ex_r32 = (d', Output true (reconstruction a')) /\ ap_ssim a' = Some (-28216).
Proof.
  split; [destruct ex_new as (safe & E & G); eauto|]. split; [|split; [apply C57_new_decoder; [lia|lia|exact ex_r32_for]|]].
  - assert (J := ex_job_ok). repeat apply Forall_cons; try apply Forall_nil; intros S; cbn [fst snd] in *; try (split; [exact ex_job_ok|cbn; lia || exact I]).
    destruct S as [S _]. vm_compute in S. discriminate.
  - intros safe.
    assert (R : forall s, ex_result 40 s = Some (mkApi (new_encoder 32 16 ex_r32 true) true true s ex_hd_40 empty_inter_header ex_q_40, ex_f_40)) by (intros s; vm_compute; reflexivity).
    assert (W : write_frame (new_encoder 32 16 ex_r32 true) ex_f_40 ex_r32 ex_r32 = Some (fst ex_written_40, snd ex_written_40)) by (vm_compute; reflexivity).
    destruct (ex_call 40 ex_f_40 ex_hd_40 ex_q_40 (fst ex_written_40) (snd ex_written_40) R W) with (safe := safe) as (safe' & E).
    { split; [|split; reflexivity]. apply raster_sized. split; [|split]; apply sized_b; vm_compute; reflexivity. }
    { reflexivity. } { reflexivity. }
    exists (mkApi (fst ex_written_40) true true safe' ex_hd_40 empty_inter_header ex_q_40), (snd ex_written_40).
    split; [exact E|]. split; [vm_compute; reflexivity|]. split; [vm_compute; reflexivity|].
    exists (fst (get_frame_output (new_decoder 32 16 ex_r32) (chunk_of (snd ex_written_40)) ex_r32)). split; vm_compute; reflexivity.
Qed.
(** A decoder whose stream another encoder continues. *)
Example C71_continue_example : decoder_good 32 16 (new_decoder 32 16 ex_r32) /\ ds_seg (dc_state (new_decoder 32 16 ex_r32)) = None.
Proof. split; [apply C57_new_decoder; [lia|lia|exact ex_r32_for]|reflexivity]. Qed.

Print Assumptions C71_call.
Print Assumptions C71_other_size.
Print Assumptions C71_run.
Print Assumptions C71_new.
Print Assumptions C71_continue.
Print Assumptions C71_key_header.
Print Assumptions C71_inter_header.
Print Assumptions C71_zero_decoder.
Print Assumptions C71_empty_kept.
Print Assumptions C71_tiny_refuted.
Print Assumptions C71_large_quantiser_refuted.
