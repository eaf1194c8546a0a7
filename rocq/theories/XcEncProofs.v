(** Lemmas about the main programs. *)
From Verif Require PropChunk PropIvf PropY4m.
From Verif Require Import Base BoolCoderModel BoolEncProofs BoolCoderProofs ParserModel Tables TreeModel HeaderModel HeaderProofs MVModel MBModel MBProofs TokenModel ChunkModel ChunkProofs ContainerModel ContainerProofs PropContainer FrameModel FrameProofs PropFrame.
From Verif Require Import QuantModel RasterModel RasterProofs TransformModel PredictModel LoopFilterModel ReconModel StateModel StateProofs PropState SerialModel FdModel Y4mModel IvfModel PlayerModel PropPlayer.
From Verif Require Import EncoderModel PropEncoder SearchModel EncoderApiModel EncoderApiProofs PropEncoderApi SizeProofs PropSize LocalProofs XcEncModel.

(** ** The sizes of frames *)

Lemma frame_short key show w h first parts bytes M : make_frame key show false false w h first parts = Some bytes -> 0 <= M <= 61504 -> (length parts <= 8)%nat ->
  8 * zlen first <= 7 * (10300 + 443 * M) + 224 -> Forall (fun p => 8 * zlen p <= 53375 * M + 224) parts -> zlen bytes < 3400000000.
Proof.
  intros E HM LP LF FP. unfold make_frame in E. destruct ((16383 <? w) || (16383 <? h)); [discriminate|]. destruct parts as [|q parts]; [discriminate|]. cbv iota in E. apply some_inj in E.
  set (qs := q :: parts) in *.
  assert (LB : forall l, (length (length_bytes l) <= 3 * length l)%nat).
  { intros l. induction l as [|a l IH]; [cbn; lia|]. cbn [length_bytes]. destruct l as [|b l]; [cbn; lia|]. cbv zeta. rewrite app_length. cbn [length] in *. lia. }
  assert (LC : zlen (concat qs) <= Z.of_nat (length qs) * 410347028).
  { clear - FP HM. induction FP as [|p l A FP IH]; [cbn; lia|]. cbn [concat length]. unfold zlen in *. rewrite app_length. lia. }
  apply (f_equal (@zlen Z)) in E. rewrite <- E. unfold zlen in *. rewrite !app_length. specialize (LB qs).
  destruct key; cbn [length] in *; lia.
Qed.
Lemma first_below n hd evs (ms : list mbinfo) M first : (n <= 443)%nat -> (length hd <= Z.to_nat 10300)%nat -> omost (length ms * n) evs -> Z.of_nat (length ms) = M ->
  match evs with Some evs => bool_encode (hd ++ evs) | None => None end = Some first -> 8 * zlen first <= 7 * (10300 + 443 * M) + 224.
Proof.
  intros HN HH HE HM E. destruct evs as [evs|]; [|discriminate]. specialize (HE _ eq_refl). apply encode_size in E. unfold most, event in *. rewrite app_length in E. nia.
Qed.

Lemma few_blocks w h : 0 < w <= 3968 -> 0 < h <= 3968 -> 0 <= macroblocks w h <= 61504.
Proof. intros. unfold macroblocks, mb_dim. rewrite Nat2Z.inj_mul, !Z2Nat.id by lia. assert (0 <= (w + 15) / 16 <= 248) by lia. assert (0 <= (h + 15) / 16 <= 248) by lia. nia. Qed.

(** No frame of the encoder is too long for the container file. *)
Lemma written_short pt w h f bytes : 0 < w <= 3968 -> 0 < h <= 3968 -> written pt w h f bytes -> writable w h f -> zlen bytes < 3400000000.
Proof.
  intros Hw Hh WN WR. pose proof (few_blocks w h Hw Hh) as MB. destruct f as [show hd ms cs ids|show hd ms cs ids]; cbn [written writable] in *.
  - destruct WR as (K & _ & LM & _ & CO & _). unfold key_frame_serialize in WN. cbv zeta in WN.
    destruct (kf_first_partition _ _ _) as [first|] eqn:EF; [|discriminate]. destruct (serialize_frame_tokens _ _ _ _ _) as [parts|] eqn:EP; [|discriminate].
    destruct (tokens_size _ _ _ _ _ _ CO EP) as [LP FP]. apply (frame_short _ _ _ _ _ _ _ (macroblocks w h) WN MB).
    + rewrite LP. apply count_bound, (kfo_part hd K).
    + apply (first_below 121 (key_frame_header_events hd) (kf_macroblocks_events hd (mb_dim w) ms) ms); [lia|apply most_key_header in K; unfold most in K; lia| |unfold macroblocks; rewrite LM; reflexivity|exact EF].
      apply most_mbs. intros i m _. apply most_kf_mb.
    + unfold macroblocks. rewrite <- LM. exact FP.
  - destruct WR as (K & _ & LM & F & CO & _). unfold inter_frame_serialize in WN. cbv zeta in WN.
    destruct (if_first_partition _ _ _ _ _) as [first|] eqn:EF; [|discriminate]. destruct (serialize_frame_tokens _ _ _ _ _) as [parts|] eqn:EP; [|discriminate].
    destruct (tokens_size _ _ _ _ _ _ CO EP) as [LP FP]. apply (frame_short _ _ _ _ _ _ _ (macroblocks w h) WN MB).
    + rewrite LP. apply count_bound, (ifo_part hd K).
    + eapply (first_below 443 (inter_frame_header_events hd) _ ms); [lia|apply most_inter_header in K; unfold most in K; lia| |unfold macroblocks; rewrite LM; reflexivity|exact EF].
      apply most_mbs. intros i m E. apply most_if_mb. exact (intra_sixteen _ _ _ _ F i m E).
    + unfold macroblocks. rewrite <- LM. exact FP.
Qed.

(** The first byte. *)
Lemma written_tag pt w h f bytes : written pt w h f bytes -> tag_key bytes = is_key f.
Proof.
  assert (T : forall key show first parts, make_frame key show false false w h first parts = Some bytes -> tag_key bytes = key).
  { intros key show first parts E. unfold make_frame in E. destruct ((16383 <? w) || (16383 <? h)); [discriminate|]. destruct parts as [|q parts]; [discriminate|]. cbv iota in E. apply some_inj in E. subst bytes.
    unfold tag_key. cbn [app nth]. rewrite tag_byte0_spec. unfold tag_byte0, flag. destruct key, show; cbn [negb]; lia. }
  destruct f as [show hd ms cs ids|show hd ms cs ids]; cbn [written is_key].
  - unfold key_frame_serialize. cbv zeta. destruct (kf_first_partition _ _ _); [|discriminate]. destruct (serialize_frame_tokens _ _ _ _ _); [|discriminate]. apply T.
  - unfold inter_frame_serialize. cbv zeta. destruct (if_first_partition _ _ _ _ _); [|discriminate]. destruct (serialize_frame_tokens _ _ _ _ _); [|discriminate]. apply T.
Qed.

(** A chunk that gives a picture can be taken apart. *)
Lemma output_parses d c scratch d' s r : chunk_ok c -> bytes_ok (cbytes c) -> dc_conceal d = false -> get_frame_output d c scratch = (d', Output s r) ->
  exists u, uncompressed_chunk c (ds_w (dc_state d)) (ds_h (dc_state d)) false = Ok u /\ uc_key u = tag_key (cbytes c).
Proof.
  intros O B C E. unfold get_frame_output in E. cbv zeta in E. rewrite C in E. pose proof (uncompressed_chunk_cases c (ds_w (dc_state d)) (ds_h (dc_state d)) false O B) as K. cbv zeta in K.
  destruct (uncompressed_chunk c _ _ false) as [u|e]; [|apply (f_equal snd) in E; discriminate]. exists u. split; [reflexivity|].
  destruct K as [K|[(_ & K & _)|(_ & K & _)]]; [|discriminate|discriminate]. apply K.
Qed.
