(** Proofs about the decoder's state: what is kept by every frame. *)
From Verif Require Import Base BoolCoderModel ParserModel Tables TreeModel HeaderModel HeaderProofs MVModel MBModel MBProofs MBDecoded.
From Verif Require Import ChunkModel ContainerModel ChunkProofs PropChunk ContainerProofs PropContainer FrameModel FrameProofs PropFrame.
From Verif Require Import QuantModel RasterModel TransformModel RasterProofs PredictModel PredictProofs LoopFilterModel PropLoopFilter ReconModel ReconProofs PropPicture StateModel.

(** ** Well-formed states *)

Definition int8 (x : Z) : Prop := -128 <= x <= 127.

Record seg_good (w h : Z) (s : Segmentation) : Prop := {
  sgg_ql : length (sg_quant s) = 4%nat;
  sgg_fl : length (sg_filter s) = 4%nat;
  sgg_q : Forall int8 (sg_quant s);
  sgg_f : Forall int8 (sg_filter s);
  sgg_s : shaped (sg_map s);
  sgg_w : pl_w (sg_map s) = w;
  sgg_h : pl_h (sg_map s) = h;
  sgg_m : Forall (fun v => 0 <= v <= 3) (pl_px (sg_map s))
}.
Record fa_good (a : FilterAdjustments) : Prop := {
  fag_rl : length (fa_ref a) = 4%nat;
  fag_ml : length (fa_mode a) = 4%nat;
  fag_r : Forall int8 (fa_ref a);
  fag_m : Forall int8 (fa_mode a)
}.
(** The tables' sizes (decoder.hh l.57-70). *)
Definition pt_shape (pt : ProbabilityTables) : Prop :=
  length (pt_coeff pt) = 1056%nat /\ length (pt_mv pt) = 38%nat /\ length (pt_y_mode pt) = 4%nat /\ length (pt_uv_mode pt) = 3%nat.
Definition pt_good (pt : ProbabilityTables) : Prop := pt_ok pt /\ pt_shape pt.
Lemma default_pt_good : pt_good default_pt.
Proof. split; [apply default_pt_ok|]. repeat split. Qed.
Lemma apply_updates_length f tbl : forall ups, length (apply_updates f tbl ups) = length tbl.
Proof. induction tbl as [|p t IH]; intros [|u us]; cbn; congruence. Qed.
Lemma coeff_prob_update_good pt ups : pt_good pt -> Forall (o_ok (u_ok 8)) ups -> pt_good (coeff_prob_update pt ups).
Proof.
  intros [A (B1 & B2 & B3 & B4)] H. split; [apply coeff_prob_update_ok; assumption|].
  unfold pt_shape, coeff_prob_update. cbn [pt_coeff pt_mv pt_y_mode pt_uv_mode]. rewrite apply_updates_length. auto.
Qed.
Lemma pt_update_good pt hd : pt_good pt -> ifh_ok hd -> pt_good (pt_update pt hd).
Proof.
  intros [A (B1 & B2 & B3 & B4)] H. split; [apply pt_update_ok; assumption|].
  unfold pt_shape, pt_update. cbn [pt_coeff pt_mv pt_y_mode pt_uv_mode]. rewrite !apply_updates_length. split; [exact B1|]. split; [exact B2|]. split.
  - destruct (if_intra_16x16_prob hd) as [l|] eqn:E; [apply (ifo_y hd H l E)|exact B3].
  - destruct (if_intra_chroma_prob hd) as [l|] eqn:E; [apply (ifo_uv hd H l E)|exact B4].
Qed.

Record state_good (w h : Z) (s : DecoderState) : Prop := {
  stg_w : ds_w s = w;
  stg_h : ds_h s = h;
  stg_pt : pt_good (ds_pt s);
  stg_seg : o_ok (seg_good w h) (ds_seg s);
  stg_fa : o_ok fa_good (ds_fa s)
}.

Lemma seg_good_ok w h s : seg_good w h s -> segmentation_ok s.
Proof. intros [A B C D _ _ _ _]. split; [exact A|split; [exact B|exact C]]. Qed.

Lemma get_or_int8 n l : 0 <= n <= 7 -> Forall (o_ok (s_ok n)) l -> Forall int8 (map (get_or 0) l).
Proof.
  intros Hn F. apply Forall_forall. intros x Hx. apply in_map_iff in Hx. destruct Hx as (o & <- & Ho).
  pose proof (proj1 (Forall_forall _ _) F o Ho) as K. unfold int8. destruct o as [v|]; cbn [get_or]; [|lia].
  specialize (K v eq_refl). unfold s_ok in K. assert (2 ^ n <= 2 ^ 7) by (apply Z.pow_le_mono_r; lia). change (2 ^ 7) with 128 in *. lia.
Qed.

Lemma seg_update_good w h s u : seg_good w h s -> us_ok u -> exists s', seg_update s (Some u) = Some s' /\ seg_good w h s'.
Proof.
  intros G U. unfold seg_update. destruct (segment_feature_data u) as [f|] eqn:E.
  - eexists. split; [reflexivity|]. destruct (us_sfd u U f E) as [L1 L2 Q F]. destruct G.
    constructor; cbn; auto; try (rewrite map_length; assumption).
    + apply (get_or_int8 7); [lia|exact Q].
    + apply (get_or_int8 6); [lia|exact F].
  - eexists. split; [reflexivity|exact G].
Qed.

Lemma seg_blank_good w h : 0 < w -> 0 < h -> seg_good w h (mkSeg false (repeat 0 4) (repeat 0 4) (mkPlane w h (repeat 3 (Z.to_nat (w * h))))).
Proof.
  intros Hw Hh. constructor; cbn [sg_quant sg_filter sg_map pl_w pl_h pl_px]; auto.
  - repeat constructor; unfold int8; lia.
  - repeat constructor; unfold int8; lia.
  - unfold shaped; cbn [pl_w pl_h pl_px]. unfold zlen. rewrite repeat_length. nia.
  - apply Forall_forall. intros x Hx. apply repeat_spec in Hx. lia.
Qed.

Lemma seg_new_good w h u : 0 < w -> 0 < h -> us_ok u -> exists s', seg_new w h (Some u) = Some s' /\ seg_good w h s'.
Proof. intros Hw Hh U. apply seg_update_good; [apply seg_blank_good; assumption|exact U]. Qed.

Lemma fa_update_good a m : fa_good a -> o_ok lfd_ok m -> exists a', fa_update a (Some m) = Some a' /\ fa_good a'.
Proof.
  intros G L. unfold fa_update. destruct m as [d|]; [|eauto]. destruct (L d eq_refl) as [L1 L2 R M].
  eexists. split; [reflexivity|]. constructor; cbn; try (rewrite map_length; assumption); apply (get_or_int8 6); auto; lia.
Qed.
Lemma fa_blank_good : fa_good (mkFA (repeat 0 4) (repeat 0 4)).
Proof. constructor; cbn; auto; repeat constructor; unfold int8; lia. Qed.
Lemma fa_new_good m : o_ok lfd_ok m -> exists a', fa_new (Some m) = Some a' /\ fa_good a'.
Proof. apply fa_update_good, fa_blank_good. Qed.

Lemma key_state_good w h hd : 0 < w -> 0 < h -> kfh_ok hd -> state_good w h (key_state w h hd).
Proof.
  intros Hw Hh K. constructor; cbn; auto.
  - apply default_pt_good.
  - destruct (kf_update_segmentation hd) as [u|] eqn:E; [|intros ? ?; discriminate].
    destruct (seg_new_good w h u Hw Hh (kfo_seg hd K u E)) as (s' & E' & G). rewrite E'. intros ? [= <-]. exact G.
  - destruct (kf_mode_lf_adjustments hd) as [m|] eqn:E; [|intros ? ?; discriminate].
    destruct (fa_new_good m (kfo_lf hd K m E)) as (a & E' & G). rewrite E'. intros ? [= <-]. exact G.
Qed.

Lemma inter_seg_good w h seg u : 0 < w -> 0 < h -> o_ok (seg_good w h) seg -> o_ok us_ok u -> o_ok (seg_good w h) (inter_seg w h seg u).
Proof.
  intros Hw Hh G U. unfold inter_seg. destruct u as [u|]; [|intros ? ?; discriminate]. destruct seg as [s|].
  - destruct (seg_update_good w h s u (G s eq_refl) (U u eq_refl)) as (s' & E & G'). rewrite E. intros ? [= <-]. exact G'.
  - destruct (seg_new_good w h u Hw Hh (U u eq_refl)) as (s' & E & G'). rewrite E. intros ? [= <-]. exact G'.
Qed.
Lemma inter_fa_good fa m : o_ok fa_good fa -> o_ok (o_ok lfd_ok) m -> o_ok fa_good (inter_fa fa m).
Proof.
  intros G M. unfold inter_fa. destruct m as [m|]; [|intros ? ?; discriminate]. destruct fa as [a|].
  - destruct (fa_update_good a m (G a eq_refl) (M m eq_refl)) as (s' & E & G'). rewrite E. intros ? [= <-]. exact G'.
  - destruct (fa_new_good m (M m eq_refl)) as (s' & E & G'). rewrite E. intros ? [= <-]. exact G'.
Qed.

(** ** The segment map *)

Lemma Forall_set_nth {A} (P : A -> Prop) l : forall k v, Forall P l -> P v -> Forall P (set_nth l k v).
Proof. induction l as [|a l IH]; intros [|k] v F V; cbn; auto; inversion F; subst; constructor; auto. Qed.

Definition map_good (w h : Z) (m : plane) : Prop :=
  shaped m /\ pl_w m = w /\ pl_h m = h /\ Forall (fun v => 0 <= v <= 3) (pl_px m).

Lemma map_good_at w h m x y : map_good w h m -> inside m x y = true -> 0 <= at_px m x y <= 3.
Proof.
  intros (S & _ & _ & F) I. unfold at_px. pose proof (pix_index_lt m x y S I) as L.
  apply (proj1 (Forall_forall _ _) F). apply nth_In. exact L.
Qed.

Lemma mb_dim_le w : 0 < w -> Z.of_nat (mb_dim w) <= w.
Proof. intros H. unfold mb_dim. rewrite Z2Nat.id by (apply Z.div_pos; lia). lia. Qed.

Lemma position_inside w h m i : 0 < w -> 0 < h -> map_good w h m -> (i < mb_dim w * mb_dim h)%nat ->
  inside m (column_of (mb_dim w) i) (row_of (mb_dim w) i) = true.
Proof.
  intros Hw Hh (_ & Ew & Eh & _) Hi. apply inside_iff. rewrite Ew, Eh. unfold column_of, row_of.
  pose proof (mb_dim_pos w Hw) as Pw. pose proof (mb_dim_le w Hw). pose proof (mb_dim_le h Hh).
  pose proof (Nat.mod_upper_bound i (mb_dim w) ltac:(lia)).
  pose proof (Nat.div_lt_upper_bound i (mb_dim w) (mb_dim h) ltac:(lia) Hi). generalize dependent (i mod mb_dim w)%nat.
  generalize dependent (i / mb_dim w)%nat. intros. lia.
Qed.

Lemma map_loop_good w h ms : 0 < w -> 0 < h -> Forall (fun m => o_ok (fun s => 0 <= s < 4) (mb_segment m)) ms ->
  forall i m, map_good w h m -> (i + length ms <= mb_dim w * mb_dim h)%nat ->
  exists m' ids, map_loop (mb_dim w) i ms m = Some (m', ids) /\ map_good w h m' /\ length ids = length ms /\ ids_ok ids.
Proof.
  intros Hw Hh F. induction F as [|b ms Hb F IH]; intros i m G L; cbn [map_loop].
  - exists m, []. repeat split; try apply G. constructor.
  - cbn [length] in L. pose proof (position_inside w h m i Hw Hh G ltac:(lia)) as I.
    assert (exists m1 v, mb_update_map m (column_of (mb_dim w) i) (row_of (mb_dim w) i) (mb_segment b) = Some (m1, v) /\ map_good w h m1 /\ 0 <= v <= 3) as (m1 & v & E & G1 & V).
    { unfold mb_update_map. destruct (mb_segment b) as [s|] eqn:ES.
      - rewrite pset_some by exact I. cbn [obind].
        assert (map_good w h (put_px m (column_of (mb_dim w) i) (row_of (mb_dim w) i) s)) as G1.
        { destruct G as (A & B & C & D). split; [apply shaped_put, A|]. split; [exact B|]. split; [exact C|].
          unfold put_px; cbn [pl_px]. apply Forall_set_nth; [exact D|]. pose proof (Hb s eq_refl) as Hs; cbv beta in Hs; lia. }
        assert (inside (put_px m (column_of (mb_dim w) i) (row_of (mb_dim w) i) s) (column_of (mb_dim w) i) (row_of (mb_dim w) i) = true) as I1 by exact I.
        rewrite pget_some by (exact I1 || apply G1). cbn [obind]. eexists _, _. split; [reflexivity|]. split; [exact G1|]. apply (map_good_at w h); assumption.
      - cbn [obind]. rewrite pget_some by (exact I || apply G). cbn [obind]. eexists _, _. split; [reflexivity|]. split; [exact G|]. apply (map_good_at w h); assumption. }
    rewrite E. cbn [obind]. destruct (IH (S i) m1 G1 ltac:(lia)) as (m' & ids & E' & G' & L' & O').
    rewrite E'. cbn [obind]. exists m', (v :: ids). split; [reflexivity|]. split; [exact G'|]. split; [cbn; lia|]. constructor; assumption.
Qed.

Lemma update_map_good w h seg ms : 0 < w -> 0 < h -> o_ok (seg_good w h) seg ->
  Forall (fun m => o_ok (fun s => 0 <= s < 4) (mb_segment m)) ms -> length ms = (mb_dim w * mb_dim h)%nat ->
  exists seg' ids, update_map (mb_dim w) seg ms = Some (seg', ids) /\ o_ok (seg_good w h) seg' /\ length ids = length ms /\ ids_ok ids.
Proof.
  intros Hw Hh G F L. unfold update_map. destruct seg as [s|].
  - specialize (G s eq_refl).
    assert (map_good w h (sg_map s)) as GM by (destruct G; repeat split; auto; apply sgg_s0).
    destruct (map_loop_good w h ms Hw Hh F 0 (sg_map s) GM ltac:(lia)) as (m' & ids & E & (A & B & C & D) & L' & O).
    rewrite E. cbn [obind]. eexists _, ids. split; [reflexivity|]. split; [|auto].
    intros ? [= <-]. destruct G. constructor; cbn; auto.
  - eexists None, _. split; [reflexivity|]. split; [intros ? ?; discriminate|]. split; [apply repeat_length|].
    apply Forall_forall. intros x Hx. apply repeat_spec in Hx. lia.
Qed.

(** ** Parsing *)

Definition drop_ids {A B C D} (r : res frame_error (A * B * C * D)) : res frame_error (A * B * C) :=
  match r with Ok (a, b, c, _) => Ok (a, b, c) | Err e => Err e end.

Lemma set_seg_good w h s seg : state_good w h s -> o_ok (seg_good w h) seg -> state_good w h (set_seg s seg).
Proof. intros [A B C D E] G. constructor; cbn; auto. Qed.
Lemma set_tables_good w h s pt : state_good w h s -> pt_good pt -> state_good w h (set_tables s pt).
Proof. intros [A B C D E] G. constructor; cbn; auto. Qed.
Lemma set_fa_good w h s fa : state_good w h s -> o_ok fa_good fa -> state_good w h (set_fa s fa).
Proof. intros [A B C D E] G. constructor; cbn; auto. Qed.

Lemma parse_key_good w h s u : 0 < w -> 0 < h -> state_good w h s ->
  let '(s', r) := parse_key s u in
  state_good w h s' /\ drop_ids r = key_frame_parse w h u /\
  (forall hd ms cs ids, r = Ok (hd, ms, cs, ids) -> length ids = length ms /\ ids_ok ids).
Proof.
  intros Hw Hh G. unfold parse_key, key_frame_parse. pose proof G as [Ew Eh _ _ _]. rewrite Ew, Eh.
  destruct (negb (uc_key u)); [cbn; split; [exact G|split; [reflexivity|discriminate]]|].
  destruct (uc_experimental u); [cbn; split; [exact G|split; [reflexivity|discriminate]]|].
  pose proof (yields_kfh (first_decoder u)) as Y1.
  destruct (key_frame_header_decode (first_decoder u)) as [hd d]. cbn [fst] in Y1.
  destruct (negb (key_frame_header_supported hd)); [cbn; split; [exact G|split; [reflexivity|discriminate]]|].
  pose proof (yields_kf_macroblocks hd (mb_dim w) (mb_dim h) d) as Y2.
  destruct (kf_macroblocks_decode hd (mb_dim w) (mb_dim h) d) as [ms d2]. cbn [fst] in Y2. destruct Y2 as [LM FM].
  pose proof (key_state_good w h hd Hw Hh Y1) as G1.
  change (ds_pt (key_state w h hd)) with default_pt.
  set (pt := coeff_prob_update default_pt (kf_token_prob_update hd)) in *.
  assert (pt_good pt) as GP by (apply coeff_prob_update_good; [apply default_pt_good|apply (kfo_t hd Y1)]).
  assert (state_good w h (if kf_refresh_entropy_probs hd then set_tables (key_state w h hd) pt else key_state w h hd)) as G2
    by (destruct (kf_refresh_entropy_probs hd); [apply set_tables_good|]; assumption).
  set (s2 := if kf_refresh_entropy_probs hd then set_tables (key_state w h hd) pt else key_state w h hd) in *.
  destruct (update_map_good w h (ds_seg s2) ms Hw Hh (stg_seg _ _ _ G2)) as (seg & ids & E & GS & LI & OI).
  { apply Forall_forall. intros m Hm. pose proof (proj1 (Forall_forall _ _) FM m Hm) as K. apply K. }
  { exact LM. }
  rewrite E. destruct (frame_tokens _ _ _ _ _) as [cs|e]; cbn.
  - split; [apply set_seg_good; assumption|]. split; [reflexivity|]. intros ? ? ? ? [= <- <- <- <-]. auto.
  - split; [apply set_seg_good; assumption|]. split; [reflexivity|]. discriminate.
Qed.

Lemma parse_inter_good w h s u : 0 < w -> 0 < h -> state_good w h s ->
  let '(s', r) := parse_inter s u in
  state_good w h s' /\ drop_ids r = inter_frame_parse (ds_pt s) w h u /\
  (forall hd ms cs ids, r = Ok (hd, ms, cs, ids) -> length ids = length ms /\ ids_ok ids).
Proof.
  intros Hw Hh G. unfold parse_inter, inter_frame_parse. pose proof G as [Ew Eh GP0 GS0 GF0]. rewrite Ew, Eh.
  destruct (uc_key u); [cbn; split; [exact G|split; [reflexivity|discriminate]]|].
  pose proof (yields_ifh (first_decoder u)) as Y1.
  destruct (inter_frame_header_decode (first_decoder u)) as [hd d]. cbn [fst] in Y1.
  destruct (negb (inter_frame_header_supported hd)); [cbn; split; [exact G|split; [reflexivity|discriminate]]|].
  set (pt := pt_update (ds_pt s) hd) in *.
  pose proof (yields_if_macroblocks hd pt (mb_dim w) (mb_dim h) (mb_dim_pos w Hw) d) as Y2.
  destruct (if_macroblocks_decode hd pt (mb_dim w) (mb_dim h) d) as [ms d2]. cbn [fst] in Y2. destruct Y2 as [LM FM].
  assert (pt_good pt) as GP by (apply pt_update_good; assumption).
  set (s1 := if if_refresh_entropy_probs hd then set_tables s pt else s) in *.
  assert (state_good w h s1) as G1 by (unfold s1; destruct (if_refresh_entropy_probs hd); [apply set_tables_good|]; assumption).
  set (s2 := set_fa s1 _) in *.
  assert (state_good w h s2) as G2 by (apply set_fa_good; [exact G1|]; apply inter_fa_good; [apply (stg_fa _ _ _ G1)|apply (ifo_lf hd Y1)]).
  set (s3 := set_seg s2 _) in *.
  assert (state_good w h s3) as G3 by (apply set_seg_good; [exact G2|]; apply inter_seg_good; auto; [apply (stg_seg _ _ _ G2)|apply (ifo_seg hd Y1)]).
  destruct (update_map_good w h (ds_seg s3) ms Hw Hh (stg_seg _ _ _ G3)) as (seg & ids & E & GS & LI & OI).
  { apply Forall_forall. intros m Hm. apply In_nth_error in Hm. destruct Hm as [i Hi]. pose proof (FM i m Hi) as K. apply K. }
  { exact LM. }
  rewrite E. destruct (frame_tokens _ _ _ _ _) as [cs|e]; cbn.
  - split; [apply set_seg_good; assumption|]. split; [reflexivity|]. intros ? ? ? ? [= <- <- <- <-]. auto.
  - split; [apply set_seg_good; assumption|]. split; [reflexivity|]. discriminate.
Qed.

(** ** Frames *)

(** A picture for a decoder of w x h pixels. *)
Definition raster_for (w h : Z) (r : raster) : Prop :=
  raster_ok (Z.of_nat (mb_dim w)) (Z.of_nat (mb_dim h)) r /\ ra_dw r = w /\ ra_dh r = h.
Record decoder_good (w h : Z) (d : decoder) : Prop := {
  dcg_s : state_good w h (dc_state d);
  dcg_l : raster_for w h (rf_last (dc_refs d));
  dcg_g : raster_for w h (rf_golden (dc_refs d));
  dcg_a : raster_for w h (rf_alt (dc_refs d))
}.
Definition outcome_good (w h : Z) (o : outcome) : Prop :=
  match o with Output _ r => raster_for w h r | Raised e => e <> FAbort end.

Lemma decoder_refs_ok w h d : decoder_good w h d -> refs_ok (Z.of_nat (mb_dim w)) (Z.of_nat (mb_dim h)) (dc_refs d).
Proof. intros [_ [A _] [B _] [C _]]. split; [exact A|split; [exact B|exact C]]. Qed.

Lemma frame_tokens_no_abort c w h partial u tbl W n ms : chunk_ok c -> bytes_ok (cbytes c) -> uncompressed_chunk c w h partial = Ok u ->
  frame_tokens tbl W n u ms <> Err FAbort.
Proof.
  intros Hc Bc E. pose proof (C13_partitions_within_input c w h partial Hc Bc) as P. rewrite E in P. destruct P as (_ & _ & P).
  specialize (P n). unfold frame_tokens. destruct (dct_partitions u n) as [|e]; [discriminate|]. subst e. discriminate.
Qed.

Lemma key_frame_no_abort c w h partial u : chunk_ok c -> bytes_ok (cbytes c) -> uncompressed_chunk c w h partial = Ok u ->
  uc_key u = true -> key_frame_parse w h u <> Err FAbort.
Proof.
  intros Hc Bc E K. unfold key_frame_parse. rewrite K. cbn [negb]. destruct (uc_experimental u); [discriminate|].
  destruct (key_frame_header_decode (first_decoder u)) as [hd d]. destruct (negb _); [discriminate|].
  destruct (kf_macroblocks_decode hd (mb_dim w) (mb_dim h) d) as [ms d2].
  match goal with |- context [frame_tokens ?a ?b ?n ?u ?m] => pose proof (frame_tokens_no_abort c w h partial u a b n m Hc Bc E) as N; destruct (frame_tokens a b n u m) as [|e] end;
    cbn [rbind]; congruence.
Qed.
Lemma inter_frame_no_abort c w h partial u pt : chunk_ok c -> bytes_ok (cbytes c) -> uncompressed_chunk c w h partial = Ok u ->
  uc_key u = false -> inter_frame_parse pt w h u <> Err FAbort.
Proof.
  intros Hc Bc E K. unfold inter_frame_parse. rewrite K.
  destruct (inter_frame_header_decode (first_decoder u)) as [hd d]. destruct (negb _); [discriminate|].
  destruct (if_macroblocks_decode hd (pt_update pt hd) (mb_dim w) (mb_dim h) d) as [ms d2].
  match goal with |- context [frame_tokens ?a ?b ?n ?u ?m] => pose proof (frame_tokens_no_abort c w h partial u a b n m Hc Bc E) as N; destruct (frame_tokens a b n u m) as [|e] end;
    cbn [rbind]; congruence.
Qed.

Lemma inter_copy_good (P : raster -> Prop) hd r refs : P r -> P (rf_last refs) -> P (rf_golden refs) -> P (rf_alt refs) ->
  let refs' := inter_copy_to hd r refs in P (rf_last refs') /\ P (rf_golden refs') /\ P (rf_alt refs').
Proof.
  intros R L G A. unfold inter_copy_to. cbv zeta.
  destruct (if_refresh_golden hd), (if_refresh_alternate hd), (if_refresh_last hd); cbn [rf_last rf_golden rf_alt];
  destruct (if_copy_to_alternate hd) as [[|[| |]|]|]; cbn [rf_last rf_golden rf_alt];
  destruct (if_copy_to_golden hd) as [[|[| |]|]|]; cbn [rf_last rf_golden rf_alt];
  repeat match goal with |- context [match ?p with xI _ => _ | xO _ => _ | xH => _ end] => destruct p; cbn [rf_last rf_golden rf_alt] end; auto.
Qed.

Lemma seg_o_ok w h seg : o_ok (seg_good w h) seg -> forall s, seg = Some s -> segmentation_ok s.
Proof. intros G s E. apply (seg_good_ok w h), G, E. Qed.

(** The key lemma: one frame, whatever the buffer held. *)
Lemma step_good w h d c : 0 < w <= 16383 -> 0 < h <= 16383 -> decoder_good w h d -> chunk_ok c -> bytes_ok (cbytes c) ->
  exists d' o, decoder_good w h d' /\ dc_conceal d' = dc_conceal d /\ outcome_good w h o /\
    forall scratch, raster_for w h scratch -> get_frame_output d c scratch = (d', o).
Proof.
  intros Hw Hh G Hc Bc. unfold get_frame_output. pose proof (dcg_s _ _ _ G) as GS. pose proof GS as [Ew Eh _ _ _]. rewrite Ew, Eh.
  pose proof (C13_partitions_within_input c w h (dc_conceal d) Hc Bc) as P.
  destruct (uncompressed_chunk c w h (dc_conceal d)) as [u|e] eqn:EU.
  2:{ exists d, (Raised (uc_frame_error e)). split; [exact G|]. split; [reflexivity|]. split; [|reflexivity].
      destruct P; subst e; cbn; discriminate. }
  clear P. pose proof G as [_ GL GG GA].
  destruct (uc_key u) eqn:EK; [|destruct (uc_experimental u) eqn:EX]; cbn [negb].
  - pose proof (parse_key_good w h (dc_state d) u ltac:(lia) ltac:(lia) GS) as PK.
    destruct (parse_key (dc_state d) u) as [s' r]. destruct PK as (GS' & DR & HI).
    destruct r as [[[[hd ms] cs] ids]|e]; cbn [drop_ids] in DR.
    + destruct (HI hd ms cs ids eq_refl) as [LI OI].
      destruct (C54_key_frame w h u hd ms cs ids (ds_seg s') (ds_fa s') (dc_refs d) w h Hw Hh (eq_sym DR) LI OI (seg_o_ok w h _ (stg_seg _ _ _ GS'))) as (r & OR & Dw & Dh & HR).
      exists (mkDecoder s' (mkRefs r r r) (dc_conceal d)), (Output (uc_show u) r).
      assert (raster_for w h r) as RF by (split; [exact OR|split; assumption]).
      split; [constructor; cbn; auto|]. split; [reflexivity|]. split; [exact RF|].
      intros scratch (S1 & S2 & S3). unfold show_picture. change (key_pic (mb_dim w) hd ms cs ids) with (key_picture (mb_dim w) hd ms cs ids).
      rewrite (HR scratch S1 S2 S3). reflexivity.
    + exists (mkDecoder s' (dc_refs d) (dc_conceal d)), (Raised e). split; [constructor; auto|]. split; [reflexivity|].
      split; [|reflexivity]. cbn. intros ->. exact (key_frame_no_abort c w h (dc_conceal d) u Hc Bc EU EK (eq_sym DR)).
  - exists d, (Raised FUnsupported). split; [exact G|]. split; [reflexivity|]. split; [cbn; discriminate|reflexivity].
  - pose proof (parse_inter_good w h (dc_state d) u ltac:(lia) ltac:(lia) GS) as PK.
    destruct (parse_inter (dc_state d) u) as [s' r]. destruct PK as (GS' & DR & HI).
    destruct r as [[[[hd ms] cs] ids]|e]; cbn [drop_ids] in DR.
    + destruct (HI hd ms cs ids eq_refl) as [LI OI].
      destruct (C54_inter_frame (ds_pt (dc_state d)) w h u hd ms cs ids (ds_seg s') (ds_fa s') (dc_refs d) w h Hw Hh (eq_sym DR) LI OI (seg_o_ok w h _ (stg_seg _ _ _ GS')) (decoder_refs_ok w h d G)) as (r & OR & Dw & Dh & HR).
      exists (mkDecoder s' (inter_copy_to hd r (dc_refs d)) (dc_conceal d)), (Output (uc_show u) r).
      assert (raster_for w h r) as RF by (split; [exact OR|split; assumption]).
      destruct (inter_copy_good (raster_for w h) hd r (dc_refs d) RF GL GG GA) as (A & B & C).
      split; [constructor; cbn; auto|]. split; [reflexivity|]. split; [exact RF|].
      intros scratch (S1 & S2 & S3). unfold show_picture. change (inter_pic (mb_dim w) hd ms cs ids) with (inter_picture (mb_dim w) hd ms cs ids).
      rewrite (HR scratch S1 S2 S3). reflexivity.
    + exists (mkDecoder s' (dc_refs d) (dc_conceal d)), (Raised e). split; [constructor; auto|]. split; [reflexivity|].
      split; [|reflexivity]. cbn. intros ->. exact (inter_frame_no_abort c w h (dc_conceal d) u _ Hc Bc EU EK (eq_sym DR)).
Qed.

(** A key frame's picture does not depend on the references, and its state
    does not depend on the old one beyond the dimensions. *)
Lemma ofold_ext {A S} (f g : S -> A -> option S) l : (forall s a, f s a = g s a) -> forall s, ofold f l s = ofold g l s.
Proof.
  intros E. induction l as [|a l IH]; intros s; [reflexivity|]. cbn [ofold]. rewrite E. destruct (g s a); cbn [obind]; [apply IH|reflexivity].
Qed.
Lemma key_picture_refs seg fa refs refs' pc scratch : pc_key pc = true ->
  picture_output seg fa refs pc scratch = picture_output seg fa refs' pc scratch.
Proof.
  intros K. unfold picture_output. f_equal. unfold picture_decode.
  destruct (make_quantizer (pc_qi pc)); [|reflexivity]. cbn [obind]. destruct (segment_quantizers seg (pc_qi pc)); [|reflexivity]. cbn [obind].
  apply ofold_ext. intros r [i [[m c] id]]. rewrite K. reflexivity.
Qed.

Lemma parse_key_forget s s' u : uc_key u = true -> ds_w s = ds_w s' -> ds_h s = ds_h s' ->
  snd (parse_key s u) = snd (parse_key s' u) /\
  (forall x, snd (parse_key s u) = Ok x -> fst (parse_key s u) = fst (parse_key s' u)).
Proof.
  intros K Ew Eh. unfold parse_key. rewrite K, Ew, Eh. cbn [negb]. destruct (uc_experimental u); [split; [reflexivity|discriminate]|].
  destruct (key_frame_header_decode (first_decoder u)) as [hd d]. destruct (negb (key_frame_header_supported hd)); [split; [reflexivity|discriminate]|].
  split; reflexivity.
Qed.
