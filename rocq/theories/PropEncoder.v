(** C28: the encoder and a decoder of what it writes stay in lockstep. *)
From Verif Require Import Base BoolCoderModel BoolEncProofs ParserModel Tables TreeModel HeaderModel HeaderProofs MVModel MBModel MBProofs MBDecoded.
From Verif Require Import ChunkModel ContainerModel ChunkProofs PropChunk ContainerProofs PropContainer FrameModel FrameProofs PropMacroblocks PropFrame.
From Verif Require Import QuantModel RasterModel TransformModel RasterProofs PredictModel LoopFilterModel PropLoopFilter ReconModel ReconProofs PropPicture.
From Verif Require Import StateModel StateProofs PropState EncoderModel SearchModel PropSearch.

(** * Without segmentation the cached ids do not matter *)

Lemma ofold_rel {A B R} (f : R -> A -> option R) (g : R -> B -> option R) (P : A -> B -> Prop) l l' :
  Forall2 P l l' -> (forall s a b, P a b -> f s a = g s b) -> forall s, ofold f l s = ofold g l' s.
Proof.
  intros F E. induction F as [|a b l l' HP F IH]; intros s; [reflexivity|]. cbn [ofold]. rewrite (E s a b HP).
  destruct (g s b); cbn [obind]; [apply IH|reflexivity].
Qed.

Definition same_but_id (x y : nat * (mbinfo * mbcoef * Z)) : Prop := fst x = fst y /\ fst (snd x) = fst (snd y).

Lemma combine_ids : forall (xs : list (mbinfo * mbcoef)) ids ids' k,
  length ids = length ids' ->
  Forall2 same_but_id (combine (seq k (length (combine xs ids))) (combine xs ids))
                      (combine (seq k (length (combine xs ids'))) (combine xs ids')).
Proof.
  induction xs as [|x xs IH]; intros [|i ids] [|j ids'] k L; try discriminate; cbn [combine length seq]; try constructor.
  - split; reflexivity.
  - apply IH. injection L as L. exact L.
Qed.

Definition with_ids (pc : picture) (xs : list (mbinfo * mbcoef)) (ids : list Z) : picture :=
  mkPic (pc_key pc) (pc_qi pc) (pc_simple pc) (pc_level pc) (pc_sharpness pc) (pc_W pc) (combine xs ids).

Lemma picture_ids fa refs pc xs ids ids' scratch : length ids = length ids' ->
  picture_output None fa refs (with_ids pc xs ids) scratch = picture_output None fa refs (with_ids pc xs ids') scratch.
Proof.
  intros L. assert (F := combine_ids xs ids ids' 0 L). unfold picture_output.
  assert (D : picture_decode None refs (with_ids pc xs ids) scratch = picture_decode None refs (with_ids pc xs ids') scratch).
  { unfold picture_decode. cbn [with_ids pc_key pc_qi pc_W pc_mbs]. destruct (make_quantizer (pc_qi pc)); [|reflexivity].
    cbn [obind segment_quantizers]. apply (ofold_rel _ _ same_but_id); [exact F|].
    intros s [i [[m c] id]] [j [[m' c'] id']] [E1 E2]. cbn [fst snd] in E1, E2. subst j. injection E2 as <- <-. reflexivity. }
  rewrite D. destruct (picture_decode None refs (with_ids pc xs ids') scratch) as [r|]; [|reflexivity]. cbn [obind].
  unfold picture_loopfilter. cbn [with_ids pc_level]. destruct (pc_level pc =? 0); [reflexivity|].
  cbn [pc_key pc_W pc_mbs]. apply (ofold_rel _ _ same_but_id); [exact F|].
  intros s [i [[m c] id]] [j [[m' c'] id']] [E1 E2]. cbn [fst snd] in E1, E2. subst j. injection E2 as <- <-. reflexivity.
Qed.

Lemma key_pic_ids fa refs W hd ms cs ids ids' scratch : length ids = length ids' ->
  picture_output None fa refs (key_pic W hd ms cs ids) scratch = picture_output None fa refs (key_pic W hd ms cs ids') scratch.
Proof. exact (picture_ids fa refs (key_pic W hd ms cs ids) (combine ms cs) ids ids' scratch). Qed.
Lemma inter_pic_ids fa refs W hd ms cs ids ids' scratch : length ids = length ids' ->
  picture_output None fa refs (inter_pic W hd ms cs ids) scratch = picture_output None fa refs (inter_pic W hd ms cs ids') scratch.
Proof. exact (picture_ids fa refs (inter_pic W hd ms cs ids) (combine ms cs) ids ids' scratch). Qed.

(** * What parsing leaves in the state *)

Lemma set_seg_same s : set_seg s (ds_seg s) = s.
Proof. destruct s; reflexivity. Qed.

Lemma parse_key_state s u s' hd ms cs ids : parse_key s u = (s', Ok (hd, ms, cs, ids)) -> kf_update_segmentation hd = None ->
  s' = update_state_key s hd.
Proof.
  unfold parse_key. destruct (negb (uc_key u)); [discriminate|]. destruct (uc_experimental u); [discriminate|].
  destruct (key_frame_header_decode (first_decoder u)) as [hd0 d]. destruct (negb (key_frame_header_supported hd0)); [discriminate|].
  destruct (kf_macroblocks_decode hd0 (mb_dim (ds_w s)) (mb_dim (ds_h s)) d) as [ms0 d2]. unfold update_state_key.
  set (s2 := if kf_refresh_entropy_probs hd0 then _ else _).
  destruct (update_map (mb_dim (ds_w s)) (ds_seg s2) ms0) as [[seg ids0]|] eqn:EM; [|discriminate].
  destruct (frame_tokens _ _ _ _ _) as [cs0|]; [|discriminate].
  intros Q N. injection Q as <- <- <- <- <-. fold s2.
  assert (E : ds_seg s2 = None) by (unfold s2, key_state; rewrite N; destruct (kf_refresh_entropy_probs hd0); reflexivity).
  rewrite E in EM. cbn [update_map] in EM. injection EM as <- _. rewrite <- E. apply set_seg_same.
Qed.

Lemma parse_inter_state s u s' hd ms cs ids : parse_inter s u = (s', Ok (hd, ms, cs, ids)) -> if_update_segmentation hd = None ->
  s' = set_seg (update_state_inter s hd) None.
Proof.
  unfold parse_inter. destruct (uc_key u); [discriminate|].
  destruct (inter_frame_header_decode (first_decoder u)) as [hd0 d]. destruct (negb (inter_frame_header_supported hd0)); [discriminate|].
  destruct (if_macroblocks_decode hd0 (pt_update (ds_pt s) hd0) (mb_dim (ds_w s)) (mb_dim (ds_h s)) d) as [ms0 d2].
  set (s2 := set_fa _ _). set (s3 := set_seg s2 _).
  destruct (update_map (mb_dim (ds_w s)) (ds_seg s3) ms0) as [[seg ids0]|] eqn:EM; [|discriminate].
  destruct (frame_tokens _ _ _ _ _) as [cs0|]; [|discriminate].
  intros Q N. injection Q as <- <- <- <- <-.
  assert (E : ds_seg s3 = None) by (unfold s3; cbn [set_seg ds_seg]; rewrite N; reflexivity).
  rewrite E in EM. cbn [update_map] in EM. injection EM as <- _. reflexivity.
Qed.

Lemma parse_inter_seg s u s' hd ms cs ids us : parse_inter s u = (s', Ok (hd, ms, cs, ids)) ->
  if_update_segmentation hd = Some us -> (forall x, inter_seg (ds_w s) (ds_h s) (ds_seg s) (Some us) = x -> x <> None) -> ds_seg s' <> None.
Proof.
  unfold parse_inter. destruct (uc_key u); [discriminate|].
  destruct (inter_frame_header_decode (first_decoder u)) as [hd0 d]. destruct (negb (inter_frame_header_supported hd0)); [discriminate|].
  destruct (if_macroblocks_decode hd0 (pt_update (ds_pt s) hd0) (mb_dim (ds_w s)) (mb_dim (ds_h s)) d) as [ms0 d2].
  set (s2 := set_fa _ _). set (s3 := set_seg s2 _).
  destruct (update_map (mb_dim (ds_w s)) (ds_seg s3) ms0) as [[seg ids0]|] eqn:EM; [|discriminate].
  destruct (frame_tokens _ _ _ _ _) as [cs0|]; [|discriminate].
  intros Q N K. injection Q as <- <- <- <- <-.
  cbn [set_seg ds_seg]. assert (E : ds_seg s3 = inter_seg (ds_w s) (ds_h s) (ds_seg s) (Some us)).
  { unfold s3. cbn [set_seg ds_seg]. rewrite N. f_equal. unfold s2. cbn [set_fa ds_seg].
    destruct (if_refresh_entropy_probs hd0); reflexivity. }
  specialize (K _ eq_refl). rewrite <- E in K. destruct (ds_seg s3) as [sg|]; [|congruence].
  cbn [update_map] in EM. destruct (map_loop (mb_dim (ds_w s)) 0 ms0 (sg_map sg)) as [[m ids1]|]; [|discriminate].
  cbn [obind] in EM. injection EM as <- _. discriminate.
Qed.

(** * Lockstep *)

(** The decoder is in the state the encoder thinks it is in. *)
Definition lockstep (e : encoder) (d : decoder) : Prop :=
  dc_state d = en_state e /\ dc_refs d = en_refs e /\ ds_seg (en_state e) = None.

(** What must agree before a frame: for a key frame the dimensions; for an
    inter frame everything, except that the filter deltas need not agree if the
    frame brings its own. *)
Definition ready (w h : Z) (e : encoder) (d : decoder) (f : wframe) : Prop :=
  ds_w (en_state e) = w /\ ds_h (en_state e) = h /\
  match f with
  | KeyW _ _ _ _ _ => True
  | InterW _ hd _ _ _ =>
      ds_pt (dc_state d) = ds_pt (en_state e) /\ dc_refs d = en_refs e /\
      ds_seg (en_state e) = None /\ ds_seg (dc_state d) = None /\
      (ds_fa (dc_state d) = ds_fa (en_state e) \/ exists deltas, if_mode_lf_adjustments hd = Some (Some deltas))
  end.

(** A frame that fits the format and has no segmentation (see C11 for
    [coefs_ok], [kf_mb_ok] and [if_mb_ok]). *)
Definition writable (w h : Z) (f : wframe) : Prop :=
  match f with
  | KeyW _ hd ms cs ids =>
      kfh_ok hd /\ key_frame_header_supported hd = true /\ length ms = (mb_dim w * mb_dim h)%nat /\
      Forall (kf_mb_ok hd) ms /\ coefs_ok ms cs /\ length ids = length ms /\ kf_update_segmentation hd = None
  | InterW _ hd ms cs ids =>
      ifh_ok hd /\ inter_frame_header_supported hd = true /\ length ms = (mb_dim w * mb_dim h)%nat /\
      (forall i m, nth_error ms i = Some m -> if_mb_ok hd (mb_dim w) (mb_dim h) ms i m) /\ coefs_ok ms cs /\
      length ids = length ms /\ if_update_segmentation hd = None
  end.

(** The partitions do not outgrow the length fields of the container, for a
    frame written with the tables [pt]. *)
Definition sizes_ok (pt : ProbabilityTables) (w h : Z) (f : wframe) (bytes : list Z) : Prop :=
  match f with
  | KeyW _ hd ms cs _ =>
      forall first parts,
      kf_first_partition hd (mb_dim w) ms = Some first ->
      serialize_frame_tokens (pt_coeff (coeff_prob_update default_pt (kf_token_prob_update hd)))
        (mb_dim w) (partition_count (kf_log2_partitions hd)) ms cs = Some parts ->
      sizes_fit first parts bytes
  | InterW _ hd ms cs _ =>
      forall first parts,
      if_first_partition hd (pt_update pt hd) (mb_dim w) (mb_dim h) ms = Some first ->
      serialize_frame_tokens (pt_coeff (pt_update pt hd))
        (mb_dim w) (partition_count (if_log2_partitions hd)) ms cs = Some parts ->
      sizes_fit first parts bytes
  end.

Definition shown (f : wframe) : bool := match f with KeyW s _ _ _ _ => s | InterW s _ _ _ _ => s end.

(** The reconstruction the encoder keeps as the new picture. *)
Definition kept_raster (e' : encoder) (f : wframe) (r : raster) : Prop :=
  match f with
  | KeyW _ _ _ _ _ => rf_last (en_refs e') = r
  | InterW _ hd _ _ _ => if_refresh_last hd = true -> rf_last (en_refs e') = r
  end.

Lemma inter_last hd r refs : if_refresh_last hd = true -> rf_last (inter_copy_to hd r refs) = r.
Proof. intros E. unfold inter_copy_to. cbv zeta. rewrite E. reflexivity. Qed.

Lemma zeros_ok n : ids_ok (repeat 0 n).
Proof. unfold ids_ok. apply Forall_repeat. lia. Qed.

Lemma key_pic_good w h hd ms cs ids fa refs : 0 < w <= 16383 -> 0 < h <= 16383 ->
  kfh_ok hd -> key_frame_header_supported hd = true -> length ms = (mb_dim w * mb_dim h)%nat ->
  Forall (kf_mb_ok hd) ms -> coefs_ok ms cs -> length ids = length ms ->
  exists r, raster_for w h r /\ forall s, raster_for w h s ->
    picture_output None fa refs (key_pic (mb_dim w) hd ms cs ids) s = Some (Filtered r).
Proof.
  intros Hw Hh K SU LM FM (LC & FC) LI.
  destruct (C54_picture None fa refs (key_pic (mb_dim w) hd ms cs (repeat 0 (length ms))) (Z.of_nat (mb_dim w)) (Z.of_nat (mb_dim h)) w h) as (r & A & B & C & D).
  - unfold picture_ok. cbn [pc_W pc_mbs pc_qi pc_simple pc_key key_pic].
    split; [reflexivity|]. split; [rewrite !combine_length, LC, repeat_length, LM; lia|]. split; [apply dims_ok, Hw|]. split; [apply dims_ok, Hh|].
    split; [apply (kfo_qi hd K)|]. split.
    { unfold key_frame_header_supported in SU. apply andb_true_iff in SU. destruct SU as [_ SU]. apply negb_true_iff in SU. exact SU. }
    split; [|split; [discriminate|]].
    + intros _. apply mbs_forall. intros i m c id Hm _ _. apply (proj1 (Forall_forall _ _) FM m (nth_error_In _ _ Hm)).
    + apply mbs_forall. intros i m c id Hm Hc Hid.
      pose proof (proj1 (Forall_forall _ _) FM m (nth_error_In _ _ Hm)) as (_ & _ & EI & _ & _ & _ & _ & _ & IM).
      split; [|exact (proj1 (Forall_forall _ _) (zeros_ok (length ms)) id (nth_error_In _ _ Hid))].
      split; [exact (coef_ok_shape m c (FC i m c Hm Hc))|]. rewrite EI. exact IM.
  - discriminate.
  - exists r. split; [split; [exact A|split; [exact B|exact C]]|]. intros s (A1 & A2 & A3).
    rewrite (key_pic_ids _ _ _ _ _ _ ids (repeat 0 (length ms))) by (rewrite repeat_length; exact LI). apply D; assumption.
Qed.

Lemma inter_pic_good w h hd ms cs ids fa refs : 0 < w <= 16383 -> 0 < h <= 16383 ->
  ifh_ok hd -> inter_frame_header_supported hd = true -> length ms = (mb_dim w * mb_dim h)%nat ->
  (forall i m, nth_error ms i = Some m -> if_mb_ok hd (mb_dim w) (mb_dim h) ms i m) -> coefs_ok ms cs -> length ids = length ms ->
  refs_ok (Z.of_nat (mb_dim w)) (Z.of_nat (mb_dim h)) refs ->
  exists r, raster_for w h r /\ forall s, raster_for w h s ->
    picture_output None fa refs (inter_pic (mb_dim w) hd ms cs ids) s = Some (Filtered r).
Proof.
  intros Hw Hh K SU LM FM (LC & FC) LI HR.
  destruct (C54_picture None fa refs (inter_pic (mb_dim w) hd ms cs (repeat 0 (length ms))) (Z.of_nat (mb_dim w)) (Z.of_nat (mb_dim h)) w h) as (r & A & B & C & D).
  - unfold picture_ok. cbn [pc_W pc_mbs pc_qi pc_simple pc_key inter_pic].
    split; [reflexivity|]. split; [rewrite !combine_length, LC, repeat_length, LM; lia|]. split; [apply dims_ok, Hw|]. split; [apply dims_ok, Hh|].
    split; [apply (ifo_qi hd K)|]. split.
    { unfold inter_frame_header_supported in SU. apply negb_true_iff in SU. exact SU. }
    split; [discriminate|]. split; [intros _; exact HR|].
    apply mbs_forall. intros i m c id Hm Hc Hid.
    split; [|exact (proj1 (Forall_forall _ _) (zeros_ok (length ms)) id (nth_error_In _ _ Hid))].
    split; [exact (coef_ok_shape m c (FC i m c Hm Hc))|].
    destruct (FM i m Hm) as (_ & _ & _ & HMB).
    destruct (mb_inter m) eqn:EI; [|apply HMB].
    destruct (parsed_mvs_ok hd (mb_dim w) (mb_dim h) ms ltac:(unfold mb_dim; lia) FM i m Hm) as [M1 M2].
    split; [exact M1|]. split; [exact M2|]. destruct HMB as [_ HMB]. unfold inter_modes_ok in HMB. cbv zeta in HMB.
    destruct HMB as [[E _]|[[E _]|[[E _]|[[E _]|[E _]]]]]; rewrite E; discriminate.
  - discriminate.
  - exists r. split; [split; [exact A|split; [exact B|exact C]]|]. intros s (A1 & A2 & A3).
    rewrite (inter_pic_ids _ _ _ _ _ _ ids (repeat 0 (length ms))) by (rewrite repeat_length; exact LI). apply D; assumption.
Qed.

Lemma state_eq s t : ds_w s = ds_w t -> ds_h s = ds_h t -> ds_pt s = ds_pt t -> ds_seg s = ds_seg t -> ds_fa s = ds_fa t -> s = t.
Proof. destruct s as [a b c x y], t as [a' b' c' x' y']. cbn [ds_w ds_h ds_pt ds_seg ds_fa]. intros. subst. reflexivity. Qed.

(** One frame: the encoder can write it, and a decoder that is ready gets from
    the bytes exactly the picture, the references and the state the encoder has
    afterwards. The picture buffers may hold anything. *)
Theorem C28_frame : forall w h e d f blank scratch scratch',
  0 < w <= 16383 -> 0 < h <= 16383 -> decoder_good w h d -> ready w h e d f -> writable w h f ->
  raster_for w h scratch -> raster_for w h scratch' ->
  exists e' bytes, write_frame e f blank scratch = Some (e', bytes) /\ bytes_ok bytes /\
    (sizes_ok (ds_pt (en_state e)) w h f bytes ->
     exists d' r, get_frame_output d (chunk_of bytes) scratch' = (d', Output (shown f) r)
       /\ lockstep e' d' /\ kept_raster e' f r /\ decoder_good w h d').
Proof.
  intros w h e d f blank scratch scratch' Hw Hh G (Rw & Rh & R) WR SC SC'.
  pose proof (dcg_s _ _ _ G) as GS. pose proof GS as [Ew Eh GP _ _].
  assert (GOOD : forall bytes d' o, bytes_ok bytes -> zlen bytes < 2 ^ 64 ->
      get_frame_output d (chunk_of bytes) scratch' = (d', o) -> decoder_good w h d').
  { intros bytes d' o BB LB E. destruct (chunk_of_ok bytes BB LB) as [CO CB].
    destruct (step_good w h d (chunk_of bytes) Hw Hh G CO CB) as (d2 & o2 & G2 & _ & _ & E2).
    rewrite (E2 scratch' SC') in E. injection E as <- <-. exact G2. }
  destruct f as [show hd ms cs ids|show hd ms cs ids]; cbn [writable] in WR; cbn [shown].
  - destruct WR as (K & SU & LM & FM & CO & LI & NS).
    destruct (C11_key_frame_round_trip show w h hd ms cs (dc_conceal d) Hw ltac:(lia) K SU LM FM CO)
      as (first & parts & bytes & EF & EP & EB & BB & RT).
    set (s' := update_state_key (en_state e) hd).
    assert (NSG : ds_seg s' = None) by (unfold s', update_state_key, key_state; rewrite NS; destruct (kf_refresh_entropy_probs hd); reflexivity).
    assert (SER : key_frame_serialize (ds_pt s') show w h hd ms cs = Some bytes).
    { rewrite <- EB. unfold s', update_state_key. destruct (kf_refresh_entropy_probs hd); cbn [set_tables ds_pt key_state]; [|reflexivity].
      apply (proj1 (C50_serialise_with_updated_tables default_pt show w h hd
        (mkIFH None false 0 0 None 0 (kf_quant_indices hd) false false None None false false false false [] None 0 0 0 None None []) ms cs)). }
    destruct (key_pic_good w h hd ms cs ids (ds_fa s') (mkRefs blank blank blank) Hw Hh K SU LM FM CO LI) as (r & RF & PIC).
    unfold write_frame. fold s'. rewrite Rw, Rh, NSG, (PIC scratch SC), SER.
    eexists. exists bytes. split; [reflexivity|]. split; [exact BB|]. intros SZ.
    assert (FIT := SZ first parts EF EP). destruct (RT FIT) as (u & EU & UK & US & PK).
    assert (LB : zlen bytes < 2 ^ 64) by apply FIT.
    assert (PG := parse_key_good w h (dc_state d) u ltac:(lia) ltac:(lia) GS).
    destruct (parse_key (dc_state d) u) as [s2 res] eqn:EPK. destruct PG as (G2 & DR & HI). rewrite PK in DR.
    destruct res as [[[[hd2 ms2] cs2] ids2]|]; [|discriminate]. cbn [drop_ids] in DR. injection DR as -> -> ->.
    assert (ES : s2 = s').
    { rewrite (parse_key_state _ _ _ _ _ _ _ EPK NS). unfold s', update_state_key. rewrite Ew, Eh, Rw, Rh. reflexivity. }
    destruct (HI hd ms cs ids2 eq_refl) as [LI2 _].
    assert (OUT : get_frame_output d (chunk_of bytes) scratch' = (mkDecoder s' (mkRefs r r r) (dc_conceal d), Output show r)).
    { unfold get_frame_output. rewrite Ew, Eh, EU, UK, EPK. unfold show_picture. rewrite ES, NSG.
      rewrite (key_pic_ids _ _ _ _ _ _ ids2 ids) by congruence.
      rewrite (key_picture_refs _ _ (dc_refs d) (mkRefs blank blank blank)) by reflexivity.
      rewrite (PIC scratch' SC'), US. reflexivity. }
    eexists. exists r. split; [exact OUT|]. split; [|split].
    + split; [reflexivity|]. split; [reflexivity|exact NSG].
    + reflexivity.
    + exact (GOOD bytes _ _ BB LB OUT).
  - destruct WR as (K & SU & LM & FM & CO & LI & NS). destruct R as (EPT & ERF & NSE & NSD & FA).
    destruct (C11_inter_frame_round_trip (ds_pt (en_state e)) show w h hd ms cs (dc_conceal d)) as (first & parts & bytes & EF & EP & EB & BB & RT);
      [rewrite <- EPT; apply GP|exact Hw|lia|exact K|exact SU|exact LM|exact FM|exact CO|].
    set (s' := update_state_inter (en_state e) hd).
    assert (NSG : ds_seg s' = None) by (unfold s', update_state_inter; cbn [set_fa ds_seg]; destruct (if_refresh_entropy_probs hd); exact NSE).
    assert (SER : inter_frame_serialize (ds_pt s') show w h hd ms cs = Some bytes).
    { rewrite <- EB. unfold s', update_state_inter. destruct (if_refresh_entropy_probs hd); cbn [set_tables set_fa ds_pt]; [|reflexivity].
      apply (proj2 (C50_serialise_with_updated_tables (ds_pt (en_state e)) show w h
        (mkKFH false false None false 0 0 None 0 (if_quant_indices hd) false [] None) hd ms cs)). }
    assert (HR := decoder_refs_ok w h d G). rewrite ERF in HR.
    destruct (inter_pic_good w h hd ms cs ids (ds_fa s') (en_refs e) Hw Hh K SU LM FM CO LI HR) as (r & RF & PIC).
    unfold write_frame. fold s'. rewrite Rw, Rh, NSG, (PIC scratch SC), SER.
    eexists. exists bytes. split; [reflexivity|]. split; [exact BB|]. intros SZ.
    assert (FIT := SZ first parts EF EP). destruct (RT FIT) as (u & EU & UK & US & UX & PK).
    assert (LB : zlen bytes < 2 ^ 64) by apply FIT.
    assert (PG := parse_inter_good w h (dc_state d) u ltac:(lia) ltac:(lia) GS). rewrite EPT in PG. rewrite PK in PG.
    destruct (parse_inter (dc_state d) u) as [s2 res] eqn:EPK. destruct PG as (G2 & DR & HI).
    destruct res as [[[[hd2 ms2] cs2] ids2]|]; [|discriminate]. cbn [drop_ids] in DR. injection DR as -> -> ->.
    assert (ES : s2 = s').
    { rewrite (parse_inter_state _ _ _ _ _ _ _ EPK NS). unfold s', update_state_inter.
      apply state_eq; cbn [set_seg set_fa ds_w ds_h ds_pt ds_seg ds_fa];
        destruct (if_refresh_entropy_probs hd); cbn [set_tables ds_w ds_h ds_pt ds_seg ds_fa]; try congruence;
        (destruct FA as [FA|[deltas FA]]; [rewrite FA; reflexivity|rewrite FA]);
        destruct (ds_fa (dc_state d)), (ds_fa (en_state e)); reflexivity. }
    destruct (HI hd ms cs ids2 eq_refl) as [LI2 _].
    assert (OUT : get_frame_output d (chunk_of bytes) scratch' = (mkDecoder s' (inter_copy_to hd r (en_refs e)) (dc_conceal d), Output show r)).
    { unfold get_frame_output. rewrite Ew, Eh, EU, UK, UX. cbn [negb]. rewrite EPK. unfold show_picture. rewrite ES, NSG, ERF.
      rewrite (inter_pic_ids _ _ _ _ _ _ ids2 ids) by congruence.
      rewrite (PIC scratch' SC'), US. reflexivity. }
    eexists. exists r. split; [exact OUT|]. split; [|split].
    + split; [reflexivity|]. split; [reflexivity|exact NSG].
    + cbn [kept_raster en_refs]. apply inter_last.
    + exact (GOOD bytes _ _ BB LB OUT).
Qed.

(** * Sequences *)

Lemma try_state_w ts : forall s, ds_w (fold_left trial_state ts s) = ds_w s /\ ds_h (fold_left trial_state ts s) = ds_h s.
Proof.
  induction ts as [|t ts IH]; intros s; [split; reflexivity|]. cbn [fold_left]. destruct (IH (trial_state s t)) as [A B].
  rewrite A, B. destruct t as [[]|[]]; split; reflexivity.
Qed.

(** Trial encodings that do not start a new stream change nothing but the
    deltas. *)
Lemma try_state_inter ts : ~ In (TrialKey true) ts -> forall s,
  let s' := fold_left trial_state ts s in
  ds_pt s' = ds_pt s /\ ds_seg s' = ds_seg s /\ (~ In (TrialInter true) ts -> ds_fa s' = ds_fa s).
Proof.
  induction ts as [|t ts IH]; intros N s; [repeat split; reflexivity|]. cbn [fold_left].
  assert (N' : ~ In (TrialKey true) ts) by (intros I; apply N; right; exact I).
  destruct (IH N' (trial_state s t)) as (A & B & C).
  destruct t as [[]|[]]; cbn [trial_state] in *; [exfalso; apply N; left; reflexivity| | |];
    (split; [exact A|]; split; [exact B|]); intros M; try (exfalso; apply M; left; reflexivity); apply C; intros I; apply M; right; exact I.
Qed.

(** The frames that may follow trial encodings: a key frame any; an inter frame
    none of a key frame, and if one of them left its deltas it has deltas of
    its own. Every path of the encoder is like that: encode_with_quantizer and
    encode_with_target_size put the state back, encode_with_minimum_ssim and
    reencode_as_interframe write the header whose deltas
    apply_best_loopfilter_settings has set, update_residues tries nothing. *)
Definition may_follow (ts : list trial) (f : wframe) : Prop :=
  match f with
  | KeyW _ _ _ _ _ => True
  | InterW _ hd _ _ _ =>
      ~ In (TrialKey true) ts /\ (In (TrialInter true) ts -> exists deltas, if_mode_lf_adjustments hd = Some (Some deltas))
  end.

Lemma trials_ready w h e d ts f : decoder_good w h d -> lockstep e d -> may_follow ts f -> ready w h (try_frames e ts) d f.
Proof.
  intros G (L1 & L2 & L3) F. pose proof (dcg_s _ _ _ G) as [Ew Eh _ _ _].
  destruct (try_state_w ts (en_state e)) as [A B]. unfold ready. cbn [try_frames en_state en_refs].
  rewrite A, B, <- L1. split; [exact Ew|]. split; [exact Eh|]. destruct f as [|show hd ms cs ids]; [exact I|].
  destruct F as [N F]. destruct (try_state_inter ts N (en_state e)) as (P & S & D). rewrite L1.
  split; [symmetry; exact P|]. split; [exact L2|]. split; [rewrite S; exact L3|]. split; [exact L3|].
  destruct (in_dec (fun a b : trial => ltac:(decide equality; apply bool_dec) : {a = b} + {a <> b}) (TrialInter true) ts) as [I|I].
  - right. apply F, I.
  - left. symmetry. apply D, I.
Qed.

(** The container's limits along a run. *)
Fixpoint run_sizes_ok (w h : Z) (e : encoder) (l : list (list trial * wframe * raster * raster)) : Prop :=
  match l with
  | [] => True
  | (ts, f, blank, scratch) :: r =>
      match write_frame (try_frames e ts) f blank scratch with
      | None => True
      | Some (e', bytes) => sizes_ok (ds_pt (en_state (try_frames e ts))) w h f bytes /\ run_sizes_ok w h e' r
      end
  end.

Definition item_ok (w h : Z) (x : list trial * wframe * raster * raster) : Prop :=
  let '(ts, f, blank, scratch) := x in writable w h f /\ may_follow ts f /\ raster_for w h scratch.

Definition frame_of (x : list trial * wframe * raster * raster) : wframe := snd (fst (fst x)).

(** Where a run may start: in lockstep, or anywhere with a key frame. *)
Definition start_ok (w h : Z) (e : encoder) (d : decoder) (l : list (list trial * wframe * raster * raster)) : Prop :=
  lockstep e d \/
  (ds_w (en_state e) = w /\ ds_h (en_state e) = h /\
   match l with x :: _ => match frame_of x with KeyW _ _ _ _ _ => True | _ => False end | [] => False end).

(** Every sequence of frames, with trial encodings in between: the encoder can
    write it, and a decoder that started in lockstep, or a decoder with any past
    if the first frame is a key frame, gives a picture for each frame and ends
    in lockstep. *)
Theorem C28_sequence : forall w h l e d scratches,
  0 < w <= 16383 -> 0 < h <= 16383 -> decoder_good w h d -> start_ok w h e d l ->
  Forall (item_ok w h) l -> length scratches = length l -> Forall (raster_for w h) scratches ->
  run_sizes_ok w h e l ->
  exists e' bs d' os, encode_run e l = Some (e', bs) /\ Forall bytes_ok bs
    /\ run_frames d (combine (map chunk_of bs) scratches) = (d', os)
    /\ lockstep e' d' /\ decoder_good w h d'
    /\ Forall2 (fun x o => exists r, o = Output (shown (frame_of x)) r) l os.
Proof.
  intros w h. induction l as [|[[[ts f] blank] scratch] l IH]; intros e d scratches Hw Hh G ST F LS FS RS.
  - cbn [encode_run]. exists e, [], d, []. split; [reflexivity|]. split; [constructor|].
    split; [reflexivity|]. split; [|split; [exact G|constructor]]. destruct ST as [ST|(_ & _ & ST)]; [exact ST|contradiction].
  - destruct scratches as [|s2 scratches]; [discriminate|]. injection LS as LS. inversion FS as [|? ? S2 FS']; subst.
    inversion F as [|? ? FH F']; subst. destruct FH as (W & M & S1).
    assert (RD : ready w h (try_frames e ts) d f).
    { destruct ST as [ST|(Dw & Dh & ST)]; [apply trials_ready; assumption|]. cbn [frame_of fst snd] in ST.
      destruct f; [|contradiction]. destruct (try_state_w ts (en_state e)) as [A B]. unfold ready. cbn [try_frames en_state].
      rewrite A, B. auto. }
    destruct (C28_frame w h (try_frames e ts) d f blank scratch s2 Hw Hh G RD W S1 S2) as (e1 & bytes & E1 & BB & K).
    cbn [encode_run run_sizes_ok] in *. rewrite E1 in *. destruct RS as [SZ RS].
    destruct (K SZ) as (d1 & r & OUT & LK & _ & G1).
    destruct (IH e1 d1 scratches Hw Hh G1 (or_introl LK) F' LS FS' RS) as (e2 & bs & d' & os & E2 & BS & RUN & LK' & G' & FO).
    rewrite E2. exists e2, (bytes :: bs), d', (Output (shown f) r :: os). split; [reflexivity|]. split; [constructor; assumption|].
    split; [|split; [exact LK'|split; [exact G'|]]].
    + cbn [map combine run_frames]. rewrite OUT, RUN. reflexivity.
    + constructor; [exists r; reflexivity|exact FO].
Qed.

(** An encoder made from a decoder whose segmentation is off is in lockstep
    with it; a new encoder may start with any key frame. *)
Theorem C28_continue : forall d realtime, ds_seg (dc_state d) = None -> lockstep (encoder_of d realtime) d.
Proof. intros d rt E. split; [reflexivity|]. split; [reflexivity|exact E]. Qed.

Theorem C28_new : forall w h r realtime d ts show hd ms cs ids blank scratch l,
  start_ok w h (new_encoder w h r realtime) d ((ts, KeyW show hd ms cs ids, blank, scratch) :: l).
Proof. intros. right. split; [reflexivity|]. split; [reflexivity|exact I]. Qed.

(** What a frame leaves for the search windows of the next one (C44) is in
    their range. *)
Theorem C28_windows : forall e f blank scratch e' bytes w h,
  writable w h f -> write_frame e f blank scratch = Some (e', bytes) -> en_realtime e = true ->
  (exists q, en_qi e' = Some q /\ 0 <= q < 128) /\ (exists l, en_level e' = Some l /\ 0 <= l < 64).
Proof.
  intros e f blank scratch e' bytes w h W E RT. unfold write_frame in E. destruct f as [show hd ms cs ids|show hd ms cs ids].
  - destruct W as (K & _). destruct (picture_output _ _ _ _ _) as [[r|]|]; try discriminate.
    destruct (key_frame_serialize _ _ _ _ _ _ _); [|discriminate]. injection E as <- <-. cbn [en_qi en_level]. rewrite RT.
    split; eexists; (split; [reflexivity|]); [exact (qi_y_ac _ (kfo_qi hd K))|exact (kfo_lvl hd K)].
  - destruct W as (K & _). destruct (picture_output _ _ _ _ _) as [[r|]|]; try discriminate.
    destruct (inter_frame_serialize _ _ _ _ _ _ _); [|discriminate]. injection E as <- <-. cbn [en_qi en_level]. rewrite RT.
    split; eexists; (split; [reflexivity|]); [exact (qi_y_ac _ (ifo_qi hd K))|exact (ifo_lvl hd K)].
Qed.

(** * Segmentation *)

(** A frame that fits the format, whatever its segmentation header. *)
Definition inter_fits (w h : Z) (hd : InterFrameHeader) (ms : list mbinfo) (cs : list mbcoef) (ids : list Z) : Prop :=
  ifh_ok hd /\ inter_frame_header_supported hd = true /\ length ms = (mb_dim w * mb_dim h)%nat /\
  (forall i m, nth_error ms i = Some m -> if_mb_ok hd (mb_dim w) (mb_dim h) ms i m) /\ coefs_ok ms cs /\
  length ids = length ms /\ ids_ok ids.

Lemma inter_pic_seg w h hd ms cs ids seg fa refs : 0 < w <= 16383 -> 0 < h <= 16383 -> inter_fits w h hd ms cs ids ->
  o_ok (seg_good w h) seg -> refs_ok (Z.of_nat (mb_dim w)) (Z.of_nat (mb_dim h)) refs ->
  exists r, forall s, raster_for w h s -> picture_output seg fa refs (inter_pic (mb_dim w) hd ms cs ids) s = Some (Filtered r).
Proof.
  intros Hw Hh (K & SU & LM & FM & (LC & FC) & LI & IO) SG HR.
  destruct (C54_picture seg fa refs (inter_pic (mb_dim w) hd ms cs ids) (Z.of_nat (mb_dim w)) (Z.of_nat (mb_dim h)) w h) as (r & A & B & C & D).
  - unfold picture_ok. cbn [pc_W pc_mbs pc_qi pc_simple pc_key inter_pic].
    split; [reflexivity|]. split; [rewrite !combine_length, LC, LI, LM; lia|]. split; [apply dims_ok, Hw|]. split; [apply dims_ok, Hh|].
    split; [apply (ifo_qi hd K)|]. split.
    { unfold inter_frame_header_supported in SU. apply negb_true_iff in SU. exact SU. }
    split; [discriminate|]. split; [intros _; exact HR|].
    apply mbs_forall. intros i m c id Hm Hc Hid.
    split; [|exact (proj1 (Forall_forall _ _) IO id (nth_error_In _ _ Hid))].
    split; [exact (coef_ok_shape m c (FC i m c Hm Hc))|].
    destruct (FM i m Hm) as (_ & _ & _ & HMB).
    destruct (mb_inter m) eqn:EI; [|apply HMB].
    destruct (parsed_mvs_ok hd (mb_dim w) (mb_dim h) ms ltac:(unfold mb_dim; lia) FM i m Hm) as [M1 M2].
    split; [exact M1|]. split; [exact M2|]. destruct HMB as [_ HMB]. unfold inter_modes_ok in HMB. cbv zeta in HMB.
    destruct HMB as [[E _]|[[E _]|[[E _]|[[E _]|[E _]]]]]; rewrite E; discriminate.
  - apply (seg_o_ok w h), SG.
  - exists r. intros s (A1 & A2 & A3). apply D; assumption.
Qed.

(** The encoder never changes its segmentation with an inter frame; the decoder
    has one after it exactly if the header has one. *)
Theorem C28_inter_segmentation : forall w h d realtime show hd ms cs ids blank scratch scratch',
  0 < w <= 16383 -> 0 < h <= 16383 -> decoder_good w h d -> inter_fits w h hd ms cs ids ->
  raster_for w h scratch -> raster_for w h scratch' ->
  exists e' bytes, write_frame (encoder_of d realtime) (InterW show hd ms cs ids) blank scratch = Some (e', bytes) /\
    ds_seg (en_state e') = ds_seg (dc_state d) /\
    (sizes_ok (ds_pt (dc_state d)) w h (InterW show hd ms cs ids) bytes ->
     exists d' r, get_frame_output d (chunk_of bytes) scratch' = (d', Output show r) /\
       (ds_seg (dc_state d') = None <-> if_update_segmentation hd = None)).
Proof.
  intros w h d rt show hd ms cs ids blank scratch scratch' Hw Hh G FI SC SC'.
  pose proof (dcg_s _ _ _ G) as GS. pose proof GS as [Ew Eh GP GSG _].
  destruct FI as (K & SU & LM & FM & CO & LI & IO).
  destruct (C11_inter_frame_round_trip (ds_pt (dc_state d)) show w h hd ms cs (dc_conceal d)) as (first & parts & bytes & EF & EP & EB & BB & RT);
    [apply GP|exact Hw|lia|exact K|exact SU|exact LM|exact FM|exact CO|].
  set (s' := update_state_inter (dc_state d) hd).
  assert (NSG : ds_seg s' = ds_seg (dc_state d)) by (unfold s', update_state_inter; cbn [set_fa ds_seg]; destruct (if_refresh_entropy_probs hd); reflexivity).
  assert (SER : inter_frame_serialize (ds_pt s') show w h hd ms cs = Some bytes).
  { rewrite <- EB. unfold s', update_state_inter. destruct (if_refresh_entropy_probs hd); cbn [set_tables set_fa ds_pt]; [|reflexivity].
    apply (proj2 (C50_serialise_with_updated_tables (ds_pt (dc_state d)) show w h
      (mkKFH false false None false 0 0 None 0 (if_quant_indices hd) false [] None) hd ms cs)). }
  assert (HR := decoder_refs_ok w h d G).
  assert (FI : inter_fits w h hd ms cs ids) by (unfold inter_fits; auto 10).
  destruct (inter_pic_seg w h hd ms cs ids (ds_seg (dc_state d)) (ds_fa s') (dc_refs d) Hw Hh FI GSG HR) as (r & PIC).
  unfold write_frame, encoder_of. cbn [en_state en_refs]. fold s'. rewrite Ew, Eh, NSG, (PIC scratch SC), SER.
  eexists. exists bytes. split; [reflexivity|]. split; [exact NSG|]. intros SZ.
  assert (FIT := SZ first parts EF EP). destruct (RT FIT) as (u & EU & UK & US & UX & PK).
  assert (PG := parse_inter_good w h (dc_state d) u ltac:(lia) ltac:(lia) GS). rewrite PK in PG.
  destruct (parse_inter (dc_state d) u) as [s2 res] eqn:EPK. destruct PG as (G2 & DR & HI).
  destruct res as [[[[hd2 ms2] cs2] ids2]|]; [|discriminate]. cbn [drop_ids] in DR. injection DR as -> -> ->.
  destruct (HI hd ms cs ids2 eq_refl) as [LI2 IO2].
  assert (FI2 : inter_fits w h hd ms cs ids2) by (unfold inter_fits; auto 10).
  destruct (inter_pic_seg w h hd ms cs ids2 (ds_seg s2) (ds_fa s2) (dc_refs d) Hw Hh FI2 (stg_seg _ _ _ G2) HR) as (r2 & PIC2).
  assert (OUT : get_frame_output d (chunk_of bytes) scratch' = (mkDecoder s2 (inter_copy_to hd r2 (dc_refs d)) (dc_conceal d), Output show r2)).
  { unfold get_frame_output. rewrite Ew, Eh, EU, UK, UX. cbn [negb]. rewrite EPK. unfold show_picture.
    rewrite (PIC2 scratch' SC'), US. reflexivity. }
  eexists. exists r2. split; [exact OUT|]. cbn [dc_state]. split.
  - intros N. destruct (if_update_segmentation hd) as [us|] eqn:EU2; [|reflexivity]. exfalso.
    refine (parse_inter_seg _ _ _ _ _ _ _ us EPK EU2 _ N). rewrite Ew, Eh. intros x <-. unfold inter_seg.
    assert (UO : us_ok us) by exact (ifo_seg hd K us EU2).
    destruct (ds_seg (dc_state d)) as [sg|] eqn:ESG.
    + destruct (seg_update_good w h sg us (GSG sg eq_refl) UO) as (x & E & _). rewrite E. discriminate.
    + destruct (seg_new_good w h us ltac:(lia) ltac:(lia) UO) as (x & E & _). rewrite E. discriminate.
  - intros N. rewrite (parse_inter_state _ _ _ _ _ _ _ EPK N). reflexivity.
Qed.

(** ** Refutation: lockstep is lost if the frame has a segmentation header
    (reencode.cc l.246 copies it from the frame it re-encodes) ... *)
Theorem C28_written_segmentation_refuted : forall w h d realtime show hd ms cs ids blank scratch scratch',
  0 < w <= 16383 -> 0 < h <= 16383 -> decoder_good w h d -> inter_fits w h hd ms cs ids ->
  raster_for w h scratch -> raster_for w h scratch' ->
  ds_seg (dc_state d) = None -> if_update_segmentation hd <> None ->
  lockstep (encoder_of d realtime) d /\
  exists e' bytes, write_frame (encoder_of d realtime) (InterW show hd ms cs ids) blank scratch = Some (e', bytes) /\
    (sizes_ok (ds_pt (dc_state d)) w h (InterW show hd ms cs ids) bytes ->
     exists d' r, get_frame_output d (chunk_of bytes) scratch' = (d', Output show r) /\ ~ lockstep e' d').
Proof.
  intros w h d rt show hd ms cs ids blank scratch scratch' Hw Hh G FI SC SC' N U. split; [apply C28_continue, N|].
  destruct (C28_inter_segmentation w h d rt show hd ms cs ids blank scratch scratch' Hw Hh G FI SC SC') as (e' & bytes & E & SG & K).
  exists e', bytes. split; [exact E|]. intros SZ. destruct (K SZ) as (d' & r & OUT & [A B]). exists d', r. split; [exact OUT|].
  intros (L1 & _). apply U, A. rewrite L1, SG. exact N.
Qed.

(** ... and if the encoder continues the stream of a decoder with segmentation
    by a frame without a segmentation header, as all frames the encoder makes
    itself are. *)
Theorem C28_inherited_segmentation_refuted : forall w h d realtime show hd ms cs ids blank scratch scratch',
  0 < w <= 16383 -> 0 < h <= 16383 -> decoder_good w h d -> inter_fits w h hd ms cs ids ->
  raster_for w h scratch -> raster_for w h scratch' ->
  ds_seg (dc_state d) <> None -> if_update_segmentation hd = None ->
  dc_state d = en_state (encoder_of d realtime) /\ dc_refs d = en_refs (encoder_of d realtime) /\
  exists e' bytes, write_frame (encoder_of d realtime) (InterW show hd ms cs ids) blank scratch = Some (e', bytes) /\
    (sizes_ok (ds_pt (dc_state d)) w h (InterW show hd ms cs ids) bytes ->
     exists d' r, get_frame_output d (chunk_of bytes) scratch' = (d', Output show r) /\ dc_state d' <> en_state e').
Proof.
  intros w h d rt show hd ms cs ids blank scratch scratch' Hw Hh G FI SC SC' N U. split; [reflexivity|]. split; [reflexivity|].
  destruct (C28_inter_segmentation w h d rt show hd ms cs ids blank scratch scratch' Hw Hh G FI SC SC') as (e' & bytes & E & SG & K).
  exists e', bytes. split; [exact E|]. intros SZ. destruct (K SZ) as (d' & r & OUT & [A B]). exists d', r. split; [exact OUT|].
  intros L. apply N. rewrite <- SG, <- L. apply B, U.
Qed.

(** ** Example: a key frame and an inter frame of 20 x 10 pixels, with trial
    encodings, for a decoder with a past; then frames that lose lockstep. *)
Definition ex_kf_hd :=
  mkKFH false false None false 20 0 zero_deltas 0 (mkQI 40 None None None None None) true (repeat None 1056) (Some 128).
Definition ex_if_hd (u : option UpdateSegmentation) :=
  mkIFH u false 10 0 zero_deltas 0 (mkQI 40 None None None None None) false false (Some 1) (Some 2)
        true false false true (repeat None 1056) (Some 128) 120 100 128 None None (repeat None 38).
Definition ex_kf_ms := fst (kf_macroblocks_decode ex_kf_hd 2 1 (bdec_init true (example_frame_bytes 20))).
Definition ex_if_ms u := fst (if_macroblocks_decode (ex_if_hd u) default_pt 2 1 (bdec_init true (example_frame_bytes 20))).
Definition ex_kf_cs := tokens_decode (pt_coeff default_pt) 2 ex_kf_ms ex_kf_ms [] [bdec_init true (example_frame_bytes 20)].
Definition ex_if_cs u := tokens_decode (pt_coeff default_pt) 2 (ex_if_ms u) (ex_if_ms u) [] [bdec_init true (example_frame_bytes 20)].
Definition ex_kf := KeyW true ex_kf_hd ex_kf_ms ex_kf_cs [0; 0].
Definition ex_if u := InterW false (ex_if_hd u) (ex_if_ms u) (ex_if_cs u) [0; 0].
Definition ex_run := [([TrialInter true; TrialKey true], ex_kf, shaded 3, shaded 4); ([TrialInter true; TrialKey false], ex_if None, shaded 5, shaded 6)].

Lemma zero_lfd_ok : o_ok (o_ok lfd_ok) zero_deltas.
Proof.
  intros a [= <-] b [= <-]. constructor; cbn [ref_update mode_update repeat length]; try reflexivity;
    repeat constructor; intros x [= <-]; unfold s_ok; lia.
Qed.
Lemma ex_kf_hd_ok : kfh_ok ex_kf_hd.
Proof.
  constructor; cbn -[Z.pow repeat zero_deltas]; try exact zero_lfd_ok; unfold o_ok, u_ok; try lia;
    try (intros a E; discriminate); try (split; congruence); try reflexivity;
    try (apply repeat_none_ok); try (intros a E; injection E as <-; lia).
  constructor; cbn -[Z.pow]; unfold o_ok, u_ok; try lia; intros a E; discriminate.
Qed.
Lemma ex_if_hd_ok u : o_ok us_ok u -> ifh_ok (ex_if_hd u).
Proof.
  intros U. constructor; cbn -[Z.pow repeat zero_deltas]; try exact zero_lfd_ok; try exact U; unfold o_ok, u_ok; try lia;
    try (intros a E; discriminate); try (split; congruence); try reflexivity;
    try (apply repeat_none_ok); try (intros a E; injection E as <-; lia).
  constructor; cbn -[Z.pow]; unfold o_ok, u_ok; try lia; intros a E; discriminate.
Qed.

Lemma ex_kf_writable : writable 20 10 ex_kf.
Proof.
  destruct (yields_kf_macroblocks ex_kf_hd 2 1 (bdec_init true (example_frame_bytes 20))) as [HL HF].
  split; [exact ex_kf_hd_ok|]. split; [reflexivity|]. split; [exact HL|]. split; [exact HF|]. split; [apply coefs_ok_decoded|].
  split; [symmetry; exact HL|reflexivity].
Qed.
Lemma ex_if_fits u : o_ok us_ok u -> inter_fits 20 10 (ex_if_hd u) (ex_if_ms u) (ex_if_cs u) [0; 0].
Proof.
  intros U. destruct (yields_if_macroblocks (ex_if_hd u) default_pt 2 1 ltac:(lia) (bdec_init true (example_frame_bytes 20))) as [HL HF].
  split; [apply ex_if_hd_ok, U|]. split; [reflexivity|]. split; [exact HL|]. split; [exact HF|]. split; [apply coefs_ok_decoded|].
  split; [symmetry; exact HL|]. repeat constructor; lia.
Qed.
Lemma none_ok {A} (P : A -> Prop) : o_ok P None.
Proof. intros a [=]. Qed.

Definition sizes_small (pt : ProbabilityTables) (f : wframe) : bool :=
  match f with
  | KeyW _ hd ms cs _ =>
      match kf_first_partition hd 2 ms, serialize_frame_tokens (pt_coeff (coeff_prob_update default_pt (kf_token_prob_update hd))) 2 (partition_count (kf_log2_partitions hd)) ms cs with
      | Some first, Some parts => (zlen first <? 2 ^ 19) && forallb (fun p => zlen p <? 2 ^ 24) (removelast parts)
      | _, _ => true
      end
  | InterW _ hd ms cs _ =>
      match if_first_partition hd (pt_update pt hd) 2 1 ms, serialize_frame_tokens (pt_coeff (pt_update pt hd)) 2 (partition_count (if_log2_partitions hd)) ms cs with
      | Some first, Some parts => (zlen first <? 2 ^ 19) && forallb (fun p => zlen p <? 2 ^ 24) (removelast parts)
      | _, _ => true
      end
  end.
Lemma sizes_small_ok pt f bytes : sizes_small pt f = true -> zlen bytes < 2 ^ 64 -> sizes_ok pt 20 10 f bytes.
Proof.
  intros S L. destruct f as [show hd ms cs ids|show hd ms cs ids]; cbn [sizes_small] in S; intros first parts EF EP;
    change (mb_dim 20) with 2%nat in EF, EP; change (mb_dim 10) with 1%nat in EF; rewrite EF, EP in S;
    apply andb_true_iff in S; destruct S as [S1 S2]; (split; [lia|]); (split; [|exact L]);
    apply Forall_forall; intros p I; pose proof (proj1 (forallb_forall _ _) S2 p I); cbv beta in *; lia.
Qed.

Fixpoint run_small (e : encoder) (l : list (list trial * wframe * raster * raster)) : bool :=
  match l with
  | [] => true
  | (ts, f, blank, scratch) :: r =>
      match write_frame (try_frames e ts) f blank scratch with
      | None => true
      | Some (e', bytes) => sizes_small (ds_pt (en_state (try_frames e ts))) f && (zlen bytes <? 2 ^ 64) && run_small e' r
      end
  end.
Lemma run_small_ok l : forall e, run_small e l = true -> run_sizes_ok 20 10 e l.
Proof.
  induction l as [|[[[ts f] blank] scratch] l IH]; intros e S; [exact I|]. cbn [run_small run_sizes_ok] in *.
  destruct (write_frame _ _ _ _) as [[e' bytes]|]; [|exact I]. apply andb_true_iff in S. destruct S as [S S3].
  apply andb_true_iff in S. destruct S as [S1 S2]. split; [apply sizes_small_ok; [exact S1|lia]|apply IH, S3].
Qed.

Definition ex_encoder := new_encoder 20 10 (shaded 1) true.
Example C28_example :
  decoder_good 20 10 decoder_two /\ start_ok 20 10 ex_encoder decoder_two ex_run /\ Forall (item_ok 20 10) ex_run /\
  run_sizes_ok 20 10 ex_encoder ex_run.
Proof.
  split; [exact decoder_two_good|]. split; [apply C28_new|]. split.
  - constructor; [|constructor; [|constructor]].
    + split; [exact ex_kf_writable|]. split; [exact I|apply shaded_for].
    + pose proof (ex_if_fits None (none_ok _)) as (A & B & C & D & E & F & _).
      split; [unfold ex_if; cbn [writable]; auto 10|]. split; [|apply shaded_for]. split; [intros [|[|[]]]; discriminate|].
      intros _. eexists. reflexivity.
  - apply run_small_ok. vm_compute. reflexivity.
Qed.

(** The hypotheses of both refutations. *)
Example C28_refuted_example :
  inter_fits 20 10 (ex_if_hd (Some example_us)) (ex_if_ms (Some example_us)) (ex_if_cs (Some example_us)) [0; 0] /\
  ds_seg (dc_state decoder_one) = None /\
  inter_fits 20 10 (ex_if_hd None) (ex_if_ms None) (ex_if_cs None) [0; 0] /\
  ds_seg (dc_state decoder_two) <> None /\
  sizes_small (ds_pt (dc_state decoder_one)) (ex_if (Some example_us)) = true /\
  sizes_small (ds_pt (dc_state decoder_two)) (ex_if None) = true.
Proof.
  split; [apply ex_if_fits; intros a [= <-]; exact example_us_ok|]. split; [reflexivity|]. split; [apply ex_if_fits, none_ok|].
  split; [discriminate|]. split; vm_compute; reflexivity.
Qed.

Print Assumptions C28_frame.
Print Assumptions C28_sequence.
Print Assumptions C28_continue.
Print Assumptions C28_new.
Print Assumptions C28_windows.
Print Assumptions C28_inter_segmentation.
Print Assumptions C28_written_segmentation_refuted.
Print Assumptions C28_inherited_segmentation_refuted.
