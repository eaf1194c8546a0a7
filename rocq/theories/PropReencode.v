(** Theorems about encoding pictures again with given modes and vectors (C69). *)
From Verif Require Import Base BoolCoderModel ParserModel Tables TreeModel HeaderModel MVModel MBModel TokenModel ChunkModel ContainerModel FrameModel.
From Verif Require Import QuantModel RasterModel TransformModel PredictModel LoopFilterModel ReconModel StateModel EncoderModel.
From Verif Require Import ResidueModel SafeRasterModel MotionModel VarianceModel EncodeModel SearchModel ReencodeModel.
From Verif Require Import PropState HeaderProofs MBProofs TokenProofs FrameProofs RasterProofs PropQuant PropTransform PredictProofs PropInter PropIntra PropLoopFilter PropFrame.
From Verif Require Import ResidueProofs PropResidue PropVariance ReconProofs PropPicture PropRecon StateProofs PropEncoder PropSafeRaster PropMotion EncodeProofs EncodeMBProofs PropSearch PropEncode ReencodeProofs.

(** ** Macroblocks that differ in nothing that prediction needs *)

(** The same prediction: everything but the segment and the skip flag. *)
Definition same_prediction (a b : mbinfo) : Prop :=
  mb_inter a = mb_inter b /\ mb_sel1 a = mb_sel1 b /\ mb_sel2 a = mb_sel2 b /\ mb_flipped a = mb_flipped b /\ mb_partition a = mb_partition b /\
  mb_ymode a = mb_ymode b /\ mb_bmodes a = mb_bmodes b /\ mb_mvs a = mb_mvs b /\ mb_uvmode a = mb_uvmode b.

Lemma reskip_same m s : same_prediction m (reskip m s).
Proof. unfold same_prediction, reskip. cbn. auto 12. Qed.

Lemma same_neighbour a b : same_prediction a b -> as_neighbour a = as_neighbour b.
Proof. intros (A & B & C & D & E & F & G & I & J). unfold as_neighbour, base_mv. rewrite A, D, F, I. reflexivity. Qed.

Lemma Forall2_nth_error {A B} (P : A -> B -> Prop) l l' : Forall2 P l l' -> forall i,
  match nth_error l i, nth_error l' i with Some a, Some b => P a b | None, None => True | _, _ => False end.
Proof. induction 1 as [|a b l l' Hab _ IH]; intros [|i]; cbn; try exact I; [exact Hab|apply IH]. Qed.

Lemma Forall2_of_nth {A B} (P : A -> B -> Prop) l : forall l', length l = length l' ->
  (forall i a b, nth_error l i = Some a -> nth_error l' i = Some b -> P a b) -> Forall2 P l l'.
Proof.
  induction l as [|a l IH]; intros [|b l'] L F; try discriminate; constructor.
  - apply (F 0%nat); reflexivity.
  - apply IH; [cbn in L; congruence|]. intros i. exact (F (S i)).
Qed.

Lemma same_above {C} (f : mbinfo -> C) W l l' i : (forall a b, same_prediction a b -> f a = f b) -> Forall2 same_prediction l l' ->
  option_map f (above_of W l i) = option_map f (above_of W l' i) /\ option_map f (left_of W l i) = option_map f (left_of W l' i) /\
  option_map f (above_left_of W l i) = option_map f (above_left_of W l' i).
Proof.
  intros Hf F. assert (K : forall j, option_map f (nth_error l j) = option_map f (nth_error l' j)).
  { intros j. pose proof (Forall2_nth_error _ _ _ F j) as G. destruct (nth_error l j), (nth_error l' j); try contradiction; [cbn; f_equal; apply Hf, G|reflexivity]. }
  unfold above_of, left_of, above_left_of. destruct (i <? W)%nat, (i mod W =? 0)%nat; cbn [orb]; auto.
Qed.

Lemma same_modes W H l l' i m m' : Forall2 same_prediction l l' -> same_prediction m m' -> inter_modes_ok W H l i m -> inter_modes_ok W H l' i m'.
Proof.
  intros F (A & B & C & D & E & G & I & J & K) M. unfold inter_modes_ok in *. cbv zeta in *.
  destruct (same_above as_neighbour W l l' i same_neighbour F) as (X1 & X2 & X3).
  destruct (same_above mb_mvs W l l' i ltac:(intros a b S; apply S) F) as (Y1 & Y2 & _).
  assert (CE : census_at W (mb_flipped m) l i = census_at W (mb_flipped m') l' i) by (unfold census_at; rewrite X1, X2, X3, D; reflexivity).
  rewrite CE, Y1, Y2, E, G, I, J in M. exact M.
Qed.

Lemma same_mb_ok hd hd' W H l l' i m m' : Forall2 same_prediction l l' -> same_prediction m m' ->
  if_sign_bias_golden hd' = if_sign_bias_golden hd -> if_sign_bias_alternate hd' = if_sign_bias_alternate hd ->
  seg_ok (if_update_segmentation hd') (mb_segment m') -> skip_ok (if_prob_skip_false hd') (mb_skip m') ->
  if_mb_ok hd W H l i m -> if_mb_ok hd' W H l' i m'.
Proof.
  intros F SP S1 S2 SG SK (_ & _ & HO & MO). pose proof SP as (A & B & C & D & E & G & I & J & K).
  split; [exact SG|]. split; [exact SK|]. split.
  - unfold mb_header_ok, flip_of, MBModel.mb_reference in *. rewrite <- A, <- B, <- C, <- D, S1, S2. exact HO.
  - rewrite <- A. destruct (mb_inter m).
    + rewrite <- K. split; [apply MO|]. exact (same_modes W H l l' i m m' F SP (proj2 MO)).
    + rewrite <- E, <- G, <- I, <- J, <- K. exact MO.
Qed.

(** ** New residues for a frame *)

Lemma carry_frame_ok w h qi q refs hd ms0 cs0 ids0 show0 o r t : 0 < w <= 16383 -> 0 < h <= 16383 ->
  writable w h (InterW show0 hd ms0 cs0 ids0) -> qi_ok qi -> make_quantizer qi = Some q ->
  refs_ok (Z.of_nat (mb_dim w)) (Z.of_nat (mb_dim h)) refs -> raster_for w h o -> raster_for w h r -> raster_for w h t ->
  let good := fun (_ : list mbinfo) (i : nat) m => exists m0, nth_error ms0 i = Some m0 /\ m = reskip m0 (mb_skip m) /\ mb_skip m <> None in
  exists s, carry_frame q refs (mb_dim w) (mb_dim w * mb_dim h) ms0 o r t = Some s /\
    frame_inv (mb_dim w) (Z.of_nat (mb_dim w)) (Z.of_nat (mb_dim h)) q refs (fun _ => no_costs) o w h good (mb_dim w * mb_dim h) s /\
    forall d0, raster_for w h d0 -> ofold (decode_mb q refs (mb_dim w)) (indexed (combine (ec_ms s) (ec_cs s))) d0 = Some (ec_r s).
Proof.
  intros Hw Hh (K & SU & LM & FM & CO & LI & NS) QI Eq HR (Ho & _ & _) (Hr & Dw & Dh) (Ht & _ & _) good.
  pose proof (dims_ok w Hw) as Bw. pose proof (dims_ok h Hh) as Bh. assert (W0 : (0 < mb_dim w)%nat) by lia.
  destruct (frame_ok (mb_dim w) (mb_dim h) (Z.of_nat (mb_dim w)) (Z.of_nat (mb_dim h)) q refs (fun _ => no_costs) o w h good
              (carry_at q refs (mb_dim w) ms0 o) eq_refl eq_refl W0 ltac:(lia) ltac:(lia)) with (r := r) (t := t) as (s & E & IV & DE); try assumption.
  - intros; assumption.
  - intros s i R1 R2 Hi. destruct (nth_error ms0 i) as [m|] eqn:Em; [|apply nth_error_None in Em; lia].
    destruct (place (mb_dim w) (mb_dim h) _ _ eq_refl eq_refl W0 i Hi) as [Pc Pr].
    destruct (parsed_mvs_ok hd (mb_dim w) (mb_dim h) ms0 W0 FM i m Em) as [MV ML].
    pose proof (FM i m Em) as MO.
    destruct (carry_mb_ok (Z.of_nat (mb_dim w)) (Z.of_nat (mb_dim h)) qi q refs o (column_of (mb_dim w) i) (row_of (mb_dim w) i) m (ec_r s) (ec_t s)
                ltac:(lia) ltac:(lia) (qi_small_of qi QI) Eq HR Ho R1 R2 Pc Pr (fun skip => carried_reskip hd _ _ ms0 i m skip MO)) as (m' & c & r' & E & RES & EM).
    { destruct MO as (_ & _ & _ & MO). destruct (mb_inter m) eqn:HI; [|apply MO]. split; [exact MV|]. split; [exact ML|].
      destruct MO as [_ MO]. unfold inter_modes_ok in MO. cbv zeta in MO. unfold uniform.
      destruct MO as [[M (_ & _ & V)]|[[M (_ & _ & V)]|[[M (_ & _ & V)]|[[M (v & (_ & _ & V) & _)]|[M _]]]]]; rewrite M; (split; [discriminate|]); intros X; try (eexists; exact V); congruence. }
    exists m', c, r', (ec_t s). split; [unfold carry_at; rewrite Em; cbn [obind]; rewrite E; reflexivity|]. split; [exact RES|].
    exists m. split; [exact Em|]. rewrite EM. split; [reflexivity|]. discriminate.
  - exists s. split; [exact E|]. split; [exact IV|]. intros d0 (D0 & D1 & D2). apply DE; assumption.
Qed.

Definition ups_ok (ups : list (option Z)) : Prop := length ups = Z.to_nat 1056 /\ Forall (o_ok (u_ok 8)) ups.

Lemma fits_u8 old f t p : u_ok 8 old -> 0 <= f -> fits old f t p -> u_ok 8 p.
Proof. intros O F [A B]. unfold u_ok in *. change (2 ^ 8) with 256 in *. destruct (Z.eq_dec f 0) as [E|E]; [rewrite (A E); exact O|]. destruct (B ltac:(lia)) as [C _]. lia. Qed.

Lemma occurrences_nonneg r l : 0 <= occurrences r l.
Proof. unfold occurrences. unfold zlen. lia. Qed.

Lemma references_ok l a b c : zlen l < 2 ^ 24 -> u_ok 8 a -> u_ok 8 b -> u_ok 8 c ->
  exists p q r, optimize_interframe_probs a b c l = Some (p, q, r) /\ u_ok 8 p /\ u_ok 8 q /\ u_ok 8 r.
Proof.
  intros L A B C. destruct (C46_references a b c l L) as (p & q & r & E & F1 & F2 & F3). exists p, q, r. split; [exact E|].
  split; [apply (fits_u8 _ _ _ _ A (occurrences_nonneg _ _) F1)|]. split; [apply (fits_u8 _ _ _ _ B (occurrences_nonneg _ _) F2)|].
  apply (fits_u8 _ _ _ _ C (occurrences_nonneg _ _) F3).
Qed.

Lemma count_small w h {A} (l : list A) : 0 < w <= 16383 -> 0 < h <= 16383 -> length l = (mb_dim w * mb_dim h)%nat -> 0 < zlen l < 2 ^ 24.
Proof.
  intros Hw Hh L. unfold zlen. rewrite L, Nat2Z.inj_mul. change (2 ^ 24) with 16777216.
  assert (0 < Z.of_nat (mb_dim w) <= 1024) by (unfold mb_dim; lia). assert (0 < Z.of_nat (mb_dim h) <= 1024) by (unfold mb_dim; lia). nia.
Qed.

Lemma residue_header_ok hd qi last_frame ups skip p q r : ifh_ok hd -> qi_ok qi -> ups_ok ups -> u_ok 8 skip -> u_ok 8 p -> u_ok 8 q -> u_ok 8 r ->
  ifh_ok (residue_header hd qi last_frame ups skip (p, q, r)).
Proof.
  intros K Q [U1 U2] S1 P1 P2 P3. destruct K. unfold residue_header.
  constructor; cbn [if_update_segmentation if_loop_filter_level if_sharpness_level if_mode_lf_adjustments if_log2_partitions if_quant_indices if_refresh_golden if_copy_to_golden
    if_refresh_alternate if_copy_to_alternate if_token_prob_update if_prob_skip_false if_prob_inter if_prob_references_last if_prob_references_golden if_intra_16x16_prob if_intra_chroma_prob if_mv_prob_update];
    try assumption; try discriminate.
  - unfold u_ok. lia.
  - destruct last_frame; cbn [orb]; [split; [discriminate|congruence]|assumption].
  - destruct last_frame; cbn [orb]; [split; [discriminate|congruence]|assumption].
  - destruct last_frame; [discriminate|assumption].
  - destruct last_frame; [discriminate|assumption].
  - intros a [= <-]. exact S1.
  - reflexivity.
  - apply Forall_repeat. discriminate.
Qed.

(** A frame that is coded again keeps, macroblock by macroblock, how it is
    predicted; coding always succeeds; the new frame fits the format; the
    reconstruction is the one a decoder with the same references has before its
    loop filter; every pixel of it is near the target picture. *)
Theorem C69_residues : forall w h show0 hd ms0 cs0 ids0 refs qi q last_frame ups o r t,
  0 < w <= 16383 -> 0 < h <= 16383 -> writable w h (InterW show0 hd ms0 cs0 ids0) -> qi_ok qi -> make_quantizer qi = Some q -> ups_ok ups ->
  raster_for w h (rf_last refs) -> raster_for w h (rf_golden refs) -> raster_for w h (rf_alt refs) ->
  raster_for w h o -> raster_for w h r -> raster_for w h t ->
  exists hd' ms cs ids rec,
    update_residues refs (mb_dim w) (mb_dim w * mb_dim h) hd ms0 qi last_frame ups o r t = Some (InterW true hd' ms cs ids, rec) /\
    writable w h (InterW true hd' ms cs ids) /\ Forall2 same_prediction ms0 ms /\ if_quant_indices hd' = qi /\
    raster_for w h rec /\
    (forall scratch, raster_for w h scratch -> picture_decode None refs (inter_pic (mb_dim w) hd' ms cs ids) scratch = Some rec) /\
    frame_near q (mb_dim w) ms o rec.
Proof.
  intros w h show0 hd ms0 cs0 ids0 refs qi q last_frame ups o r t Hw Hh WR QI Eq UP R1 R2 R3 Ho Hr Ht.
  assert (HR : refs_ok (Z.of_nat (mb_dim w)) (Z.of_nat (mb_dim h)) refs) by (split; [apply R1|split; [apply R2|apply R3]]).
  destruct (carry_frame_ok w h qi q refs hd ms0 cs0 ids0 show0 o r t Hw Hh WR QI Eq HR Ho Hr Ht) as (s & E & IV & DE).
  destruct IV as ((L1 & L2) & (Q1 & Q2) & (D1 & D2) & GO & CO & NE & _).
  destruct WR as (K & SU & LM & FM & _ & _ & NS).
  unfold update_residues. rewrite Eq. cbn [obind]. rewrite E. cbn [obind].
  set (nz := map _ (combine (ec_ms s) (ec_cs s))).
  assert (LZ : length nz = (mb_dim w * mb_dim h)%nat) by (unfold nz; rewrite map_length, combine_length; lia).
  pose proof (count_small w h nz Hw Hh LZ) as CZ.
  destruct (C46_skip nz ltac:(destruct nz; [cbn in CZ; lia|discriminate]) (proj2 CZ)) as (skip & ES & BS & _). rewrite ES. cbn [obind].
  destruct (references_ok (map counted_reference (ec_ms s)) 0 (if_prob_references_last hd) (if_prob_references_golden hd)) as (p1 & p2 & p3 & EP & O1 & O2 & O3).
  { apply (count_small w h); try assumption. rewrite map_length. exact L1. }
  { unfold u_ok. lia. } { exact (ifo_last hd K). } { exact (ifo_gold hd K). }
  rewrite EP. cbn [obind]. set (hd' := residue_header hd qi last_frame ups skip (p1, p2, p3)).
  assert (SP : Forall2 same_prediction ms0 (ec_ms s)).
  { apply Forall2_of_nth; [congruence|]. intros i a b Ha Hb. destruct (GO i b Hb) as (m0 & Em & EB & _). rewrite Ha in Em. apply some_eq in Em. subst m0. rewrite EB. apply reskip_same. }
  assert (IK : ifh_ok hd') by (apply residue_header_ok; try assumption; unfold u_ok; change (2 ^ 8) with 256; lia).
  assert (LI : length (repeat 0 (mb_dim w * mb_dim h)) = length (ec_ms s)) by (rewrite repeat_length; lia).
  exists hd', (ec_ms s), (ec_cs s), (repeat 0 (mb_dim w * mb_dim h)), (ec_r s). split; [reflexivity|]. split; [|split; [exact SP|split; [reflexivity|split; [split; [exact Q1|auto]|split]]]].
  - cbn [writable]. split; [exact IK|]. split; [exact SU|]. split; [exact L1|]. split; [|split; [exact CO|split; [exact LI|exact NS]]].
    intros i m Hm. destruct (GO i m Hm) as (m0 & Em & EB & SK). apply (same_mb_ok hd hd' _ _ ms0 (ec_ms s) i m0 m); try assumption; try reflexivity.
    + rewrite EB. apply reskip_same.
    + rewrite EB. cbn [reskip mb_segment]. apply seg_none, NS.
    + unfold skip_ok. cbn. split; [intros _; exact SK|discriminate].
    + apply FM, Em.
  - intros scratch HS. rewrite (decode_inter _ _ hd' _ _ _ q) by (try assumption; lia). apply DE, HS.
  - apply (near_all q (mb_dim w) (mb_dim h) _ _ _ _ _ eq_refl eq_refl L1 (proj1 Ho)). intros j m Hm. apply NE; [exact Hm|reflexivity|apply no_costs_ok].
Qed.

(** What happens to the references: as with the old frame, except that the last
    frame of a run goes to all three. *)
Theorem C69_references : forall hd qi ups skip probs r refs,
  inter_copy_to (residue_header hd qi false ups skip probs) r refs = inter_copy_to hd r refs /\
  inter_copy_to (residue_header hd qi true ups skip probs) r refs = mkRefs r r r.
Proof. intros hd qi ups skip [[a b] c] r refs. split; reflexivity. Qed.

(** ** A key frame as an inter frame *)

Lemma as_inter_header_ok hd qi level ups skip p q r : kfh_ok hd -> kf_update_segmentation hd = None -> qi_ok qi -> u_ok 6 level -> ups_ok ups -> u_ok 8 skip -> u_ok 8 p -> u_ok 8 q -> u_ok 8 r ->
  ifh_ok (as_inter_header hd qi level ups skip (p, q, r)).
Proof.
  intros K NS Q LV [U1 U2] S1 P1 P2 P3. unfold as_inter_header.
  constructor; cbn [if_update_segmentation if_loop_filter_level if_sharpness_level if_mode_lf_adjustments if_log2_partitions if_quant_indices if_refresh_golden if_copy_to_golden
    if_refresh_alternate if_copy_to_alternate if_token_prob_update if_prob_skip_false if_prob_inter if_prob_references_last if_prob_references_golden if_intra_16x16_prob if_intra_chroma_prob if_mv_prob_update];
    try assumption.
  - exact (kfo_seg hd K).
  - exact (kfo_shp hd K).
  - exact zero_lfd_ok.
  - unfold u_ok. lia.
  - split; [discriminate|congruence].
  - split; [discriminate|congruence].
  - discriminate.
  - discriminate.
  - intros a [= <-]. exact S1.
  - intros a [= <-]. split; [reflexivity|]. unfold k_default_y_mode_probs. repeat (apply Forall_cons; [unfold u_ok; lia|]). constructor.
  - intros a [= <-]. split; [reflexivity|]. unfold k_default_uv_mode_probs. repeat (apply Forall_cons; [unfold u_ok; lia|]). constructor.
  - reflexivity.
  - apply Forall_repeat. discriminate.
Qed.

(** The same of a key frame that becomes an inter frame: it goes to all three
    references and brings its own filter deltas. *)
Theorem C69_as_interframe : forall w h hd qi q env mcs level ups o r t,
  0 < w <= 3968 -> 0 < h <= 3968 -> kfh_ok hd -> key_frame_header_supported hd = true -> kf_update_segmentation hd = None ->
  qi_ok qi -> make_quantizer qi = Some q -> u_ok 6 level -> ups_ok ups -> passes_ok mcs ->
  env_ok (Z.of_nat (mb_dim w)) (Z.of_nat (mb_dim h)) env -> raster_for w h o -> raster_for w h r -> raster_for w h t ->
  exists hd' ms cs ids rec,
    reencode_as_interframe env mcs (mb_dim w) (mb_dim h) hd qi level ups o r t = Some (InterW true hd' ms cs ids, rec) /\
    writable w h (InterW true hd' ms cs ids) /\ if_quant_indices hd' = qi /\ if_mode_lf_adjustments hd' = zero_deltas /\
    (forall pic refs, inter_copy_to hd' pic refs = mkRefs pic pic pic) /\
    raster_for w h rec /\
    (forall scratch, raster_for w h scratch -> picture_decode None (se_refs env) (inter_pic (mb_dim w) hd' ms cs ids) scratch = Some rec) /\
    (first_pass mcs -> frame_near q (mb_dim w) ms o rec).
Proof.
  intros w h hd qi q env mcs level ups o r t Hw Hh K SU NS QI Eq LV UP HP HE Ho Hr Ht.
  assert (Bw : 0 < Z.of_nat (mb_dim w) <= 248) by (unfold mb_dim; lia). assert (Bh : 0 < Z.of_nat (mb_dim h) <= 248) by (unfold mb_dim; lia).
  assert (HX : ifh_ok (as_inter_header hd qi level ups 0 (0, 0, 0))) by (apply as_inter_header_ok; try assumption; unfold u_ok; lia).
  destruct (C64_inter w h _ q env mcs o r t Hw Hh HX) as (e & E & WR0 & RE & DE0); try assumption; try reflexivity.
  { unfold key_frame_header_supported in SU. apply andb_true_iff in SU. apply SU. } { discriminate. }
  pose proof (WR0 true (repeat 0 (length (ec_ms e))) (repeat_length _ _)) as WR1. destruct WR1 as (_ & SU' & L1 & _ & (L2 & _) & _ & _).
  unfold reencode_as_interframe. rewrite Eq. cbn [obind]. rewrite E. cbn [obind].
  set (nz := map _ (combine (ec_ms e) (ec_cs e))).
  assert (LZ : length nz = (mb_dim w * mb_dim h)%nat) by (unfold nz; rewrite map_length, combine_length; lia).
  pose proof (count_small w h nz ltac:(lia) ltac:(lia) LZ) as CZ.
  destruct (C46_skip nz ltac:(destruct nz; [cbn in CZ; lia|discriminate]) (proj2 CZ)) as (skip & ES & BS & _). rewrite ES. cbn [obind].
  destruct (references_ok (map counted_reference (ec_ms e)) 0 0 0) as (p1 & p2 & p3 & EP & O1 & O2 & O3).
  { apply (count_small w h); try lia. rewrite map_length. exact L1. }
  { unfold u_ok. lia. } { unfold u_ok. lia. } { unfold u_ok. lia. }
  rewrite EP. cbn [obind]. set (hd' := as_inter_header hd qi level ups skip (p1, p2, p3)).
  assert (IK : ifh_ok hd') by (apply as_inter_header_ok; try assumption; unfold u_ok; change (2 ^ 8) with 256; lia).
  destruct (C64_inter w h hd' q env mcs o r t Hw Hh IK SU' NS ltac:(discriminate) Eq HP HE Ho Hr Ht) as (e2 & E2 & WR & _ & DE).
  rewrite E in E2. apply some_eq in E2. subst e2.
  assert (LI : length (repeat 0 (mb_dim w * mb_dim h)) = length (ec_ms e)) by (rewrite repeat_length; lia).
  exists hd', (ec_ms e), (ec_cs e), (repeat 0 (mb_dim w * mb_dim h)), (ec_r e). split; [reflexivity|]. split; [apply WR, LI|].
  split; [reflexivity|]. split; [reflexivity|]. split; [reflexivity|]. split; [exact RE|]. split.
  - intros scratch HS. apply DE; assumption.
  - intros FP. exact (C64_inter_near w h qi q env mcs o r t e Hw Hh QI Eq FP HE Ho Hr Ht E).
Qed.

(** ** Runs *)

Record encoder_good (w h : Z) (e : encoder) : Prop := {
  eng_s : state_good w h (en_state e);
  eng_n : ds_seg (en_state e) = None;
  eng_l : raster_for w h (rf_last (en_refs e));
  eng_g : raster_for w h (rf_golden (en_refs e));
  eng_a : raster_for w h (rf_alt (en_refs e))
}.

Lemma encoder_decoder w h e : encoder_good w h e -> decoder_good w h (mkDecoder (en_state e) (en_refs e) false).
Proof. intros [A B C D E]. constructor; assumption. Qed.

Lemma encoder_refs w h e : encoder_good w h e -> refs_ok (Z.of_nat (mb_dim w)) (Z.of_nat (mb_dim h)) (en_refs e).
Proof. intros [_ _ [A _] [B _] [C _]]. split; [exact A|split; [exact B|exact C]]. Qed.

Lemma copied_good w h hd r refs : raster_for w h r -> raster_for w h (rf_last refs) -> raster_for w h (rf_golden refs) -> raster_for w h (rf_alt refs) ->
  let refs' := inter_copy_to hd r refs in raster_for w h (rf_last refs') /\ raster_for w h (rf_golden refs') /\ raster_for w h (rf_alt refs').
Proof.
  intros R A B C. cbv zeta. unfold inter_copy_to. cbv zeta.
  set (r1 := match if_copy_to_alternate hd with Some 1 => _ | Some 2 => _ | _ => refs end).
  assert (raster_for w h (rf_last r1) /\ raster_for w h (rf_golden r1) /\ raster_for w h (rf_alt r1)) as (A1 & B1 & C1)
    by (unfold r1; destruct (if_copy_to_alternate hd) as [[|[|[]|]|]|]; cbn; auto). clearbody r1.
  set (r2 := match if_copy_to_golden hd with Some 1 => _ | Some 2 => _ | _ => r1 end).
  assert (raster_for w h (rf_last r2) /\ raster_for w h (rf_golden r2) /\ raster_for w h (rf_alt r2)) as (A2 & B2 & C2)
    by (unfold r2; destruct (if_copy_to_golden hd) as [[|[|[]|]|]|]; cbn; auto). clearbody r2.
  destruct (if_refresh_golden hd), (if_refresh_alternate hd), (if_refresh_last hd); cbn; auto.
Qed.

(** A frame that fits can be written, and the encoder is good afterwards. *)
Lemma write_good w h e f blank scratch : 0 < w <= 16383 -> 0 < h <= 16383 -> encoder_good w h e -> writable w h f -> raster_for w h scratch ->
  exists e' bytes, write_frame e f blank scratch = Some (e', bytes) /\ encoder_good w h e' /\
    match f with
    | KeyW _ _ _ _ _ => exists r, en_refs e' = mkRefs r r r
    | InterW _ hd _ _ _ => exists r, en_refs e' = inter_copy_to hd r (en_refs e)
    end.
Proof.
  intros Hw Hh G WR HS. pose proof G as [[Ew Eh GP GS GF] NS GL GG GA].
  assert (RD : ready w h e (mkDecoder (en_state e) (en_refs e) false) f).
  { split; [exact Ew|]. split; [exact Eh|]. destruct f; [exact I|]. cbn [dc_state dc_refs]. auto 7. }
  destruct (C28_frame w h e _ f blank scratch scratch Hw Hh (encoder_decoder w h e G) RD WR HS HS) as (e' & bytes & E & _ & _).
  exists e', bytes. split; [exact E|]. unfold write_frame in E. cbv zeta in E. destruct f as [show hd ms cs ids|show hd ms cs ids].
  - destruct WR as (K & SU & LM & FM & CO & LI & NG).
    assert (KS : state_good w h (update_state_key (en_state e) hd)).
    { unfold update_state_key. cbv zeta. rewrite Ew, Eh. pose proof (key_state_good w h hd ltac:(lia) ltac:(lia) K) as KG.
      destruct (kf_refresh_entropy_probs hd); [|exact KG]. apply set_tables_good; [exact KG|]. apply coeff_prob_update_good; [apply KG|apply (kfo_t hd K)]. }
    assert (SG : ds_seg (update_state_key (en_state e) hd) = None).
    { unfold update_state_key. cbv zeta. destruct (kf_refresh_entropy_probs hd); cbn; rewrite NG; reflexivity. }
    rewrite SG, Ew in E. destruct (key_pic_good w h hd ms cs ids (ds_fa (update_state_key (en_state e) hd)) (mkRefs blank blank blank) Hw Hh K SU LM FM CO LI) as (r & R & PO).
    rewrite (PO scratch HS) in E. destruct (key_frame_serialize _ _ _ _ _ _ _) as [b|]; [|discriminate]. apply some_eq in E. apply pair_equal_spec in E. destruct E as [<- _].
    split; [|exists r; reflexivity]. constructor; cbn [en_state en_refs key_copy_to rf_last rf_golden rf_alt]; assumption.
  - destruct WR as (K & SU & LM & FM & CO & LI & NG).
    assert (KS : state_good w h (update_state_inter (en_state e) hd)).
    { unfold update_state_inter. cbv zeta. set (s1 := if if_refresh_entropy_probs hd then _ else _).
      assert (state_good w h s1) as G1 by (unfold s1; destruct (if_refresh_entropy_probs hd); [apply set_tables_good; [apply G|apply pt_update_good; assumption]|apply G]).
      apply set_fa_good; [exact G1|]. apply inter_fa_good; [apply (stg_fa _ _ _ G1)|apply (ifo_lf hd K)]. }
    assert (SG : ds_seg (update_state_inter (en_state e) hd) = None).
    { unfold update_state_inter. cbv zeta. destruct (if_refresh_entropy_probs hd); cbn; exact NS. }
    rewrite SG, Ew in E. destruct (inter_pic_good w h hd ms cs ids (ds_fa (update_state_inter (en_state e) hd)) (en_refs e) Hw Hh K SU LM FM CO LI (encoder_refs w h e G)) as (r & R & PO).
    rewrite (PO scratch HS) in E. destruct (inter_frame_serialize _ _ _ _ _ _ _) as [b|]; [|discriminate]. apply some_eq in E. apply pair_equal_spec in E. destruct E as [<- _].
    split; [|exists r; reflexivity]. destruct (copied_good w h hd r (en_refs e) R GL GG GA) as (A & B & C).
    constructor; cbn [en_state en_refs]; assumption.
Qed.

Lemma tried_good w h e : encoder_good w h e -> encoder_good w h (try_frames e [TrialInter true]).
Proof.
  intros [S1 N L G A]. constructor; cbn [try_frames en_state en_refs fold_left trial_state]; try assumption.
  apply set_fa_good; [exact S1|]. destruct (fa_new_good (Some (mkLFD (repeat (Some 0) 4) (repeat (Some 0) 4)))) as (a & E & GA).
  - exact (zero_lfd_ok _ eq_refl).
  - unfold zero_deltas. rewrite E. intros ? [= <-]. exact GA.
Qed.

Lemma raster_for_dims w h r : 0 < w <= 16383 -> 0 < h <= 16383 -> raster_for w h r -> raster_dims r.
Proof.
  intros Hw Hh ((Y & _) & Dw & Dh). unfold raster_dims. rewrite Dw, Dh.
  destruct Y as ((SH & _) & Ew & Eh). rewrite Ew, Eh. split; [exact SH|]. unfold mb_dim. lia.
Qed.

(** What a run may be given: frames that fit; the parts of [work] as the code
    keeps them. *)
Definition pred_ok (w h : Z) (p : prediction) : Prop :=
  (forall show hd ms cs ids, pr_key p = Some (show, hd, ms, cs, ids) -> writable w h (KeyW show hd ms cs ids)) /\
  (forall show hd ms cs ids, pr_inter p = Some (show, hd, ms, cs, ids) -> writable w h (InterW show hd ms cs ids)).
Definition work_ok (w h : Z) (k : work) : Prop :=
  ups_ok (wk_ups k) /\ u_ok 6 (wk_level k) /\ passes_ok (wk_costs k) /\
  (forall r, raster_for w h r -> pl_w (wk_safe k r) = w + 512 /\ pl_h (wk_safe k r) = h + 512 /\ shows MARGIN_WIDTH w h (ra_y r) (wk_safe k r)) /\
  length (wk_sads k) = 256%nat /\ length (wk_mv_costs k) = 2%nat /\ Forall (fun t => length t = 2%nat /\ Forall (fun l : list Z => length l = Z.to_nat 1024) t) (wk_mv_costs k) /\
  raster_for w h (wk_r k) /\ raster_for w h (wk_t k) /\ raster_for w h (wk_scratch k).
Definition mix_ok (mix : Z -> Z -> Z) : Prop := forall a b, 0 <= a <= 127 -> 0 <= b <= 127 -> 0 <= mix a b <= 127.

(** What becomes of a prediction frame: the first one, if it is a key frame, an
    inter frame that goes to all references; other key frames stay; inter
    frames keep their predictions. All frames but the key frames that stay are
    shown. *)
Definition reencoded (first : bool) (p : prediction) (x : list EncoderModel.trial * wframe * raster * raster) : Prop :=
  match first, pr_key p with
  | true, Some _ => exists hd' ms cs ids, frame_of x = InterW true hd' ms cs ids /\ forall r refs, inter_copy_to hd' r refs = mkRefs r r r
  | false, Some (show, hd, ms, cs, ids) => frame_of x = KeyW show hd ms cs ids
  | _, None => exists show hd ms0 cs0 ids0 hd' ms cs ids, pr_inter p = Some (show, hd, ms0, cs0, ids0) /\
                 frame_of x = InterW true hd' ms cs ids /\ Forall2 same_prediction ms0 ms
  end.
Fixpoint run_of (first : bool) (ps : list prediction) (items : list (list EncoderModel.trial * wframe * raster * raster)) : Prop :=
  match items, ps with
  | [], _ => True
  | x :: xs, p :: ps => reencoded first p x /\ run_of false ps xs
  | _, [] => False
  end.

Lemma run_of_nil first ps : run_of first ps [].
Proof. destruct ps; exact I. Qed.

Definition same_refs (e : encoder) : Prop := exists r, en_refs e = mkRefs r r r.

Lemma set_y_ac_ok qi y : qi_ok qi -> 0 <= y <= 127 -> qi_ok (set_y_ac qi y).
Proof. intros [A B C D E F] Y. constructor; cbn [set_y_ac y_ac_qi y_dc y2_dc y2_ac uv_dc uv_ac]; try assumption. unfold u_ok. change (2 ^ 7) with 128. lia. Qed.

Lemma quantizer_of qi : qi_ok qi -> exists q, make_quantizer qi = Some q.
Proof. intros Q. destruct (C30_header_indices_qualify qi Q) as [A _]. destruct (C30_quantizer qi A) as (q & E & _). exists q. exact E. Qed.

Lemma residues_ok w h e p qf last_frame k target : 0 < w <= 16383 -> 0 < h <= 16383 -> encoder_good w h e -> pred_ok w h p -> work_ok w h k -> raster_for w h target ->
  pr_inter p <> None -> (forall qi, qi_ok qi -> qi_ok (qf qi)) ->
  exists e' bytes show hd ms0 cs0 ids0 hd' ms cs ids, residues e p qf last_frame k target = Ok (e', bytes) /\
    write_frame e (InterW true hd' ms cs ids) (wk_blank k) (wk_scratch k) = Some (e', bytes) /\ writable w h (InterW true hd' ms cs ids) /\
    encoder_good w h e' /\ pr_inter p = Some (show, hd, ms0, cs0, ids0) /\ Forall2 same_prediction ms0 ms /\ (last_frame = true -> same_refs e').
Proof.
  intros Hw Hh G [_ PI] (UP & LV & PO & _ & _ & _ & _ & Rr & Rt & Rs) TG NI QF.
  destruct (pr_inter p) as [[[[[show hd] ms0] cs0] ids0]|] eqn:EI; [|congruence]. pose proof (PI _ _ _ _ _ eq_refl) as WR.
  pose proof G as [[Ew Eh _ _ _] _ GL GG GA]. pose proof (QF _ (ifo_qi hd (proj1 WR))) as QI. destruct (quantizer_of _ QI) as (q & Eq).
  destruct (C69_residues w h show hd ms0 cs0 ids0 (en_refs e) _ q last_frame (wk_ups k) target (wk_r k) (wk_t k) Hw Hh WR QI Eq UP GL GG GA TG Rr Rt)
    as (hd' & ms & cs & ids & rec & EU & WR' & SP & _).
  destruct (write_good w h e _ (wk_blank k) (wk_scratch k) Hw Hh G WR' Rs) as (e' & bytes & EW & G' & r & ER).
  exists e', bytes, show, hd, ms0, cs0, ids0, hd', ms, cs, ids.
  split; [unfold residues; cbv zeta; rewrite EI; cbn [obind]; rewrite Ew, Eh, EU; cbn [obind fst]; rewrite EW; reflexivity|].
  split; [exact EW|]. split; [exact WR'|]. split; [exact G'|]. split; [reflexivity|]. split; [exact SP|].
  intros ->. exists r. rewrite ER. unfold update_residues in EU. rewrite Eq in EU. cbn [obind] in EU. destruct (carry_frame _ _ _ _ _ _ _ _) as [s|]; [|discriminate]. cbn [obind] in EU.
  destruct (optimize_prob_skip _); [|discriminate]. cbn [obind] in EU. destruct (optimize_interframe_probs _ _ _ _) as [[[a b] c]|]; [|discriminate]. cbn [obind] in EU.
  apply some_eq in EU. apply pair_equal_spec in EU. destruct EU as [EU _]. injection EU as EU _ _ _. rewrite <- EU. reflexivity.
Qed.

Lemma no_trials e : try_frames e [] = e.
Proof. destruct e. reflexivity. Qed.

Lemma one_ok w h mix extra first zero next e k target p : 0 < w <= 3968 -> 0 < h <= 3968 -> mix_ok mix -> encoder_good w h e ->
  pred_ok w h p -> work_ok w h k -> (ra_dw target = w -> ra_dh target = h -> raster_for w h target) ->
  (forall z, zero = Some z -> pred_ok w h z) -> (forall n, next = Some n -> pred_ok w h n) ->
  (first && extra = true -> pr_key p = None -> pr_inter p <> None) ->
  (exists x, reencode_one mix extra w h first zero next e k target p = Err x /\ x <> Stuck) \/
  exists e' bytes x, reencode_one mix extra w h first zero next e k target p = Ok (e', bytes) /\
    (let '(ts, f, blank, scratch) := x in write_frame (try_frames e ts) f blank scratch = Some (e', bytes)) /\
    item_ok w h x /\ encoder_good w h e' /\ reencoded first p x /\ (next = None -> same_refs e').
Proof.
  intros Hw Hh MX G PO WK TG ZO NO XO. pose proof G as [[Ew Eh _ _ _] _ GL GG GA]. unfold reencode_one. cbv zeta. rewrite Ew, Eh, !Z.eqb_refl, !andb_true_r.
  destruct ((ra_dw target =? w) && (ra_dh target =? h)) eqn:ET; cbn [negb]; [|left; exists SizeMismatch; split; [reflexivity|discriminate]].
  apply andb_true_iff in ET. destruct ET as [T1 T2]. specialize (TG ltac:(lia) ltac:(lia)).
  pose proof WK as (UP & LV & PS & SF & LS & LM & FMV & Rr & Rt & Rs). pose proof PO as [PK PI].
  set (lf := match next with None => true | Some _ => false end).
  assert (RES : pr_inter p <> None -> pr_key p = None -> forall qf, (forall qi, qi_ok qi -> qi_ok (qf qi)) ->
     exists e' bytes x, residues e p qf lf k target = Ok (e', bytes) /\
       (let '(ts, f, blank, scratch) := x in write_frame (try_frames e ts) f blank scratch = Some (e', bytes)) /\
       item_ok w h x /\ encoder_good w h e' /\ reencoded first p x /\ (next = None -> same_refs e')).
  { intros NI NK qf QF.
    destruct (residues_ok w h e p qf lf k target ltac:(lia) ltac:(lia) G PO WK TG NI QF) as (e' & bytes & show & hd & ms0 & cs0 & ids0 & hd' & ms & cs & ids & E & EW & WR & G' & EI & SP & SR).
    exists e', bytes, ([], InterW true hd' ms cs ids, wk_blank k, wk_scratch k). split; [exact E|]. split; [rewrite no_trials; exact EW|].
    split; [split; [exact WR|split; [|exact Rs]]; split; [intros []|intros []]|]. split; [exact G'|]. split.
    - unfold reencoded. rewrite NK. destruct first; exists show, hd, ms0, cs0, ids0, hd', ms, cs, ids; auto.
    - intros ->. apply SR. reflexivity. }
  destruct (pr_key p) as [[[[[show hd] ms0] cs0] ids0]|] eqn:EK.
  - pose proof (PK _ _ _ _ _ eq_refl) as WR. destruct first; cbn [andb].
    + destruct WR as (K & SU & _ & _ & _ & _ & NS). rewrite NS. right.
      set (qi := match next with Some n => _ | None => _ end).
      assert (QI : qi_ok qi).
      { unfold qi, inter_quantizer. destruct next as [n|]; [|apply (kfo_qi hd K)]. destruct (pr_inter n) as [[[[[sn hn] mn] cn] idn]|] eqn:EN; cbn [option_map]; [|apply (kfo_qi hd K)].
        pose proof (proj2 (NO n eq_refl) _ _ _ _ _ EN) as (KN & _). apply set_y_ac_ok; [apply (kfo_qi hd K)|].
        pose proof (qi_y_ac _ (kfo_qi hd K)) as A. pose proof (qi_y_ac _ (ifo_qi hn KN)) as B. unfold u_ok in A, B. change (2 ^ 7) with 128 in *. apply MX; lia. }
      clearbody qi. destruct (quantizer_of qi QI) as (q & Eq).
      assert (HE : env_ok (Z.of_nat (mb_dim w)) (Z.of_nat (mb_dim h)) (env_for e k)).
      { unfold env_ok, env_for. cbn [se_refs se_safe se_sads se_mv_costs]. split; [apply encoder_refs, G|]. split; [apply (raster_for_dims w h); [lia|lia|exact GL]|].
        destruct GL as (GL0 & Gw & Gh). rewrite Gw, Gh. destruct (SF _ (conj GL0 (conj Gw Gh))) as (S1 & S2 & S3). auto 6. }
      destruct (C69_as_interframe w h hd qi q (env_for e k) (wk_costs k) (wk_level k) (wk_ups k) target (wk_r k) (wk_t k) Hw Hh K SU NS QI Eq LV UP PS HE TG Rr Rt)
        as (hd' & ms & cs & ids & rec & EU & WR' & _ & DZ & CP & _).
      destruct (write_good w h (try_frames e [TrialInter true]) _ (wk_blank k) (wk_scratch k) ltac:(lia) ltac:(lia) (tried_good w h e G) WR' Rs) as (e' & bytes & EW & G' & r & ER).
      exists e', bytes, ([TrialInter true], InterW true hd' ms cs ids, wk_blank k, wk_scratch k).
      split; [rewrite EU; cbn [obind fst]; rewrite EW; reflexivity|]. split; [exact EW|].
      split; [split; [exact WR'|split; [|exact Rs]]; split; [intros [X|[]]; discriminate|intros _; rewrite DZ; eexists; reflexivity]|].
      split; [exact G'|]. split; [unfold reencoded; rewrite EK; exists hd', ms, cs, ids; split; [reflexivity|exact CP]|].
      intros _. exists r. rewrite ER. apply CP.
    + right. destruct (write_good w h e (KeyW show hd ms0 cs0 ids0) (wk_blank k) (wk_scratch k) ltac:(lia) ltac:(lia) G WR Rs) as (e' & bytes & EW & G' & r & ER).
      exists e', bytes, ([], KeyW show hd ms0 cs0 ids0, wk_blank k, wk_scratch k). split; [rewrite EW; reflexivity|]. split; [rewrite no_trials; exact EW|].
      split; [split; [exact WR|split; [exact I|exact Rs]]|]. split; [exact G'|]. split; [unfold reencoded; rewrite EK; reflexivity|]. intros _. exists r. exact ER.
  - destruct (first && extra) eqn:FX.
    + destruct zero as [z|]; cbn [obind]; [|left; exists NoExtraKey; split; [destruct first; [reflexivity|discriminate]|discriminate]].
      unfold key_quantizer. destruct (pr_key z) as [[[[[sz hz] mz] cz] idz]|] eqn:EZ; cbn [option_map];
        [|left; exists NoExtraKey; split; [destruct first; [reflexivity|discriminate]|discriminate]].
      right. pose proof (proj1 (ZO z eq_refl) _ _ _ _ _ EZ) as (KZ & _). pose proof (qi_y_ac _ (kfo_qi hz KZ)) as A. unfold u_ok in A. change (2 ^ 7) with 128 in *.
      destruct first; [|discriminate].
      apply RES; [apply XO; reflexivity|reflexivity|]. intros qi Q. apply set_y_ac_ok; [exact Q|].
      pose proof (qi_y_ac _ Q) as B. unfold u_ok in B. change (2 ^ 7) with 128 in *. apply MX; lia.
    + destruct (pr_inter p) as [x|] eqn:EI.
      * right. destruct (RES ltac:(discriminate) eq_refl (fun qi => qi) (fun qi Q => Q)) as (e' & bytes & y & E & REST). exists e', bytes, y.
        split; [destruct first; exact E|exact REST].
      * left. exists NoFrame. split; [destruct first; reflexivity|discriminate].
Qed.

Definition entry_ok (w h : Z) (x : work * raster * prediction) : Prop :=
  let '(k, target, p) := x in work_ok w h k /\ (ra_dw target = w -> ra_dh target = h -> raster_for w h target) /\ pred_ok w h p.

Lemma loop_ok w h mix extra zero : 0 < w <= 3968 -> 0 < h <= 3968 -> mix_ok mix -> (forall z, zero = Some z -> pred_ok w h z) ->
  forall l first e, encoder_good w h e -> Forall (entry_ok w h) l ->
  (first && extra = true -> match l with [] => True | (_, _, p) :: _ => pr_key p = None -> pr_inter p <> None end) ->
  exists e' bs x items, reencode_loop mix extra w h first zero e l = (e', bs, x) /\ encode_run e items = Some (e', bs) /\
    Forall (item_ok w h) items /\ encoder_good w h e' /\ run_of first (map snd l) items /\ x <> Some Stuck /\
    (x = None -> length items = length l /\ (l <> [] -> same_refs e')).
Proof.
  intros Hw Hh MX ZO. induction l as [|[[k target] p] l IH]; intros first e G F XO.
  - exists e, [], None, []. cbn [reencode_loop encode_run map run_of length]. split; [reflexivity|]. split; [reflexivity|]. split; [constructor|]. split; [exact G|].
    split; [exact I|]. split; [discriminate|]. intros _. split; [reflexivity|congruence].
  - inversion F as [|? ? EO F']; subst. unfold entry_ok in EO. destruct EO as (WK & TG & PO).
    assert (NO : forall n, match l with [] => None | (_, _, n) :: _ => Some n end = Some n -> pred_ok w h n).
    { intros n EN. destruct l as [|[[k2 t2] p2] l]; [discriminate|]. injection EN as <-. inversion F' as [|? ? EO _]; subst. apply EO. }
    destruct (one_ok w h mix extra first zero _ e k target p Hw Hh MX G PO WK TG ZO NO XO) as [(x & E & NS)|(e1 & bytes & it & E & EW & IT & G1 & RE & LR)]; cbn [reencode_loop]; rewrite E.
    + exists e, [], (Some x), []. split; [reflexivity|]. split; [reflexivity|]. split; [constructor|]. split; [exact G|]. split; [apply run_of_nil|]. split; [congruence|discriminate].
    + destruct (IH false e1 G1 F' ltac:(discriminate)) as (e' & bs & x & items & EL & ER & FI & G' & RO & NS & FIN). rewrite EL.
      exists e', (bytes :: bs), x, (it :: items). split; [reflexivity|]. split.
      { destruct it as [[[ts f] blank] scratch]. cbn [encode_run]. rewrite EW, ER. reflexivity. }
      split; [constructor; assumption|]. split; [exact G'|]. split; [split; assumption|]. split; [exact NS|].
      intros EX. destruct (FIN EX) as [LN SR]. split; [cbn [length]; congruence|]. intros _.
      destruct l as [|y l]; [|apply SR; discriminate]. cbn [reencode_loop] in EL. apply pair_equal_spec in EL. destruct EL as [EL _]. apply pair_equal_spec in EL. destruct EL as [<- _].
      apply LR. reflexivity.
Qed.

(** Every run, however it ends: the frames that were appended are frames an
    encoder wrote one after the other; every one fits the format and comes from
    its prediction frame as [reencoded] says. No run ends with undefined
    behaviour or an assertion. If the run was not interrupted, every prediction
    frame (but the extra one) has its frame, and if there was one, the three
    references are the same picture afterwards. *)
Theorem C69_run : forall w h mix extra e targets preds ks,
  0 < w <= 3968 -> 0 < h <= 3968 -> mix_ok mix -> encoder_good w h e -> length ks = length targets ->
  Forall (fun r => ra_dw r = w -> ra_dh r = h -> raster_for w h r) targets -> Forall (pred_ok w h) preds -> Forall (work_ok w h) ks ->
  (extra = true -> forall p, nth_error preds 1 = Some p -> pr_key p = None -> pr_inter p <> None) ->
  let start := if extra then 1%nat else 0%nat in
  exists e' bs x items, reencode mix extra w h e targets preds ks = (e', bs, x) /\ encode_run e items = Some (e', bs) /\
    Forall (item_ok w h) items /\ encoder_good w h e' /\ run_of true (skipn start preds) items /\ x <> Some Stuck /\
    (x = None -> length items = (length preds - start)%nat /\ length targets = length preds /\ ((start < length preds)%nat -> same_refs e')).
Proof.
  intros w h mix extra e targets preds ks Hw Hh MX G LK FT FP FK XO start. unfold reencode.
  assert (STOP : forall x, x <> Stuck -> exists e' bs y items, (e, [], Some x) = (e', bs, y) /\ encode_run e items = Some (e', bs) /\
    Forall (item_ok w h) items /\ encoder_good w h e' /\ run_of true (skipn start preds) items /\ y <> Some Stuck /\
    (y = None -> length items = (length preds - start)%nat /\ length targets = length preds /\ ((start < length preds)%nat -> same_refs e'))).
  { intros x NS. exists e, [], (Some x), []. split; [reflexivity|]. split; [reflexivity|]. split; [constructor|]. split; [exact G|]. split; [apply run_of_nil|]. split; [congruence|discriminate]. }
  destruct (zlen targets =? 0); [apply STOP; discriminate|]. destruct (zlen targets =? zlen preds) eqn:EC; cbn [negb]; [|apply STOP; discriminate].
  assert (LT : length targets = length preds) by (unfold zlen in EC; lia).
  change (if extra then 1%nat else 0%nat) with start. set (l := combine (combine ks targets) preds).
  assert (SN : map snd l = preds).
  { unfold l. clear -LK LT. revert targets preds LK LT. induction ks as [|k ks IH]; intros [|t ts] [|p ps] L1 L2; try discriminate; [reflexivity|]. cbn [combine map snd]. f_equal. apply IH; cbn in *; congruence. }
  assert (FE : Forall (entry_ok w h) l).
  { apply Forall_forall. intros [[k t] p] HI. pose proof (in_combine_l _ _ _ _ HI) as H1. pose proof (in_combine_r _ _ _ _ HI) as H2.
    pose proof (in_combine_l _ _ _ _ H1) as H3. pose proof (in_combine_r _ _ _ _ H1) as H4. unfold entry_ok.
    split; [exact (proj1 (Forall_forall _ _) FK k H3)|]. split; [exact (proj1 (Forall_forall _ _) FT t H4)|exact (proj1 (Forall_forall _ _) FP p H2)]. }
  destruct (loop_ok w h mix extra (nth_error preds 0) Hw Hh MX) with (l := skipn start l) (first := true) (e := e) as (e' & bs & x & items & E & ER & FI & G' & RO & NS & FIN).
  - intros z Ez. apply nth_error_In in Ez. exact (proj1 (Forall_forall _ _) FP z Ez).
  - exact G.
  - apply Forall_forall. intros y Hy. apply (proj1 (Forall_forall _ _) FE). rewrite <- (firstn_skipn start l). apply in_or_app. right. exact Hy.
  - cbn [andb]. intros EX. subst start. rewrite EX. specialize (XO EX). rewrite <- SN in XO. clear -XO. destruct l as [|y0 [|[[k t] p] l]]; cbn [skipn]; try exact I. apply XO. reflexivity.
  - exists e', bs, x, items. split; [exact E|]. split; [exact ER|]. split; [exact FI|]. split; [exact G'|].
    split; [rewrite <- SN, skipn_map; exact RO|]. split; [exact NS|]. intros EX. destruct (FIN EX) as [LN SR]. rewrite skipn_length in LN.
    assert (LL : length l = length preds) by (rewrite <- SN, map_length; reflexivity). split; [lia|]. split; [exact LT|].
    intros ST. apply SR. intros EN. apply (f_equal (@length _)) in EN. rewrite skipn_length in EN. cbn [length] in EN. lia.
Qed.

(** Decoding a run: every frame gives a picture; frames are shown as written; the
    decoder ends in lockstep. *)
Theorem C69_run_decoded : forall w h e items e' bs d scratches,
  0 < w <= 3968 -> 0 < h <= 3968 -> decoder_good w h d -> lockstep e d ->
  encode_run e items = Some (e', bs) -> Forall (item_ok w h) items -> run_sizes_ok w h e items ->
  length scratches = length items -> Forall (raster_for w h) scratches ->
  exists d' os, run_frames d (combine (map chunk_of bs) scratches) = (d', os) /\ lockstep e' d' /\ decoder_good w h d' /\
    Forall2 (fun x o => exists r, o = Output (shown (frame_of x)) r) items os.
Proof.
  intros w h e items e' bs d scratches Hw Hh G LK ER FI RS LS FS.
  destruct (C28_sequence w h items e d scratches ltac:(lia) ltac:(lia) G (or_introl LK) FI LS FS RS) as (e2 & bs2 & d' & os & E2 & _ & RF & LK' & G' & FO).
  rewrite ER in E2. apply some_eq in E2. apply pair_equal_spec in E2. destruct E2 as [<- <-]. exists d', os. auto.
Qed.

(** ** Errors *)

Theorem C69_errors : forall mix extra iw ih e targets preds ks,
  (targets = [] -> reencode mix extra iw ih e targets preds ks = (e, [], Some NoRasters)) /\
  (targets <> [] -> length targets <> length preds -> reencode mix extra iw ih e targets preds ks = (e, [], Some CountMismatch)) /\
  (forall zero next k target p,
     ~ (ra_dw target = ds_w (en_state e) /\ ra_dh target = ds_h (en_state e) /\ ds_w (en_state e) = iw /\ ds_h (en_state e) = ih) <->
     reencode_one mix extra iw ih true zero next e k target p = Err SizeMismatch) /\
  (forall zero next k target p show hd ms cs ids,
     ra_dw target = ds_w (en_state e) -> ra_dh target = ds_h (en_state e) -> ds_w (en_state e) = iw -> ds_h (en_state e) = ih ->
     pr_key p = Some (show, hd, ms, cs, ids) -> kf_update_segmentation hd <> None ->
     reencode_one mix extra iw ih true zero next e k target p = Err Segmentation).
Proof.
  intros mix extra iw ih e targets preds ks. split; [intros ->; reflexivity|]. split; [|split].
  - intros NT LT. unfold reencode. destruct (zlen targets =? 0) eqn:E0; [destruct targets; [congruence|unfold zlen in E0; cbn in E0; lia]|].
    destruct (zlen targets =? zlen preds) eqn:E1; [unfold zlen in E1; lia|]. reflexivity.
  - intros zero next k target p. unfold reencode_one. cbv zeta.
    destruct ((ra_dw target =? ds_w (en_state e)) && (ra_dh target =? ds_h (en_state e)) && (ds_w (en_state e) =? iw) && (ds_h (en_state e) =? ih)) eqn:E; cbn [negb].
    + split; [intros N; exfalso; apply N; lia|]. intros X. exfalso. revert X. unfold residues, stuck. cbv zeta.
      repeat match goal with |- context [match ?x with _ => _ end] => destruct x end; discriminate.
    + split; [reflexivity|]. intros _ (A & B & C & D). lia.
  - intros zero next k target p show hd ms cs ids A B C D E F. unfold reencode_one. cbv zeta. rewrite A, B, C, D, !Z.eqb_refl, E. cbn [andb negb].
    destruct (kf_update_segmentation hd); [reflexivity|congruence].
Qed.

(** A prediction frame that is not shown becomes a frame that is shown. *)
Theorem C69_hidden_shown : forall w h mix extra zero next e k target p show hd ms0 cs0 ids0,
  0 < w <= 3968 -> 0 < h <= 3968 -> encoder_good w h e -> pred_ok w h p -> work_ok w h k -> raster_for w h target ->
  pr_key p = None -> pr_inter p = Some (show, hd, ms0, cs0, ids0) ->
  exists e' bytes hd' ms cs ids, reencode_one mix extra w h false zero next e k target p = Ok (e', bytes) /\
    write_frame e (InterW true hd' ms cs ids) (wk_blank k) (wk_scratch k) = Some (e', bytes).
Proof.
  intros w h mix extra zero next e k target p show hd ms0 cs0 ids0 Hw Hh G PO WK TG NK EI.
  destruct (residues_ok w h e p (fun qi => qi) (match next with None => true | Some _ => false end) k target ltac:(lia) ltac:(lia) G PO WK TG ltac:(congruence) (fun qi Q => Q))
    as (e' & bytes & s1 & hd1 & m1 & c1 & i1 & hd' & ms & cs & ids & E & EW & _).
  exists e', bytes, hd', ms, cs, ids. split; [|exact EW]. pose proof G as [[Ew Eh _ _ _] _ _ _ _]. destruct TG as (_ & T1 & T2).
  unfold reencode_one. cbv zeta. rewrite T1, T2, Ew, Eh, !Z.eqb_refl, NK, EI. cbn [andb negb]. exact E.
Qed.

(** ** Examples *)

Definition ex_key_pred := mkPred (Some (true, ex_kf_hd, ex_kf_ms, ex_kf_cs, [0; 0])) None.
Definition ex_inter_pred := mkPred None (Some (false, ex_if_hd None, ex_if_ms None, ex_if_cs None, [0; 0])).
Definition ex_work := mkWork (repeat None (Z.to_nat 1056)) 7 ex_mcs
  (fun r => match load MARGIN_WIDTH r (repeat 0 (Z.to_nat (544 * 528))) with Some p => p | None => mkPlane 0 0 [] end)
  (repeat 0 256) (repeat (repeat (repeat 0 (Z.to_nat 1024)) 2) 2) 1 ex_r32 ex_r32 ex_r32 ex_r32.

Lemma ex_work_ok : work_ok 32 16 ex_work.
Proof.
  split; [split; [apply repeat_length|apply Forall_repeat; discriminate]|]. split; [cbn; unfold u_ok; lia|]. split; [intros i; exact I|]. split.
  - intros r Hr. pose proof (raster_for_dims 32 16 r ltac:(lia) ltac:(lia) Hr) as D. destruct Hr as ((Y & _) & Dw & Dh). destruct Y as (_ & Yw & _).
    destruct (C62_load r (repeat 0 (Z.to_nat (544 * 528))) D) as (safe & E & _ & A & B & C).
    + rewrite Dw, Yw. reflexivity.
    + unfold zlen. rewrite repeat_length, Dw, Dh. lia.
    + cbn [ex_work wk_safe]. rewrite E. rewrite Dw, Dh in *. auto.
  - split; [apply repeat_length|]. split; [apply repeat_length|]. split.
    + apply Forall_repeat. split; [apply repeat_length|]. apply Forall_repeat. apply repeat_length.
    + split; [exact ex_r32_for|]. split; exact ex_r32_for.
Qed.

(** A chunk of a key frame and a hidden inter frame, over an encoder that
    continues another stream; the inter frame has macroblocks of both
    kinds. *)
Example C69_example :
  mix_ok (fun a b => (a + b) / 2) /\ encoder_good 32 16 (new_encoder 32 16 ex_r32 true) /\
  Forall (pred_ok 32 16) [ex_key_pred; ex_inter_pred] /\ Forall (work_ok 32 16) [ex_work; ex_work] /\ raster_for 32 16 ex_r32 /\
  map mb_inter (ex_if_ms None) = [true; false].
Proof.
  split; [intros a b A B; lia|]. split.
  - constructor; cbn [new_encoder en_state en_refs rf_last rf_golden rf_alt]; try exact ex_r32_for; [|reflexivity].
    constructor; cbn [fresh_state ds_w ds_h ds_pt ds_seg ds_fa]; try reflexivity; try discriminate. apply default_pt_good.
  - split; [|split; [apply Forall_cons; [exact ex_work_ok|apply Forall_cons; [exact ex_work_ok|apply Forall_nil]]|split; [exact ex_r32_for|vm_compute; reflexivity]]].
    pose proof (ex_if_fits None (none_ok _)) as (A & B & C & D & E & F & _).
    apply Forall_cons; [|apply Forall_cons; [|apply Forall_nil]].
    + split; intros show hd ms cs ids X; [|discriminate X]. unfold ex_key_pred, pr_key in X. apply some_eq in X. apply pair_equal_spec in X. destruct X as [X <-]. apply pair_equal_spec in X. destruct X as [X <-]. apply pair_equal_spec in X. destruct X as [X <-]. apply pair_equal_spec in X. destruct X as [<- <-]. exact ex_kf_writable.
    + split; intros show hd ms cs ids X; [discriminate X|]. unfold ex_inter_pred, pr_inter in X. apply some_eq in X. apply pair_equal_spec in X. destruct X as [X <-]. apply pair_equal_spec in X. destruct X as [X <-]. apply pair_equal_spec in X. destruct X as [X <-]. apply pair_equal_spec in X. destruct X as [<- <-]. cbn [writable]. auto 10.
Qed.

Print Assumptions C69_residues.
Print Assumptions C69_references.
Print Assumptions C69_as_interframe.
Print Assumptions C69_run.
Print Assumptions C69_run_decoded.
Print Assumptions C69_errors.
Print Assumptions C69_hidden_shown.
