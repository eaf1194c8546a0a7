(** Lemmas about the encoding of macroblocks: one macroblock as a whole. *)
From Verif Require Import Base TreeModel HeaderModel MVModel MBModel TokenModel FrameModel QuantModel RasterModel TransformModel.
From Verif Require Import PredictModel LoopFilterModel ReconModel ResidueModel SafeRasterModel MotionModel VarianceModel EncodeModel.
From Verif Require Import MBProofs TokenProofs FrameProofs RasterProofs PropQuant PropTransform PredictProofs PropInter PropIntra PropLoopFilter.
From Verif Require Import ResidueProofs PropResidue PropVariance ReconProofs PropPicture PropRecon PropSafeRaster PropMotion EncodeProofs.

(** ** Coefficients *)

Lemma block_zero type b : block_ok type b -> snd b = false -> b = fresh_block.
Proof.
  intros (L & _ & F & _) E. destruct b as [cs flag]. cbn [fst snd] in *. subst flag. unfold fresh_block. f_equal.
  - apply (nth_ext_Z cs (repeat 0 16)); [rewrite repeat_length; exact L|]. intros k Hk. rewrite (any_nonzero_false cs E). rewrite nth_repeat. reflexivity.
  - exact E.
Qed.
Lemma blocks_zero type (l : list block) n : Forall (block_ok type) l -> length l = n -> existsb snd l = false -> l = repeat fresh_block n.
Proof.
  revert n. induction l as [|b l IH]; intros n F L E; [subst; reflexivity|]. apply Forall_cons_iff in F. destruct F as [B F]. cbn [existsb] in E. apply orb_false_iff in E. destruct E as [E1 E2].
  subst n. cbn [length repeat]. rewrite (block_zero type b B E1). exact (f_equal (cons fresh_block) (IH _ F eq_refl E2)).
Qed.

Lemma coefs_good m c : mb_skip m = Some (skip_for (mb_ymode m) c) ->
  (if y2_coded m then block_ok Y2_type (co_y2 c) else co_y2 c = fresh_block) ->
  length (co_y c) = 16%nat -> Forall (block_ok (y_type m)) (co_y c) ->
  length (co_u c) = 4%nat -> Forall (block_ok UV_type) (co_u c) -> length (co_v c) = 4%nat -> Forall (block_ok UV_type) (co_v c) -> coef_ok m c.
Proof.
  intros E A L1 F1 L2 F2 L3 F3. unfold coef_ok, skipped. rewrite E. destruct (skip_for (mb_ymode m) c) eqn:ES; [|auto 10].
  unfold skip_for in ES. apply negb_true_iff in ES. apply orb_false_iff in ES. destruct ES as [ES H4]. apply orb_false_iff in ES. destruct ES as [ES H3]. apply orb_false_iff in ES. destruct ES as [H1 H2].
  fold (y2_coded m) in H1. destruct c as [y2 ys us vs]. cbn [co_y2 co_y co_u co_v] in *.
  rewrite (blocks_zero _ ys 16 F1 L1 H2), (blocks_zero _ us 4 F2 L2 H3), (blocks_zero _ vs 4 F3 L3 H4).
  assert (y2 = fresh_block) as ->; [|reflexivity]. destruct (y2_coded m); [exact (block_zero _ _ A H1)|exact A].
Qed.

(** ** How near a macroblock is to the original *)

Definition close (n column row bound : Z) (p o : plane) : Prop := forall x y, blk (n * column) (n * row) n x y -> Z.abs (at_px p x y - at_px o x y) <= bound.
Definition luma_bound (q : Quantizer) (m : mbinfo) : Z := if y2_coded m then bound_y2 q else bound_own (y_factors q).
Definition near (q : Quantizer) (o : raster) (column row : Z) (m : mbinfo) (r : raster) : Prop :=
  close 16 column row (luma_bound q m) (ra_y r) (ra_y o) /\
  close 8 column row (bound_own (uv_factors q)) (ra_u r) (ra_u o) /\ close 8 column row (bound_own (uv_factors q)) (ra_v r) (ra_v o).

Lemma off_block_sym w h x0 y0 n p q : sized w h p -> sized w h q -> off_block x0 y0 n p q -> off_block x0 y0 n q p.
Proof. intros Hp Hq A x y Hi Hb. symmetry. apply A; [|exact Hb]. apply (inside_sized w h p); [exact Hp|]. apply (inside_sized w h q); assumption. Qed.

(** A plane that solves the equations of a macroblock is near the original
    where the residue was computed for the same prediction. *)
Lemma solved_close n column row pred res bound p' o : 0 < n ->
  plane_solves n column row pred res p' ->
  (forall x y, (x < Z.to_nat n)%nat -> (y < Z.to_nat n)%nat ->
     Z.abs (clip (pred p' (n * column + Z.of_nat x) (n * row + Z.of_nat y) + res x y) - at_px o (n * column + Z.of_nat x) (n * row + Z.of_nat y)) <= bound) ->
  close n column row bound p' o.
Proof.
  intros Hn SV A x y [Bx By]. rewrite (SV x y Bx By). specialize (A (Z.to_nat (x - n * column)) (Z.to_nat (y - n * row)) ltac:(lia) ltac:(lia)).
  rewrite !Z2Nat.id in A by lia. replace (n * column + (x - n * column)) with x in A by lia. replace (n * row + (y - n * row)) with y in A by lia. exact A.
Qed.

Section near.
  Variables w h : Z.
  Hypothesis w16 : w mod 16 = 0.

  Lemma bpred_near mc qi q o column row p modes blocks p' m c ref : qi_small qi -> make_quantizer qi = Some q -> mc_pass mc = None -> costs_ok mc ->
    sized w h o -> sized w h p -> sized w h p' -> 0 <= column -> 0 <= row -> 16 * (column + 1) <= w -> 16 * (row + 1) <= h ->
    bpred_ok w h mc q o column row p modes blocks -> off_block (16 * column) (16 * row) 16 p p' ->
    mb_inter m = false -> mb_ymode m = B_PRED -> mb_bmodes m = modes -> shape_ok c -> co_y c = blocks ->
    plane_solves 16 column row (luma_prediction ref m column row) (luma_residue q m c) p' ->
    close 16 column row (bound_own (y_factors q)) p' o.
  Proof.
    intros Hq Eq HP CO Ho Hp Hp' Hc Hr Hw Hh ((L1 & L2 & F1 & F2) & BP) OFF HI HM Em HS Ec SV.
    destruct (BP CO) as (tp & St & Ot & CD). clear BP.
    assert (EQ : forall x y, blk (16 * column) (16 * row) 16 x y -> let sc := (x - 16 * column) / 4 in let sr := (y - 16 * row) / 4 in
       at_px p' x y = clip (sub_spec (nth (Z.to_nat (4 * sr + sc)) modes 0) p' (16 * column + 4 * sc) (16 * row + 4 * sr) (x - (16 * column + 4 * sc)) (y - (16 * row + 4 * sr)) +
                            res4 (y_factors q) (nth (Z.to_nat (4 * sr + sc)) blocks fresh_block) (x - (16 * column + 4 * sc)) (y - (16 * row + 4 * sr)))).
    { intros x y [Bx By]. cbv zeta. rewrite (SV x y Bx By). f_equal. f_equal.
      - unfold luma_prediction. cbv zeta. rewrite HI, HM. change (B_PRED =? B_PRED) with true. cbv iota. rewrite Em. f_equal; lia.
      - rewrite luma_residue_sub by (try assumption; lia). rewrite Ec. f_equal; [f_equal; lia|lia|lia]. }
    assert (AG : forall j, (j <= 16)%nat -> ReconProofs.agree (subdone column row (Z.of_nat j)) tp p').
    { induction j as [|j IH]; intros Hj.
      - apply (off_agree w h (16 * column) (16 * row) 16); [exact St| |].
        + intros x y. unfold subdone, done, blk. change (Z.of_nat 0) with 0. lia.
        + exact (off_trans w h _ _ _ _ _ _ St Hp (off_block_sym w h _ _ _ _ _ Hp St Ot) OFF).
      - specialize (IH ltac:(lia)). intros x y Hi Hs. apply (inside_sized w h tp) in Hi; [|exact St].
        destruct (CD j ltac:(lia)) as (_ & V). cbv zeta in V.
        assert (B : subdone column row (Z.of_nat j) x y \/ blk (16 * column + 4 * (Z.of_nat j mod 4)) (16 * row + 4 * (Z.of_nat j / 4)) 4 x y) by (unfold subdone, done, blk in *; lia).
        destruct B as [B|B]; [apply IH; [apply (inside_sized w h tp); assumption|exact B]|].
        rewrite (V x y B). pose proof B as B'. unfold blk in B'.
        rewrite EQ by (unfold blk; lia). cbv zeta. replace ((x - 16 * column) / 4) with (Z.of_nat j mod 4) by lia. replace ((y - 16 * row) / 4) with (Z.of_nat j / 4) by lia.
        replace (Z.to_nat (4 * (Z.of_nat j / 4) + Z.of_nat j mod 4)) with j by lia.
        rewrite (sub_reads w h column row (Z.of_nat j mod 4) (Z.of_nat j / 4) _ tp p') by (try assumption; try lia; replace (4 * (Z.of_nat j / 4) + Z.of_nat j mod 4) with (Z.of_nat j) by lia; exact IH).
        reflexivity. }
    intros x y B. pose proof B as B'. unfold blk in B'.
    set (j := Z.to_nat (4 * ((y - 16 * row) / 4) + (x - 16 * column) / 4)).
    assert (Hj : (j < 16)%nat) by (unfold j; lia). destruct (CD j Hj) as (CB & V). cbv zeta in CB, V.
    assert (EX : Z.of_nat j mod 4 = (x - 16 * column) / 4) by (unfold j; lia). assert (EY : Z.of_nat j / 4 = (y - 16 * row) / 4) by (unfold j; lia).
    rewrite EX, EY in *. rewrite HP in CB.
    rewrite <- (AG 16%nat ltac:(lia) x y) by (try (apply (inside_sized w h tp); [exact St|lia]); unfold subdone, done; change (Z.of_nat 16) with 16; lia).
    rewrite (V x y) by (unfold blk; lia).
    set (X := 16 * column + 4 * ((x - 16 * column) / 4)) in *. set (Y := 16 * row + 4 * ((y - 16 * row) / 4)) in *.
    assert (BX : 0 <= x - X < 4) by (unfold X; lia). assert (BY : 0 <= y - Y < 4) by (unfold Y; lia).
    assert (Kp : forall cc rr, 0 <= cc < 4 -> 0 <= rr < 4 -> byte_ok (sub_spec (nth j modes 0) tp X Y cc rr)).
    { intros cc rr Hcc Hrr. destruct St as (Op & Dw & Dh). apply sub_spec_byte; try assumption; try (unfold X, Y; lia).
      apply Forall_nth_d; [|unfold sub_mode, B_DC_PRED, B_HU_PRED; lia]. eapply Forall_impl; [|exact F1]. unfold bmode_ok, sub_mode, B_DC_PRED, B_HU_PRED. intros; lia. }
    assert (Ko : forall cc rr, 0 <= cc < 4 -> 0 <= rr < 4 -> byte_ok (block_in X Y o cc rr)) by (apply (block_in_byte w h); try assumption; unfold X, Y; lia).
    pose proof (own_near qi q _ Y_without_Y2 (y_factors q) _ _ _ Hq Eq (or_introl (conj eq_refl eq_refl)) Kp Ko CB (x - X) (y - Y) BX BY) as N.
    unfold block_in in N. replace (X + (x - X)) with x in N by lia. replace (Y + (y - Y)) with y in N by lia. exact N.
  Qed.

  Lemma intra_spec n mode column row p p' x y : 0 < n -> sized w h p -> sized w h p' -> 0 <= column -> 0 <= row -> n * (column + 1) <= w -> n * (row + 1) <= h ->
    off_block (n * column) (n * row) n p p' -> 0 <= x < n -> 0 <= y < n ->
    block_spec n mode p (n * column) (n * row) x y = block_spec n mode p' (n * column) (n * row) x y.
  Proof.
    intros Hn Hp Hp' Hc Hr Hw Hh O Hx Hy.
    apply (block_spec_agree w h n column row mode (fun x y => (y = n * row - 1 /\ n * column - 1 <= x < n * column + n) \/ (x = n * column - 1 /\ n * row <= y < n * row + n))); try assumption.
    - intros; assumption.
    - apply (off_agree w h (n * column) (n * row) n); try assumption. intros a b. unfold blk. lia.
  Qed.

  Lemma luma_near mc ctx qi q o column row p lp p' m c ref y2 bl : qi_small qi -> make_quantizer qi = Some q ->
    sized w h o -> sized w h p -> sized w h lp -> sized w h p' -> 0 <= column -> 0 <= row -> 16 * (column + 1) <= w -> 16 * (row + 1) <= h ->
    mc_pass mc = None -> code_luma (mc_pass mc) ctx q o column row lp = Some (y2, bl) -> filled column row p (mb_ymode m) lp -> off_block (16 * column) (16 * row) 16 p p' ->
    mb_inter m = false -> y2_coded m = true -> shape_ok c -> co_y2 c = y2 -> co_y c = bl ->
    plane_solves 16 column row (luma_prediction ref m column row) (luma_residue q m c) p' ->
    close 16 column row (bound_y2 q) p' o.
  Proof.
    intros Hq Eq Ho Hp Hlp Hp' Hc Hr Hw Hh HP E FL OFF HI HY HS E2 E1 SV.
    destruct (code_luma_ok w h (mc_pass mc) ctx qi q o column row lp Hq Eq ltac:(rewrite HP; exact I) Ho Hlp Hc Hr Hw Hh) as (y2' & bl' & E' & _ & _ & _ & A).
    assert (y2' = y2) by congruence. assert (bl' = bl) by congruence. subst y2' bl'. specialize (A HP m c HY HS E2 E1).
    apply (solved_close 16 column row _ _ _ _ _ ltac:(lia) SV). change (Z.to_nat 16) with 16%nat. intros x y Hx Hy. specialize (A x y Hx Hy).
    rewrite (FL (16 * column + Z.of_nat x) (16 * row + Z.of_nat y)) in A by (unfold blk; lia).
    rewrite (intra_spec 16 (mb_ymode m) column row p p') in A by (try assumption; lia).
    unfold luma_prediction. cbv zeta. rewrite HI. unfold y2_coded in HY. destruct (mb_ymode m =? B_PRED); [discriminate|]. exact A.
  Qed.

  Lemma chroma_near pass ctx first qi q o column row p cp p' m bl ref : qi_small qi -> make_quantizer qi = Some q ->
    sized w h o -> sized w h p -> sized w h cp -> sized w h p' -> 0 <= column -> 0 <= row -> 8 * (column + 1) <= w -> 8 * (row + 1) <= h ->
    pass = None -> code_chroma pass ctx first q o column row cp = Some bl -> filled8 column row p (mb_uvmode m) cp -> off_block (8 * column) (8 * row) 8 p p' ->
    mb_inter m = false -> plane_solves 8 column row (chroma_prediction ref m column row) (chroma_res q bl) p' ->
    close 8 column row (bound_own (uv_factors q)) p' o.
  Proof.
    intros Hq Eq Ho Hp Hcp Hp' Hc Hr Hw Hh HP E FL OFF HI SV.
    destruct (code_chroma_ok w h pass ctx first qi q o column row cp Hq Eq ltac:(rewrite HP; exact I) Ho Hcp Hc Hr Hw Hh) as (bl' & E' & _ & _ & A).
    assert (bl' = bl) by congruence. subst bl'. specialize (A HP).
    apply (solved_close 8 column row _ _ _ _ _ ltac:(lia) SV). change (Z.to_nat 8) with 8%nat. intros x y Hx Hy. specialize (A x y Hx Hy).
    rewrite (FL (8 * column + Z.of_nat x) (8 * row + Z.of_nat y)) in A by (unfold blk; lia).
    rewrite (intra_spec 8 (mb_uvmode m) column row p p') in A by (try assumption; lia).
    unfold chroma_prediction. cbv zeta. rewrite HI. exact A.
  Qed.
End near.

(** ** Intra-coded macroblocks *)

(** What one macroblock gives: [r] and [t] before, [r'] and [t'] after. *)
Definition mb_result (mw mh : Z) (q : Quantizer) (refs : references) (mc : mb_costs) (o : raster) (column row : Z) (r : raster)
           (m : mbinfo) (c : mbcoef) (r' t' : raster) : Prop :=
  (raster_ok mw mh r' /\ raster_ok mw mh t') /\
  mb_good m c /\ off_mb column row r r' /\
  (exists r1, raster_ok mw mh r1 /\ (ra_dw r1 = ra_dw r /\ ra_dh r1 = ra_dh r) /\ off_mb column row r r1 /\
     (if mb_inter m then reconstruct_inter q refs m c column row r1 else reconstruct_intra q m c column row r1) = Some r') /\
  (mc_pass mc = None -> costs_ok mc -> near q o column row m r').

(** What is known about luma before chroma is coded. *)
Definition luma_ok (mw mh : Z) (q : Quantizer) (mc : mb_costs) (o : raster) (column row : Z) (p : plane) (l : luma) : Prop :=
  (0 <= lu_mode l <= 4 /\ length (lu_bmodes l) = 16%nat /\
   (lu_mode l = B_PRED -> Forall bmode_ok (lu_bmodes l)) /\ (lu_mode l <> B_PRED -> lu_bmodes l = repeat (implied_subblock_mode (lu_mode l)) 16)) /\
  (if lu_mode l =? B_PRED then lu_y2 l = fresh_block else block_ok Y2_type (lu_y2 l)) /\
  length (lu_y l) = 16%nat /\ Forall (block_ok (if lu_mode l =? B_PRED then Y_without_Y2 else Y_after_Y2)) (lu_y l) /\
  (mc_pass mc = None -> costs_ok mc -> forall m c p' ref, sized (16 * mw) (16 * mh) p' -> off_block (16 * column) (16 * row) 16 p p' ->
     mb_inter m = false -> mb_ymode m = lu_mode l -> mb_bmodes m = lu_bmodes l -> shape_ok c -> co_y2 c = lu_y2 l -> co_y c = lu_y l ->
     plane_solves 16 column row (luma_prediction ref m column row) (luma_residue q m c) p' ->
     close 16 column row (luma_bound q m) p' (ra_y o)).

Lemma luma_apply_ok mw mh mc qi q o column row p s : qi_small qi -> make_quantizer qi = Some q -> pass_ok (mc_pass mc) ->
  raster_ok mw mh o -> sized (16 * mw) (16 * mh) p -> 0 <= column < mw -> 0 <= row < mh ->
  (sized (16 * mw) (16 * mh) (lp_p s) /\ sized (16 * mw) (16 * mh) (lp_t s) /\ off_block (16 * column) (16 * row) 16 p (lp_p s)) ->
  0 <= lp_mode s <= 4 ->
  (lp_mode s = B_PRED -> bpred_ok (16 * mw) (16 * mh) mc q (ra_y o) column row p (lp_modes s) (lp_blocks s)) ->
  (lp_mode s <> B_PRED -> costs_ok mc -> filled column row p (lp_mode s) (lp_p s)) ->
  exists l, luma_apply_intra mc q (ra_y o) column row s = Some l /\ luma_ok mw mh q mc o column row p l.
Proof.
  intros Hq Eq Hpass Ho Hp Hc Hr (Slp & _ & _) HM HB HF. apply raster_sized in Ho. destruct Ho as (Oy & _ & _). unfold luma_apply_intra.
  destruct (lp_mode s =? B_PRED) eqn:EM.
  - apply Z.eqb_eq in EM. specialize (HB EM). pose proof HB as ((L1 & L2 & F1 & F2) & _). eexists. split; [reflexivity|]. unfold luma_ok. cbn [lu_mode lu_bmodes lu_y2 lu_y].
    rewrite Z.eqb_refl. split; [split; [unfold B_PRED; lia|split; [exact L1|split; [auto|congruence]]]|]. split; [reflexivity|]. split; [exact L2|]. split; [exact F2|].
    intros HP CO m c p' ref Sp' OFF HI E1 E2 HS E3 E4 SV. unfold luma_bound, y2_coded. rewrite E1, Z.eqb_refl. cbn [orb negb].
    apply (bpred_near (16 * mw) (16 * mh) ltac:(lia) mc qi q (ra_y o) column row p (lp_modes s) (lp_blocks s) p' m c ref); try assumption; lia.
  - apply Z.eqb_neq in EM. 
    destruct (code_luma_ok (16 * mw) (16 * mh) (mc_pass mc) (mc_ctx mc) qi q (ra_y o) column row (lp_p s) Hq Eq Hpass Oy Slp ltac:(lia) ltac:(lia) ltac:(lia) ltac:(lia)) as (y2 & bl & E & B2 & L & B & _).
    rewrite E. cbn [obind fst snd]. eexists. split; [reflexivity|]. unfold luma_ok. cbn [lu_mode lu_bmodes lu_y2 lu_y].
    apply Z.eqb_neq in EM. rewrite EM. apply Z.eqb_neq in EM.
    split; [split; [exact HM|split; [reflexivity|split; [congruence|reflexivity]]]|]. split; [exact B2|]. split; [exact L|]. split; [exact B|].
    intros HP CO m c p' ref Sp' OFF HI E1 E2 HS E3 E4 SV. unfold luma_bound, y2_coded. rewrite E1. rewrite (proj2 (Z.eqb_neq _ _) EM). replace (lp_mode s =? SPLITMV) with false by (unfold SPLITMV; lia). cbn [orb negb].
    apply (luma_near (16 * mw) (16 * mh) mc (mc_ctx mc) qi q (ra_y o) column row p (lp_p s) p' m c ref y2 bl); try assumption; try lia.
    + rewrite E1. exact (HF EM CO).
    + unfold y2_coded. rewrite E1. rewrite (proj2 (Z.eqb_neq _ _) EM). replace (lp_mode s =? SPLITMV) with false by (unfold SPLITMV; lia). reflexivity.
Qed.

Lemma finish_intra_ok mw mh mc qi q refs o column row l r r0 t : mw <= 2 ^ 24 -> mh <= 2 ^ 24 -> qi_small qi -> make_quantizer qi = Some q -> pass_ok (mc_pass mc) ->
  raster_ok mw mh o -> raster_ok mw mh r -> raster_ok mw mh r0 -> raster_ok mw mh t -> 0 <= column < mw -> 0 <= row < mh ->
  off_mb column row r r0 -> ra_dw r0 = ra_dw r -> ra_dh r0 = ra_dh r ->
  luma_ok mw mh q mc o column row (ra_y r) l ->
  exists m c r' t', finish_intra mc q o column row l r0 t = Some (m, c, r', t') /\ mb_result mw mh q refs mc o column row r m c r' t' /\
    mb_segment m = None /\ mb_skip m <> None /\ mb_inter m = false /\ mb_sel1 m = None /\ mb_sel2 m = None /\ mb_flipped m = false /\ mb_partition m = None /\
    mb_mvs m = repeat mv_zero 16 /\ intra_modes_ok (mb_ymode m) (mb_bmodes m) (mb_uvmode m).
Proof.
  intros Bw Bh Hq Eq Hpass Ho Hr Hr0 Ht Hc Hrow (OY & OU & OV) D1 D2 ((M1 & M2 & M3 & M4) & K2 & K3 & K4 & LN).
  pose proof Ho as Ho'. apply raster_sized in Ho'. destruct Ho' as (Oy & Ou & Ov). pose proof Hr as Hr'. apply raster_sized in Hr'. destruct Hr' as (Ry & Ru & Rv).
  pose proof Hr0 as Hr0'. apply raster_sized in Hr0'. destruct Hr0' as (Qy & Qu & Qv). pose proof Ht as Ht'. apply raster_sized in Ht'. destruct Ht' as (Ty & Tu & Tv).
  unfold finish_intra.
  destruct (chroma_best_ok (8 * mw) (8 * mh) (ra_u o) (ra_v o) column row (ra_u r0) (ra_v r0) (ra_u t) (ra_v t) Ou Ov Qu Qv Tu Tv ltac:(lia) ltac:(lia) ltac:(lia) ltac:(lia))
    as (cp & EC & BM & (S1 & S2 & S3 & S4) & O1 & O2 & F1 & F2). rewrite EC. cbn [obind].
  destruct (code_chroma_ok (8 * mw) (8 * mh) (mc_pass mc) (mc_ctx mc) 0 qi q (ra_u o) column row (cp_u cp) Hq Eq Hpass Ou S1 ltac:(lia) ltac:(lia) ltac:(lia) ltac:(lia)) as (us & EU & LU & BU & _).
  destruct (code_chroma_ok (8 * mw) (8 * mh) (mc_pass mc) (mc_ctx mc) 4 qi q (ra_v o) column row (cp_v cp) Hq Eq Hpass Ov S2 ltac:(lia) ltac:(lia) ltac:(lia) ltac:(lia)) as (vs & EV & LV & BV & _).
  rewrite EU, EV. cbn [obind]. cbv zeta.
  set (c := mkCoef (lu_y2 l) (lu_y l) us vs). set (m := intra_mb l (cp_mode cp) c).
  assert (YC : y2_coded m = negb (lu_mode l =? B_PRED)).
  { unfold y2_coded, m, intra_mb. cbn [mb_ymode]. replace (lu_mode l =? SPLITMV) with false by (unfold SPLITMV; lia). rewrite orb_false_r. reflexivity. }
  assert (CK : coef_ok m c).
  { apply coefs_good; try reflexivity; try assumption; unfold y_type; rewrite YC; unfold c; cbn [co_y2 co_y co_u co_v].
    - destruct (lu_mode l =? B_PRED); exact K2.
    - destruct (lu_mode l =? B_PRED); exact K4. }
  assert (IM : intra_modes_ok (mb_ymode m) (mb_bmodes m) (mb_uvmode m)).
  { unfold m, intra_mb, intra_modes_ok. cbn [mb_ymode mb_bmodes mb_uvmode]. split; [exact M1|]. split; [|auto]. unfold block_mode, DC_PRED, V_PRED, H_PRED, TM_PRED in BM. lia. }
  assert (GM : mb_good m c) by (split; [exact CK|exact IM]).
  set (r1 := mkRaster (ra_dw r0) (ra_dh r0) (ra_y r0) (cp_u cp) (cp_v cp)).
  assert (R1 : raster_ok mw mh r1) by (apply raster_sized; auto).
  destruct (mb_solves mw mh true q refs m c column row Bw Bh GM ltac:(discriminate) ltac:(reflexivity) Hc Hrow) as [SV _].
  destruct (SV r1 R1) as (r' & ER & R' & (P1 & P2 & P3) & (V1 & V2 & V3)). cbn [negb andb] in ER. rewrite ER. cbn [obind].
  pose proof R' as R''. apply raster_sized in R''. destruct R'' as (Y' & U' & V').
  assert (OU1 : off_block (8 * column) (8 * row) 8 (ra_u r) (cp_u cp)) by exact (off_trans _ _ _ _ _ _ _ _ Ru Qu OU O1).
  assert (OV1 : off_block (8 * column) (8 * row) 8 (ra_v r) (cp_v cp)) by exact (off_trans _ _ _ _ _ _ _ _ Rv Qv OV O2).
  assert (OY' : off_block (16 * column) (16 * row) 16 (ra_y r) (ra_y r')) by exact (off_trans _ _ _ _ _ _ _ _ Ry Qy OY P1).
  assert (OU' : off_block (8 * column) (8 * row) 8 (ra_u r) (ra_u r')) by exact (off_trans _ _ _ _ _ _ _ _ Ru S1 OU1 P2).
  assert (OV' : off_block (8 * column) (8 * row) 8 (ra_v r) (ra_v r')) by exact (off_trans _ _ _ _ _ _ _ _ Rv S2 OV1 P3).
  exists m, c, r'. eexists. split; [reflexivity|]. split; [|repeat (split; [reflexivity || discriminate|]); exact IM].
  split; [split; [exact R'|apply raster_sized; auto]|]. split; [exact GM|]. split; [split; [exact OY'|split; [exact OU'|exact OV']]|].
  split; [exists r1; split; [exact R1|]; split; [auto|]; split; [split; [exact OY|split; [exact OU1|exact OV1]]|exact ER]|].
  intros HP CO. split; [|split].
  - apply (LN HP CO m c (ra_y r') (ra_y (named refs m))); try assumption; try reflexivity. exact (coef_ok_shape m c CK).
  - apply (chroma_near (8 * mw) (8 * mh) (mc_pass mc) (mc_ctx mc) 0 qi q (ra_u o) column row (ra_u r0) (cp_u cp) (ra_u r') m us (ra_u (named refs m))); try assumption; try lia; try reflexivity.
    exact (off_trans _ _ _ _ _ _ _ _ Qu S1 O1 P2).
  - apply (chroma_near (8 * mw) (8 * mh) (mc_pass mc) (mc_ctx mc) 4 qi q (ra_v o) column row (ra_v r0) (cp_v cp) (ra_v r') m vs (ra_v (named refs m))); try assumption; try lia; try reflexivity.
    exact (off_trans _ _ _ _ _ _ _ _ Qv S2 O2 P3).
Qed.

Lemma key_mb_ok mw mh mc qi q refs o column row r t : mw <= 2 ^ 24 -> mh <= 2 ^ 24 -> qi_small qi -> make_quantizer qi = Some q -> pass_ok (mc_pass mc) ->
  raster_ok mw mh o -> raster_ok mw mh r -> raster_ok mw mh t -> 0 <= column < mw -> 0 <= row < mh ->
  exists m c r' t', key_mb mc q o column row r t = Some (m, c, r', t') /\ mb_result mw mh q refs mc o column row r m c r' t' /\
    mb_segment m = None /\ mb_skip m <> None /\ mb_inter m = false /\ mb_sel1 m = None /\ mb_sel2 m = None /\ mb_flipped m = false /\ mb_partition m = None /\
    mb_mvs m = repeat mv_zero 16 /\ intra_modes_ok (mb_ymode m) (mb_bmodes m) (mb_uvmode m).
Proof.
  intros Bw Bh Hq Eq Hpass Ho Hr Ht Hc Hrow.
  pose proof Ho as Ho'. apply raster_sized in Ho'. destruct Ho' as (Oy & Ou & Ov). pose proof Hr as Hr'. apply raster_sized in Hr'. destruct Hr' as (Ry & Ru & Rv).
  pose proof Ht as Ht'. apply raster_sized in Ht'. destruct Ht' as (Ty & Tu & Tv).
  unfold key_mb.
  destruct (luma_best_ok (16 * mw) (16 * mh) ltac:(lia) mc qi q true (ra_y o) column row (ra_y r) (ra_y t) Hq Eq Hpass Oy Ry Ty ltac:(lia) ltac:(lia) ltac:(lia) ltac:(lia)) as (s & E & S3 & HM & HB & HF).
  rewrite E. cbn [obind].
  destruct (luma_apply_ok mw mh mc qi q o column row (ra_y r) s Hq Eq Hpass Ho Ry Hc Hrow S3 HM HB HF) as (l & E2 & LO). rewrite E2. cbn [obind].
  destruct S3 as (Sp & St & OFF).
  apply (finish_intra_ok mw mh mc qi q refs o column row l r); try assumption; try reflexivity.
  - apply raster_sized. auto.
  - apply raster_sized. auto.
  - split; [exact OFF|]. split; apply off_refl.
Qed.

(** ** Macroblocks of inter frames *)

(** The parameters of the search: references with the sizes of the frame, the
    luma of the last one with margins, tables of the sizes of the code. *)
Definition env_ok (mw mh : Z) (env : search_env) : Prop :=
  refs_ok mw mh (se_refs env) /\ raster_dims (rf_last (se_refs env)) /\
  (let r := rf_last (se_refs env) in
   pl_w (se_safe env) = ra_dw r + 512 /\ pl_h (se_safe env) = ra_dh r + 512 /\ shows MARGIN_WIDTH (ra_dw r) (ra_dh r) (ra_y r) (se_safe env)) /\
  length (se_sads env) = 256%nat /\
  length (se_mv_costs env) = 2%nat /\ Forall (fun t => length t = 2%nat /\ Forall (fun l : list Z => length l = Z.to_nat 1024) t) (se_mv_costs env).

Lemma inter_near w h ctx qi q o column row lp p' m c ref y2 bl v : qi_small qi -> make_quantizer qi = Some q ->
  sized w h o -> sized w h lp -> 0 <= column -> 0 <= row -> 16 * (column + 1) <= w -> 16 * (row + 1) <= h ->
  code_luma None ctx q o column row lp = Some (y2, bl) ->
  (forall x y, blk (16 * column) (16 * row) 16 x y -> at_px lp x y = displaced ref (fst v) (snd v) x y) ->
  mb_inter m = true -> mb_mvs m = repeat v 16 -> y2_coded m = true -> shape_ok c -> co_y2 c = y2 -> co_y c = bl ->
  plane_solves 16 column row (luma_prediction ref m column row) (luma_residue q m c) p' ->
  close 16 column row (bound_y2 q) p' o.
Proof.
  intros Hq Eq Ho Hlp Hc Hr Hw Hh E FL HI HV HY HS E2 E1 SV.
  destruct (code_luma_ok w h None ctx qi q o column row lp Hq Eq I Ho Hlp Hc Hr Hw Hh) as (y2' & bl' & E' & _ & _ & _ & A).
  assert (y2' = y2) by congruence. assert (bl' = bl) by congruence. subst y2' bl'. specialize (A eq_refl m c HY HS E2 E1).
  apply (solved_close 16 column row _ _ _ _ _ ltac:(lia) SV). change (Z.to_nat 16) with 16%nat. intros x y Hx Hy. specialize (A x y Hx Hy).
  rewrite (FL (16 * column + Z.of_nat x) (16 * row + Z.of_nat y)) in A by (unfold blk; lia).
  unfold luma_prediction. cbv zeta. rewrite HI. unfold vector. rewrite HV, repeat_nth by lia. exact A.
Qed.

Lemma chroma_inter_ok mw mh qi q o column row v ref p : qi_small qi -> make_quantizer qi = Some q -> mw <= 2 ^ 24 -> mh <= 2 ^ 24 ->
  sized (8 * mw) (8 * mh) o -> sized (8 * mw) (8 * mh) ref -> sized (8 * mw) (8 * mh) p -> 0 <= column < mw -> 0 <= row < mh ->
  exists bl p', chroma_inter q o column row v ref p = Some (bl, p') /\ sized (8 * mw) (8 * mh) p' /\ off_block (8 * column) (8 * row) 8 p p' /\
    length bl = 4%nat /\ Forall (block_ok UV_type) bl /\
    forall m p2, mb_inter m = true -> mb_mvs m = repeat v 16 -> plane_solves 8 column row (chroma_prediction ref m column row) (chroma_res q bl) p2 ->
      close 8 column row (bound_own (uv_factors q)) p2 o.
Proof.
  intros Hq Eq Bw Bh Ho Href Hp Hc Hr. change (2 ^ 24) with 16777216 in *. unfold chroma_inter.
  assert (MI : mv_int16 (luma_to_chroma v v v v)) by (unfold mv_int16, luma_to_chroma; cbv zeta; cbn [fst snd]; split; apply s16_range).
  assert (CI := computes_inter (8 * mw) (8 * mh) 8 column row (luma_to_chroma v v v v) ref ltac:(unfold block_size; lia) Href MI ltac:(lia) ltac:(lia) ltac:(lia) ltac:(lia)
     ltac:(change (2 ^ 30) with 1073741824; lia) ltac:(change (2 ^ 30) with 1073741824; lia)).
  destruct (CI p Hp) as (p' & E & S' & _). rewrite E. cbn [obind].
  destruct (computes_get _ _ _ _ 8 _ _ p p' CI Hp ltac:(lia) ltac:(lia) ltac:(lia) ltac:(lia) E) as (_ & O & V).
  destruct (code_chroma_ok (8 * mw) (8 * mh) None (fun _ _ => 0) 0 qi q o column row p' Hq Eq I Ho S' ltac:(lia) ltac:(lia) ltac:(lia) ltac:(lia)) as (bl & EC & L & B & A).
  rewrite EC. cbn [obind]. exists bl, p'. split; [reflexivity|]. split; [exact S'|]. split; [exact O|]. split; [exact L|]. split; [exact B|].
  intros m p2 HI HV SV. specialize (A eq_refl).
  apply (solved_close 8 column row _ _ _ _ _ ltac:(lia) SV). change (Z.to_nat 8) with 8%nat. intros x y Hx Hy. specialize (A x y Hx Hy).
  rewrite (V (8 * column + Z.of_nat x) (8 * row + Z.of_nat y)) in A by (unfold blk; lia).
  unfold chroma_prediction. cbv zeta. rewrite HI.
  replace (chroma_vector m ((8 * column + Z.of_nat x - 8 * column) / 4) ((8 * row + Z.of_nat y - 8 * row) / 4)) with (luma_to_chroma v v v v); [exact A|].
  rewrite <- chroma_mv_spec. unfold chroma_mv. cbv zeta. rewrite HV, !repeat_nth by lia. reflexivity.
Qed.

Lemma mv_ok_clamp s r v : mb_ok s r -> mv_ok (clamp_in s v).
Proof. intros H. destruct (clamp_range s r v H) as [_ [A B]]. split; [exact A|exact B]. Qed.

Lemma inter_mb_ok env mc qi q (W H : nat) mw mh l i o r t : mw = Z.of_nat W -> mh = Z.of_nat H ->
  mw <= 248 -> mh <= 248 -> qi_small qi -> make_quantizer qi = Some q -> pass_ok (mc_pass mc) -> env_ok mw mh env ->
  raster_ok mw mh o -> raster_ok mw mh r -> raster_ok mw mh t -> (i < W * H)%nat ->
  exists m c r' t', inter_mb env mc q W H l i o r t = Some (m, c, r', t') /\ mb_result mw mh q (se_refs env) mc o (column_of W i) (row_of W i) r m c r' t' /\
    mb_segment m = None /\ mb_skip m <> None /\ mb_flipped m = false /\ mb_sel2 m = None /\
    if mb_inter m then mb_sel1 m = Some false /\ mb_uvmode m = 0 /\ inter_modes_ok W H l i m
    else mb_sel1 m = None /\ mb_partition m = None /\ mb_mvs m = repeat mv_zero 16 /\ intra_modes_ok (mb_ymode m) (mb_bmodes m) (mb_uvmode m).
Proof.
  intros Emw Emh Bw Bh Hq Eq Hpass HE Ho Hr Ht Hi.
  assert (Bw' : mw <= 2 ^ 24) by (change (2 ^ 24) with 16777216; lia). assert (Bh' : mh <= 2 ^ 24) by (change (2 ^ 24) with 16777216; lia).
  assert (W0 : (0 < W)%nat) by (destruct W; [cbn in Hi; lia|lia]).
  assert (Hc : 0 <= column_of W i < mw) by (rewrite Emw; unfold column_of; pose proof (Nat.mod_upper_bound i W ltac:(lia)); lia).
  assert (Hrow : 0 <= row_of W i < mh).
  { rewrite Emh. unfold row_of. assert (i / W < H)%nat by (apply Nat.div_lt_upper_bound; [lia|exact Hi]). generalize dependent (i / W)%nat. intros d Hd. lia. }
  destruct HE as (HR & RD & (SW & SH & SS) & T1 & T2 & T3). pose proof HR as (RL & _ & _).
  pose proof RL as RL'. apply raster_sized in RL'. destruct RL' as (Ly & Lu & Lv).
  pose proof Ho as Ho'. apply raster_sized in Ho'. destruct Ho' as (Oy & Ou & Ov). pose proof Hr as Hr'. apply raster_sized in Hr'. destruct Hr' as (Ry & Ru & Rv).
  pose proof Ht as Ht'. apply raster_sized in Ht'. destruct Ht' as (Ty & Tu & Tv).
  unfold inter_mb. set (column := column_of W i) in *. set (row := row_of W i) in *.
  destruct (luma_best_ok (16 * mw) (16 * mh) ltac:(lia) mc qi q (negb (se_realtime env)) (ra_y o) column row (ra_y r) (ra_y t) Hq Eq Hpass Oy Ry Ty ltac:(lia) ltac:(lia) ltac:(lia) ltac:(lia)) as (s & E & S3 & HM & HB & HF).
  rewrite E. cbn [obind]. cbv zeta. pose proof S3 as (Sp & St & OFF).
  set (se := search_for env mc W H (ra_y o) (lp_t s) column row).
  assert (MO : mb_ok se (rf_last (se_refs env))).
  { split; [|split; [|split; [|split]]].
    - split; [exact RD|]. destruct Ly as (A & B & C). unfold se, search_for. cbn [ms_w ms_h]. rewrite <- Emw, <- Emh. split; [exact A|]. split; [exact B|]. split; [exact C|]. clear - Bw Bh. lia.
    - unfold se, search_for. cbn [ms_w ms_h ms_col ms_row]. rewrite <- Emw, <- Emh. auto.
    - unfold se, search_for. cbn [ms_safe]. auto.
    - unfold se, search_for. cbn [ms_temp]. split; [apply St|]. exact (sized_dims _ _ _ _ Ly St).
    - unfold se, search_for, table_of. cbn [ms_sads ms_mode_costs ms_mv_costs]. split; [exact T1|]. split; [reflexivity|]. split; [exact T2|]. exact T3. }
  destruct (C63_choice se (rf_last (se_refs env)) (se_realtime env) (census_at W false l i) (lp_mode s) (lp_cost s) MO ltac:(unfold se, search_for; cbn [ms_w]; lia) ltac:(unfold se, search_for; cbn [ms_h]; lia))
    as (mode & v & cost & EC & _ & MV & pred & EP & EI).
  rewrite EC. cbn [obind].
  destruct (mode <=? B_PRED) eqn:EM.
  - destruct (luma_apply_ok mw mh mc qi q o column row (ra_y r) s Hq Eq Hpass Ho Ry Hc Hrow S3 HM HB HF) as (lu & E2 & LO). rewrite E2. cbn [obind].
    destruct (finish_intra_ok mw mh mc qi q (se_refs env) o column row lu r (mkRaster (ra_dw r) (ra_dh r) (lp_p s) (ra_u r) (ra_v r))
      (mkRaster (ra_dw t) (ra_dh t) (lp_t s) (ra_u t) (ra_v t))) as (m & c & r' & t' & E3 & MR & G1 & G2 & G3 & G4 & G5 & G6 & G7 & G8 & G9); try assumption; try reflexivity.
    + apply raster_sized. auto.
    + apply raster_sized. auto.
    + split; [exact OFF|]. split; apply off_refl.
    + exists m, c, r', t'. split; [exact E3|]. split; [exact MR|]. rewrite G3. auto 10.
  - rewrite EP. cbn [obind].
    assert (VM : mv_ok v /\ (mode = ZEROMV \/ mode = NEARESTMV \/ mode = NEARMV \/ mode = NEWMV)).
    { destruct MV as [MV|[[-> ->]|[[-> ->]|[[-> ->]|[-> [MV _]]]]]].
      - injection MV as -> ->. unfold B_PRED in EM. lia.
      - split; [unfold mv_ok, mv_zero; cbn; lia|auto].
      - split; [apply (mv_ok_clamp se _ _ MO)|auto].
      - split; [apply (mv_ok_clamp se _ _ MO)|auto].
      - split; [exact MV|auto]. }
    destruct VM as [VO MD].
    assert (CI := computes_inter (16 * mw) (16 * mh) 16 column row v (ra_y (rf_last (se_refs env))) ltac:(unfold block_size; lia) Ly VO ltac:(lia) ltac:(lia) ltac:(lia) ltac:(lia)
       ltac:(change (2 ^ 30) with 1073741824; lia) ltac:(change (2 ^ 30) with 1073741824; lia)).
    destruct (computes_get _ _ _ _ 16 _ _ (lp_t s) pred CI St ltac:(lia) ltac:(lia) ltac:(lia) ltac:(lia) EI) as (Spr & _ & Vpr).
    assert (CC := computes_copy (16 * mw) (16 * mh) 16 (16 * column) (16 * row) pred Spr ltac:(lia) ltac:(lia) ltac:(lia) ltac:(lia)).
    destruct (CC (lp_p s) Sp) as (y & EY & Sy & _). rewrite EY. cbn [obind].
    destruct (computes_get _ _ _ _ 16 _ _ (lp_p s) y CC Sp ltac:(lia) ltac:(lia) ltac:(lia) ltac:(lia) EY) as (_ & Oy1 & Vy).
    destruct (code_luma_ok (16 * mw) (16 * mh) None (mc_ctx mc) qi q (ra_y o) column row y Hq Eq I Oy Sy ltac:(lia) ltac:(lia) ltac:(lia) ltac:(lia)) as (y2 & bl & EL & B2 & L1 & B1 & _).
    rewrite EL. cbn [obind].
    destruct (chroma_inter_ok mw mh qi q (ra_u o) column row v (ra_u (rf_last (se_refs env))) (ra_u r) Hq Eq Bw' Bh' Ou Lu Ru Hc Hrow) as (us & u & EU & Su & Ou1 & LU & BU & AU).
    destruct (chroma_inter_ok mw mh qi q (ra_v o) column row v (ra_v (rf_last (se_refs env))) (ra_v r) Hq Eq Bw' Bh' Ov Lv Rv Hc Hrow) as (vs & vv & EV & Sv & Ov1 & LV & BV & AV).
    rewrite EU, EV. cbn [obind fst snd].
    set (c := mkCoef y2 bl us vs). set (m := inter_mb_of mode v c).
    assert (YC : y2_coded m = true).
    { unfold y2_coded, m, inter_mb_of. cbn [mb_ymode]. replace (mode =? B_PRED) with false by lia.
      unfold ZEROMV, NEARESTMV, NEARMV, NEWMV in MD. replace (mode =? SPLITMV) with false by (unfold SPLITMV; lia). reflexivity. }
    assert (CK : coef_ok m c) by (apply coefs_good; try reflexivity; try assumption; unfold y_type; rewrite YC; assumption).
    assert (GM : mb_good m c).
    { split; [exact CK|]. unfold m, inter_mb_of, mvs_ok, uniform. cbn [mb_inter mb_mvs mb_ymode]. split; [apply Forall_repeat; exact VO|]. split; [reflexivity|]. split; [lia|eauto]. }
    set (r1 := mkRaster (ra_dw r) (ra_dh r) y u vv).
    assert (R1 : raster_ok mw mh r1) by (apply raster_sized; auto).
    destruct (mb_solves mw mh false q (se_refs env) m c column row Bw' Bh' GM (fun _ => HR) ltac:(discriminate) Hc Hrow) as [SV _].
    destruct (SV r1 R1) as (r' & ER & R' & (P1 & P2 & P3) & (V1 & V2 & V3)). cbn [negb andb] in ER. change (mb_inter m) with true in ER. cbv iota in ER. rewrite ER. cbn [obind].
    assert (OY1 : off_block (16 * column) (16 * row) 16 (ra_y r) y) by exact (off_trans _ _ _ _ _ _ _ _ Ry Sp OFF Oy1).
    exists m, c, r'. eexists. split; [reflexivity|]. split; [|split; [reflexivity|]; split; [discriminate|]; split; [reflexivity|]; split; [reflexivity|]].
    + split; [split; [exact R'|apply raster_sized; auto]|]. split; [exact GM|].
      split; [split; [exact (off_trans _ _ _ _ _ _ _ _ Ry Sy OY1 P1)|split; [exact (off_trans _ _ _ _ _ _ _ _ Ru Su Ou1 P2)|exact (off_trans _ _ _ _ _ _ _ _ Rv Sv Ov1 P3)]]|].
      split; [exists r1; split; [exact R1|]; split; [auto|]; split; [split; [exact OY1|split; [exact Ou1|exact Ov1]]|exact ER]|].
      intros HP CO. split; [|split; [apply (AU m); try reflexivity; exact V2|apply (AV m); try reflexivity; exact V3]].
      unfold luma_bound. rewrite YC.
      apply (inter_near (16 * mw) (16 * mh) (mc_ctx mc) qi q (ra_y o) column row y (ra_y r') m c (ra_y (rf_last (se_refs env))) y2 bl v); try assumption; try lia; try reflexivity.
      * intros a b B. rewrite (Vy a b B). apply Vpr, B.
      * exact (coef_ok_shape m c CK).
    + change (mb_inter m) with true. cbv iota. split; [reflexivity|]. split; [reflexivity|].
      unfold inter_modes_ok. cbv zeta. unfold m, inter_mb_of. cbn [mb_flipped mb_ymode mb_partition mb_bmodes mb_mvs].
      destruct MV as [MV|[[-> ->]|[[-> ->]|[[-> ->]|[-> MV]]]]].
      * injection MV as -> ->. unfold B_PRED in EM. lia.
      * right; right; left. auto.
      * left. auto.
      * right; left. auto.
      * do 3 right. left. split; [reflexivity|]. exists v. auto.
Qed.
