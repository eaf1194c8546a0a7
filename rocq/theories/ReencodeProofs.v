(** Lemmas about the encoding with given modes and vectors: one macroblock. *)
From Verif Require Import Base TreeModel HeaderModel MVModel MBModel TokenModel FrameModel QuantModel RasterModel TransformModel.
From Verif Require Import PredictModel LoopFilterModel ReconModel ResidueModel SafeRasterModel MotionModel VarianceModel EncodeModel ReencodeModel.
From Verif Require Import MBProofs TokenProofs FrameProofs RasterProofs PropQuant PropTransform PredictProofs PropInter PropIntra PropLoopFilter.
From Verif Require Import ResidueProofs PropResidue PropVariance ReconProofs PropPicture PropRecon PropSafeRaster PropMotion EncodeProofs EncodeMBProofs.

Lemma no_costs_ok : costs_ok no_costs.
Proof. unfold costs_ok, no_costs. cbn. repeat split; intros; lia. Qed.

Lemma intra_sub_mode y bm uv k : intra_modes_ok y bm uv -> y = B_PRED -> sub_mode (nth k bm 0).
Proof.
  intros (_ & _ & L & F & _) E. apply Forall_nth_d; [|unfold sub_mode, B_DC_PRED, B_HU_PRED; lia].
  eapply Forall_impl; [|exact (F E)]. unfold bmode_ok, sub_mode, B_DC_PRED, B_HU_PRED. intros; lia.
Qed.
Lemma intra_block_mode y bm uv : intra_modes_ok y bm uv -> y <> B_PRED -> block_mode y.
Proof. intros (A & _) N. unfold block_mode, DC_PRED, V_PRED, H_PRED, TM_PRED, B_PRED in *. lia. Qed.
Lemma intra_chroma_mode y bm uv : intra_modes_ok y bm uv -> block_mode uv.
Proof. intros (_ & A & _). unfold block_mode, DC_PRED, V_PRED, H_PRED, TM_PRED in *. lia. Qed.

(** ** Intra-coded luma *)

Section carry.
  Variables w h : Z.
  Hypothesis w16 : w mod 16 = 0.

  Definition carry_inv (q : Quantizer) (o : plane) (column row : Z) (m : mbinfo) (p0 : plane) (k : nat) (s : list block * plane) : Prop :=
    (length (fst s) = k /\ Forall (block_ok Y_without_Y2) (fst s)) /\
    (sized w h (snd s) /\ off_block (16 * column) (16 * row) 16 p0 (snd s)) /\
    forall j, (j < k)%nat -> coded_sub no_costs q o column row (mb_bmodes m) (fst s) (snd s) j.

  Lemma carry_sub_ok qi q o column row m p0 i c r s : qi_small qi -> make_quantizer qi = Some q ->
    sized w h o -> sized w h p0 -> 0 <= column -> 0 <= row -> 16 * (column + 1) <= w -> 16 * (row + 1) <= h ->
    (forall k, sub_mode (nth k (mb_bmodes m) 0)) ->
    nth_error (cells 4) i = Some (c, r) -> carry_inv q o column row m p0 i s ->
    exists s', carry_sub q o column row m s (c, r) = Some s' /\ carry_inv q o column row m p0 (i + 1) s'.
  Proof.
    intros Hq Eq Ho Hp0 Hc Hr Hw Hh HM Hi ((L2 & F2) & (S1 & O) & CD). apply cells4_nth in Hi. destruct Hi as (Ei & Hcc & Hrr).
    unfold carry_sub. cbv zeta. cbn [fst snd].
    assert (EX : 4 * (4 * column + c) = 16 * column + 4 * c) by lia. assert (EY : 4 * (4 * row + r) = 16 * row + 4 * r) by lia.
    assert (EK : Z.to_nat (4 * r + c) = i) by lia. rewrite EK. set (mode := nth i (mb_bmodes m) 0). assert (SM : sub_mode mode) by apply HM.
    rewrite (block_at_some w h 4 (4 * (4 * column + c)) (4 * (4 * row + r)) o Ho) by lia. cbn [obind].
    assert (CP := computes_intra_sub w h (4 * column + c) (4 * row + r) mode SM w16 ltac:(lia) ltac:(lia) ltac:(lia) ltac:(lia)).
    destruct (CP (snd s) S1) as (p & EP & Sp & _). rewrite EP. cbn [obind].
    destruct (computes_get w h _ _ 4 _ _ (snd s) p CP S1 ltac:(lia) ltac:(lia) ltac:(lia) ltac:(lia) EP) as (_ & Op & VP).
    destruct (sub_code_ok w h w16 no_costs qi q i o (4 * column + c) (4 * row + r) mode p Hq Eq I Ho Sp SM ltac:(lia) ltac:(lia) ltac:(lia) ltac:(lia)) as (b & p' & EC & CB & BO & Sp' & Op' & VP').
    rewrite EC. cbn [obind fst snd]. eexists. split; [reflexivity|]. unfold carry_inv. cbn [fst snd].
    rewrite EX, EY in *.
    assert (OFF : off_block (16 * column + 4 * c) (16 * row + 4 * r) 4 (snd s) p') by exact (off_trans w h _ _ _ _ _ _ S1 Sp Op Op').
    split; [|split; [split; [exact Sp'|]|]].
    - rewrite !app_length. cbn [length]. split; [lia|]. apply Forall_app. split; [exact F2|]. constructor; [exact BO|constructor].
    - apply (off_trans w h _ _ _ _ _ _ Hp0 S1 O). apply (off_sub _ _ _ (16 * column + 4 * c) (16 * row + 4 * r) 4); try lia. exact OFF.
    - intros j Hj. destruct (Nat.eq_dec j i) as [-> |NE].
      + unfold coded_sub. cbv zeta. replace (Z.of_nat i mod 4) with c by lia. replace (Z.of_nat i / 4) with r by lia.
        rewrite !app_nth2 by lia. rewrite L2, Nat.sub_diag. cbn [nth]. fold mode.
        assert (SP : forall cc rr, 0 <= cc < 4 -> 0 <= rr < 4 -> sub_spec mode (snd s) (16 * column + 4 * c) (16 * row + 4 * r) cc rr = sub_spec mode p' (16 * column + 4 * c) (16 * row + 4 * r) cc rr).
        { apply (sub_reads w h); try assumption. apply (off_agree w h (16 * column + 4 * c) (16 * row + 4 * r) 4); try assumption. intros x y. unfold subdone, done, blk. lia. }
        assert (SP2 : forall cc rr, 0 <= cc < 4 -> 0 <= rr < 4 -> sub_spec mode p (16 * column + 4 * c) (16 * row + 4 * r) cc rr = sub_spec mode p' (16 * column + 4 * c) (16 * row + 4 * r) cc rr).
        { apply (sub_reads w h); try assumption. apply (off_agree w h (16 * column + 4 * c) (16 * row + 4 * r) 4); try assumption. intros x y. unfold subdone, done, blk. lia. }
        split.
        * rewrite <- CB. f_equal. apply (f_equal (@concat Z)). apply rows_ext. intros cc rr Hcc' Hrr'. rewrite <- SP by assumption. unfold block_in. rewrite VP by (unfold blk; lia). f_equal; lia.
        * intros x y B. rewrite (VP' x y B). rewrite SP2 by (unfold blk in B; lia). reflexivity.
      + apply (coded_keeps w h w16 no_costs q o column row (mb_bmodes m) (fst s) _ _ (snd s) p' c r j); try assumption; try lia.
        * rewrite app_nth1 by lia. reflexivity.
        * apply CD. lia.
  Qed.

  (** What is known about luma. *)
  Lemma carry_luma_ok qi q o column row m p : qi_small qi -> make_quantizer qi = Some q ->
    sized w h o -> sized w h p -> 0 <= column -> 0 <= row -> 16 * (column + 1) <= w -> 16 * (row + 1) <= h ->
    mb_inter m = false -> intra_modes_ok (mb_ymode m) (mb_bmodes m) (mb_uvmode m) ->
    exists y2 bl p1, carry_luma q o column row m p = Some (y2, bl, p1) /\ sized w h p1 /\ off_block (16 * column) (16 * row) 16 p p1 /\
      (if mb_ymode m =? B_PRED then y2 = fresh_block else block_ok Y2_type y2) /\ length bl = 16%nat /\
      Forall (block_ok (if mb_ymode m =? B_PRED then Y_without_Y2 else Y_after_Y2)) bl /\
      forall m2 c p' ref, sized w h p' -> off_block (16 * column) (16 * row) 16 p p' -> mb_inter m2 = false -> mb_ymode m2 = mb_ymode m -> mb_bmodes m2 = mb_bmodes m ->
        shape_ok c -> co_y2 c = y2 -> co_y c = bl -> plane_solves 16 column row (luma_prediction ref m2 column row) (luma_residue q m2 c) p' ->
        close 16 column row (luma_bound q m2) p' o.
  Proof.
    intros Hq Eq Ho Hp Hc Hr Hw Hh HI IM. unfold carry_luma. destruct (mb_ymode m =? B_PRED) eqn:EM.
    - assert (EB : mb_ymode m = B_PRED) by lia.
      destruct (ofold_indexed (carry_sub q o column row m) (carry_inv q o column row m p) (cells 4) 0) with (s := (@nil block, p)) as (s & E & IV).
      { intros i [c r] s Hi IV. cbn [Nat.add] in *. eapply carry_sub_ok; try eassumption. intros k. exact (intra_sub_mode _ _ _ k IM EB). }
      { unfold carry_inv. cbn [fst snd]. split; [split; [reflexivity|constructor]|]. split; [split; [exact Hp|apply off_refl]|]. intros; lia. }
      rewrite E. cbn [obind]. change (0 + length (cells 4))%nat with 16%nat in IV. destruct IV as ((L & F) & (S1 & O) & CD).
      exists fresh_block, (fst s), (snd s). split; [reflexivity|]. split; [exact S1|]. split; [exact O|]. split; [reflexivity|]. split; [exact L|]. split; [exact F|].
      intros m2 c p' ref Sp' OFF HI2 E1 E2 HS E3 E4 SV. unfold luma_bound, y2_coded. rewrite E1, EM. cbn [orb negb].
      apply (bpred_near w h w16 no_costs qi q o column row p (mb_bmodes m) (fst s) p' m2 c ref); try assumption; try reflexivity; try congruence; [exact no_costs_ok|].
      destruct IM as (_ & _ & LM & FM & _). split; [split; [exact LM|]; split; [exact L|]; split; [exact (FM EB)|exact F]|].
      intros _. exists (snd s). auto.
    - assert (BM := intra_block_mode _ _ _ IM ltac:(lia)).
      assert (CP := computes_intra w h 16 column row (mb_ymode m) (or_intror eq_refl) BM Hc Hr Hw Hh).
      destruct (CP p Hp) as (p1 & EP & Sp & _). rewrite EP. cbn [obind].
      destruct (computes_get w h _ _ 16 _ _ p p1 CP Hp ltac:(lia) ltac:(lia) ltac:(lia) ltac:(lia) EP) as (_ & Op & VP).
      destruct (code_luma_ok w h None (fun _ _ => 0) qi q o column row p1 Hq Eq I Ho Sp Hc Hr Hw Hh) as (y2 & bl & E & B2 & L & B & _). rewrite E. cbn [obind fst snd].
      exists y2, bl, p1. split; [reflexivity|]. split; [exact Sp|]. split; [exact Op|]. split; [exact B2|]. split; [exact L|]. split; [exact B|].
      intros m2 c p' ref Sp' OFF HI2 E1 E2 HS E3 E4 SV.
      assert (YC : y2_coded m2 = true).
      { unfold y2_coded. rewrite E1, EM. unfold block_mode, DC_PRED, V_PRED, H_PRED, TM_PRED in BM. replace (mb_ymode m =? SPLITMV) with false by (unfold SPLITMV; lia). reflexivity. }
      unfold luma_bound. rewrite YC.
      apply (luma_near w h no_costs (fun _ _ => 0) qi q o column row p p1 p' m2 c ref y2 bl); try assumption; try reflexivity.
      rewrite E1. exact VP.
  Qed.

End carry.

Section carry2.
  Variables w h : Z.

  Lemma carry_chroma_ok qi q o column row m p : qi_small qi -> make_quantizer qi = Some q ->
    sized w h o -> sized w h p -> 0 <= column -> 0 <= row -> 8 * (column + 1) <= w -> 8 * (row + 1) <= h -> block_mode (mb_uvmode m) ->
    exists bl p1, carry_chroma q o column row m p = Some (bl, p1) /\ sized w h p1 /\ off_block (8 * column) (8 * row) 8 p p1 /\ length bl = 4%nat /\ Forall (block_ok UV_type) bl /\
      forall m2 p' ref, sized w h p' -> off_block (8 * column) (8 * row) 8 p p' -> mb_inter m2 = false -> mb_uvmode m2 = mb_uvmode m ->
        plane_solves 8 column row (chroma_prediction ref m2 column row) (chroma_res q bl) p' -> close 8 column row (bound_own (uv_factors q)) p' o.
  Proof.
    intros Hq Eq Ho Hp Hc Hr Hw Hh BM. unfold carry_chroma.
    assert (CP := computes_intra w h 8 column row (mb_uvmode m) (or_introl eq_refl) BM Hc Hr Hw Hh).
    destruct (CP p Hp) as (p1 & EP & Sp & _). rewrite EP. cbn [obind].
    destruct (computes_get w h _ _ 8 _ _ p p1 CP Hp ltac:(lia) ltac:(lia) ltac:(lia) ltac:(lia) EP) as (_ & Op & VP).
    destruct (code_chroma_ok w h None (fun _ _ => 0) 0 qi q o column row p1 Hq Eq I Ho Sp Hc Hr Hw Hh) as (bl & E & L & B & _). rewrite E. cbn [obind].
    exists bl, p1. split; [reflexivity|]. split; [exact Sp|]. split; [exact Op|]. split; [exact L|]. split; [exact B|].
    intros m2 p' ref Sp' OFF HI E1 SV.
    apply (chroma_near w h None (fun _ _ => 0) 0 qi q o column row p p1 p' m2 bl ref); try assumption; try reflexivity. rewrite E1. exact VP.
  Qed.

  (** ** Inter-coded luma *)

  Lemma luma_residue_own q m c x y : y2_coded m = false -> shape_ok c -> (x < 16)%nat -> (y < 16)%nat ->
    luma_residue q m c x y = res4 (y_factors q) (nth (4 * (y / 4) + x / 4) (co_y c) fresh_block) (Z.of_nat (x mod 4)) (Z.of_nat (y mod 4)).
  Proof.
    intros HM (_ & (L & F) & _) Hx Hy. unfold luma_residue, res4. unfold y2_coded in HM. apply Bool.negb_false_iff in HM. rewrite HM. cbn [negb]. cbv zeta. rewrite !Nat2Z.id.
    assert (Hr : (y / 4 < 4)%nat) by lia. assert (Hk : (x / 4 < 4)%nat) by lia.
    generalize dependent (y / 4)%nat. intros r Hr. generalize dependent (x / 4)%nat. intros k Hk.
    f_equal. f_equal. apply both_ways_ext; [auto|]. intros i j Hi Hj. rewrite andb_false_r. symmetry. apply coefs_scaled; try assumption.
    apply (proj1 (Forall_forall _ _) F), nth_In. lia.
  Qed.

  Lemma code_split_ok qi q o column row p : qi_small qi -> make_quantizer qi = Some q -> sized w h o -> sized w h p ->
    0 <= column -> 0 <= row -> 16 * (column + 1) <= w -> 16 * (row + 1) <= h ->
    exists bl, code_split q o column row p = Some bl /\ length bl = 16%nat /\ Forall (block_ok Y_without_Y2) bl /\
      forall m c, y2_coded m = false -> shape_ok c -> co_y c = bl -> forall x y, (x < 16)%nat -> (y < 16)%nat ->
        Z.abs (clip (at_px p (16 * column + Z.of_nat x) (16 * row + Z.of_nat y) + luma_residue q m c x y) - at_px o (16 * column + Z.of_nat x) (16 * row + Z.of_nat y)) <= bound_own (y_factors q).
  Proof.
    intros Hq Eq Ho Hp Hc Hr Hw Hh. unfold code_split. cbv zeta.
    match goal with |- context [omap ?f (cells 4)] => set (F := f) end.
    assert (HF : forall c r, 0 <= c < 4 -> 0 <= r < 4 -> exists b, F (c, r) = Some b /\ block_ok Y_without_Y2 b /\
      forall cc rr, 0 <= cc < 4 -> 0 <= rr < 4 ->
        Z.abs (clip (at_px p (16 * column + 4 * c + cc) (16 * row + 4 * r + rr) + res4 (y_factors q) b cc rr) - at_px o (16 * column + 4 * c + cc) (16 * row + 4 * r + rr)) <= bound_own (y_factors q)).
    { intros c r Bc Br. unfold F. cbn [fst snd]. rewrite (block_at_some w h 4 _ _ o Ho) by lia. rewrite (block_at_some w h 4 _ _ p Hp) by lia. cbn [obind].
      assert (Ko : forall cc rr, 0 <= cc < 4 -> 0 <= rr < 4 -> byte_ok (block_in (16 * column + 4 * c) (16 * row + 4 * r) o cc rr)) by (apply (block_in_byte w h); try assumption; lia).
      assert (Kp : forall cc rr, 0 <= cc < 4 -> 0 <= rr < 4 -> byte_ok (block_in (16 * column + 4 * c) (16 * row + 4 * r) p cc rr)) by (apply (block_in_byte w h); try assumption; lia).
      destruct (C61_block qi q None 0 Y_without_Y2 _ _ Hq Eq I (or_introl eq_refl) (rows4_pixels _ Ko) (rows4_pixels _ Kp)) as (_ & b & _ & E & _ & _ & B & _).
      exists b. split; [exact E|]. split; [exact B|]. intros cc rr Hcc Hrr.
      exact (own_near qi q _ Y_without_Y2 (y_factors q) _ _ b Hq Eq (or_introl (conj eq_refl eq_refl)) Kp Ko E cc rr Hcc Hrr). }
    set (g := fun cell => match F cell with Some b => b | None => fresh_block end).
    assert (EF : omap F (cells 4) = Some (map g (cells 4))).
    { apply omap_some. intros [c r] Hi. apply cells_in in Hi. destruct (HF c r (proj1 Hi) (proj2 Hi)) as (b & E & _). unfold g. rewrite E. reflexivity. }
    rewrite EF. exists (map g (cells 4)). split; [reflexivity|]. split; [reflexivity|].
    assert (HB : forall cell, In cell (cells 4) -> block_ok Y_without_Y2 (g cell)).
    { intros [c r] Hi. apply cells_in in Hi. destruct (HF c r (proj1 Hi) (proj2 Hi)) as (b & E & B & _). unfold g. rewrite E. exact B. }
    split; [apply Forall_forall; intros b Hb; apply in_map_iff in Hb; destruct Hb as (cell & <- & Hi); exact (HB cell Hi)|].
    intros m c HY HS Ec x y Hx Hy. rewrite (luma_residue_own q m c x y HY HS Hx Hy). rewrite Ec.
    destruct (nth_error (cells 4) (4 * (y / 4) + x / 4)) as [[cc cr]|] eqn:EN; [|apply nth_error_None in EN; change (length (cells 4)) with 16%nat in EN; lia].
    rewrite (nth_indep _ fresh_block (g (0, 0))) by (rewrite map_length; change (length (cells 4)) with 16%nat; lia). rewrite map_nth, (nth_error_nth _ _ (0, 0) EN).
    apply cells4_nth in EN. destruct EN as (EN & Bc & Br). destruct (HF cc cr Bc Br) as (b & E & _ & A).
    assert (g (cc, cr) = b) as -> by (unfold g; rewrite E; reflexivity).
    specialize (A (Z.of_nat (x mod 4)) (Z.of_nat (y mod 4)) ltac:(lia) ltac:(lia)).
    replace (16 * column + 4 * cc + Z.of_nat (x mod 4)) with (16 * column + Z.of_nat x) in A by lia.
    replace (16 * row + 4 * cr + Z.of_nat (y mod 4)) with (16 * row + Z.of_nat y) in A by lia. exact A.
  Qed.

  Lemma carry_luma_inter_ok qi q o column row m ref p : qi_small qi -> make_quantizer qi = Some q -> w <= 2 ^ 30 -> h <= 2 ^ 30 ->
    sized w h o -> sized w h ref -> sized w h p -> 0 <= column -> 0 <= row -> 16 * (column + 1) <= w -> 16 * (row + 1) <= h ->
    mvs_ok m -> mb_ymode m <> B_PRED -> uniform m -> length (mb_mvs m) = 16%nat ->
    exists y2 bl p1, carry_luma_inter q o column row m ref p = Some (y2, bl, p1) /\ sized w h p1 /\ off_block (16 * column) (16 * row) 16 p p1 /\
      (if mb_ymode m =? SPLITMV then y2 = fresh_block else block_ok Y2_type y2) /\ length bl = 16%nat /\
      Forall (block_ok (if mb_ymode m =? SPLITMV then Y_without_Y2 else Y_after_Y2)) bl /\
      forall m2 c p', mb_inter m2 = true -> mb_ymode m2 = mb_ymode m -> mb_mvs m2 = mb_mvs m ->
        shape_ok c -> co_y2 c = y2 -> co_y c = bl -> plane_solves 16 column row (luma_prediction ref m2 column row) (luma_residue q m2 c) p' ->
        close 16 column row (luma_bound q m2) p' o.
  Proof.
    intros Hq Eq Bw Bh Ho Href Hp Hc Hr Hw Hh MV NB UN LV. unfold carry_luma_inter.
    assert (MI : forall k, mv_int16 (nth k (mb_mvs m) mv_zero)).
    { intros k. apply Forall_nth_d; [exact MV|]. unfold mv_int16, mv_zero. cbn. lia. }
    destruct (mb_ymode m =? SPLITMV) eqn:EM.
    - assert (CP := computes_split w h Bw Bh 4 (16 * column) (16 * row) (4 * column) (4 * row) (fun '(c, r) => nth (Z.to_nat (4 * r + c)) (mb_mvs m) mv_zero) ref Href ltac:(lia)
        ltac:(intros; apply MI) ltac:(lia) ltac:(lia) ltac:(lia) ltac:(lia) ltac:(lia) ltac:(lia)).
      change (4 * 4) with 16 in CP. destruct (CP p Hp) as (p1 & EP & Sp & _).
      change (ofold (fun p '(sc, sr) => inter_predict 4 (4 * column + sc) (4 * row + sr) (nth (Z.to_nat (4 * sr + sc)) (mb_mvs m) mv_zero) ref p) (cells 4) p = Some p1) in EP.
      rewrite EP. cbn [obind].
      destruct (computes_get w h _ _ 16 _ _ p p1 CP Hp ltac:(lia) ltac:(lia) ltac:(lia) ltac:(lia) EP) as (_ & Op & VP).
      destruct (code_split_ok qi q o column row p1 Hq Eq Ho Sp Hc Hr Hw Hh) as (bl & E & L & B & A). rewrite E. cbn [obind].
      exists fresh_block, bl, p1. split; [reflexivity|]. split; [exact Sp|]. split; [exact Op|]. split; [reflexivity|]. split; [exact L|]. split; [exact B|].
      intros m2 c p' HI E1 E2 HS E3 E4 SV.
      assert (YC : y2_coded m2 = false) by (unfold y2_coded; rewrite E1, EM, orb_true_r; reflexivity).
      unfold luma_bound. rewrite YC. specialize (A m2 c YC HS E4).
      apply (solved_close 16 column row _ _ _ _ _ ltac:(lia) SV). change (Z.to_nat 16) with 16%nat. intros x y Hx Hy. specialize (A x y Hx Hy).
      rewrite (VP (16 * column + Z.of_nat x) (16 * row + Z.of_nat y)) in A by (unfold blk; lia).
      unfold luma_prediction. cbv zeta. rewrite HI. unfold vector. rewrite E2. exact A.
    - destruct (UN ltac:(lia)) as (v & EV).
      assert (EBV : base_mv m = v) by (unfold base_mv; rewrite EV; apply repeat_nth; lia). rewrite EBV.
      assert (VO : mv_int16 v) by (rewrite <- EBV; apply MI).
      assert (CI := computes_inter w h 16 column row v ref ltac:(unfold block_size; lia) Href VO Hc Hr Hw Hh Bw Bh).
      destruct (CI p Hp) as (p1 & EP & Sp & _). rewrite EP. cbn [obind].
      destruct (computes_get w h _ _ 16 _ _ p p1 CI Hp ltac:(lia) ltac:(lia) ltac:(lia) ltac:(lia) EP) as (_ & Op & VP).
      destruct (code_luma_ok w h None (fun _ _ => 0) qi q o column row p1 Hq Eq I Ho Sp Hc Hr Hw Hh) as (y2 & bl & E & B2 & L & B & _). rewrite E. cbn [obind fst snd].
      exists y2, bl, p1. split; [reflexivity|]. split; [exact Sp|]. split; [exact Op|]. split; [exact B2|]. split; [exact L|]. split; [exact B|].
      intros m2 c p' HI E1 E2 HS E3 E4 SV.
      assert (YC : y2_coded m2 = true) by (unfold y2_coded; rewrite E1, EM; replace (mb_ymode m =? B_PRED) with false by lia; reflexivity).
      unfold luma_bound. rewrite YC.
      apply (inter_near w h (fun _ _ => 0) qi q o column row p1 p' m2 c ref y2 bl v); try assumption. rewrite E2. exact EV.
  Qed.

  Lemma carry_chroma_inter_ok qi q o column row m ref p : qi_small qi -> make_quantizer qi = Some q -> w <= 2 ^ 30 -> h <= 2 ^ 30 ->
    sized w h o -> sized w h ref -> sized w h p -> 0 <= column -> 0 <= row -> 8 * (column + 1) <= w -> 8 * (row + 1) <= h -> uniform m ->
    exists bl p1, carry_chroma_inter q o column row m ref p = Some (bl, p1) /\ sized w h p1 /\ off_block (8 * column) (8 * row) 8 p p1 /\ length bl = 4%nat /\ Forall (block_ok UV_type) bl /\
      forall m2 p', mb_inter m2 = true -> mb_mvs m2 = mb_mvs m ->
        plane_solves 8 column row (chroma_prediction ref m2 column row) (chroma_res q bl) p' -> close 8 column row (bound_own (uv_factors q)) p' o.
  Proof.
    intros Hq Eq Bw Bh Ho Href Hp Hc Hr Hw Hh UN. unfold carry_chroma_inter.
    assert (CP : computes w h (8 * column) (8 * row) 8 (fun p => if mb_ymode m =? SPLITMV then
               ofold (fun p '(sc, sr) => inter_predict 4 (2 * column + sc) (2 * row + sr) (chroma_mv m sc sr) ref p) (cells 2) p
             else inter_predict 8 column row (chroma_mv m 0 0) ref p)
       (fun _ x y => let v := chroma_vector m ((x - 8 * column) / 4) ((y - 8 * row) / 4) in displaced ref (fst v) (snd v) x y)).
    { destruct (mb_ymode m =? SPLITMV) eqn:ES.
      + pose proof (computes_split w h Bw Bh 2 (8 * column) (8 * row) (2 * column) (2 * row) (fun '(c, r) => chroma_mv m c r) ref Href ltac:(lia)
                     ltac:(intros; apply chroma_mv_ok) ltac:(lia) ltac:(lia) ltac:(lia) ltac:(lia) ltac:(lia) ltac:(lia)) as C.
        eapply computes_ext; [|exact C]. intros p0 x y _ _ _. cbv zeta. cbn beta iota. rewrite chroma_mv_spec. reflexivity.
      + eapply computes_ext; [|apply computes_inter; try assumption; try lia; [unfold block_size; lia|apply chroma_mv_ok]].
        intros p0 x y _ B _. cbv zeta. unfold blk in B. rewrite chroma_mv_spec.
        destruct (UN ltac:(lia)) as (v & EV).
        assert (Q : forall sx sy, 0 <= sx < 2 -> 0 <= sy < 2 -> chroma_vector m sx sy = chroma_vector m 0 0).
        { intros sx sy Hx Hy. unfold chroma_vector, vector. cbv zeta. rewrite EV. rewrite !repeat_nth by lia. reflexivity. }
        rewrite (Q ((x - 8 * column) / 4) ((y - 8 * row) / 4)) by lia. reflexivity. }
    destruct (CP p Hp) as (p1 & EP & Sp & _). rewrite EP. cbn [obind].
    destruct (computes_get w h _ _ 8 _ _ p p1 CP Hp ltac:(lia) ltac:(lia) ltac:(lia) ltac:(lia) EP) as (_ & Op & VP).
    destruct (code_chroma_ok w h None (fun _ _ => 0) 0 qi q o column row p1 Hq Eq I Ho Sp Hc Hr Hw Hh) as (bl & E & L & B & A). rewrite E. cbn [obind].
    exists bl, p1. split; [reflexivity|]. split; [exact Sp|]. split; [exact Op|]. split; [exact L|]. split; [exact B|].
    intros m2 p' HI E1 SV. specialize (A eq_refl).
    apply (solved_close 8 column row _ _ _ _ _ ltac:(lia) SV). change (Z.to_nat 8) with 8%nat. intros x y Hx Hy. specialize (A x y Hx Hy).
    rewrite (VP (8 * column + Z.of_nat x) (8 * row + Z.of_nat y)) in A by (unfold blk; lia).
    unfold chroma_prediction. cbv zeta. rewrite HI.
    replace (chroma_vector m2) with (chroma_vector m); [exact A|]. unfold chroma_vector, vector. rewrite E1. reflexivity.
  Qed.
End carry2.

(** ** Macroblocks *)

(** The new macroblock is the old one with another skip flag and no segment. *)
Definition reskip (m : mbinfo) (skip : option bool) : mbinfo :=
  mkMB None skip (mb_inter m) (mb_sel1 m) (mb_sel2 m) (mb_flipped m) (mb_partition m) (mb_ymode m) (mb_bmodes m) (mb_mvs m) (mb_uvmode m).

Lemma carried_reskip hd W H l i m skip : if_mb_ok hd W H l i m -> carried m skip = reskip m skip.
Proof.
  intros (_ & _ & _ & G). unfold carried, reskip. cbv zeta.
  destruct (mb_inter m).
  - destruct G as (U & IM). unfold inter_modes_ok in IM. cbv zeta in IM. rewrite U.
    destruct IM as [IM|[IM|[IM|[IM|IM]]]]; [..|destruct IM as (-> & _); reflexivity].
    all: destruct IM as (-> & IM).
    1-3: destruct IM as (_ & -> & E); unfold base_mv; rewrite E; rewrite !repeat_nth by lia; reflexivity.
    destruct IM as (v & (_ & -> & E) & _); unfold base_mv; rewrite E; rewrite !repeat_nth by lia; reflexivity.
  - destruct G as (_ & -> & (_ & _ & _ & _ & F)). destruct (mb_ymode m =? B_PRED) eqn:EM; [reflexivity|]. rewrite F by lia. reflexivity.
Qed.

Lemma carry_mb_ok mw mh qi q refs o column row m r t : mw <= 2 ^ 24 -> mh <= 2 ^ 24 -> qi_small qi -> make_quantizer qi = Some q ->
  refs_ok mw mh refs -> raster_ok mw mh o -> raster_ok mw mh r -> raster_ok mw mh t -> 0 <= column < mw -> 0 <= row < mh ->
  (forall skip, carried m skip = reskip m skip) ->
  (if mb_inter m then mvs_ok m /\ length (mb_mvs m) = 16%nat /\ mb_ymode m <> B_PRED /\ uniform m
   else intra_modes_ok (mb_ymode m) (mb_bmodes m) (mb_uvmode m)) ->
  exists m' c r', carry_mb q refs o column row m r = Some (m', c, r') /\ mb_result mw mh q refs no_costs o column row r m' c r' t /\
    m' = reskip m (Some (negb (has_nonzero m' c))).
Proof.
  intros Bw Bh Hq Eq HR Ho Hr Ht Hc Hrow CR HM. change (2 ^ 24) with 16777216 in *.
  pose proof Ho as Ho'. apply raster_sized in Ho'. destruct Ho' as (Oy & Ou & Ov). pose proof Hr as Hr'. apply raster_sized in Hr'. destruct Hr' as (Ry & Ru & Rv).
  unfold carry_mb. rewrite !CR. destruct (mb_inter m) eqn:HI.
  - destruct HM as (M1 & M2 & M3 & M4). destruct (named_at mw mh refs m HR HI) as [ER OR]. rewrite ER. cbn [obind]. cbv zeta.
    pose proof OR as OR'. apply raster_sized in OR'. destruct OR' as (Ly & Lu & Lv). set (ref := named refs m) in *.
    assert (P16w : 16 * mw <= 2 ^ 30) by (change (2 ^ 30) with 1073741824; lia). assert (P16h : 16 * mh <= 2 ^ 30) by (change (2 ^ 30) with 1073741824; lia).
    assert (P8w : 8 * mw <= 2 ^ 30) by (change (2 ^ 30) with 1073741824; lia). assert (P8h : 8 * mh <= 2 ^ 30) by (change (2 ^ 30) with 1073741824; lia).
    destruct (carry_luma_inter_ok (16 * mw) (16 * mh) qi q (ra_y o) column row m (ra_y ref) (ra_y r) Hq Eq P16w P16h Oy Ly Ry ltac:(lia) ltac:(lia) ltac:(lia) ltac:(lia) M1 M3 M4 M2)
      as (y2 & bl & y & EL & Sy & Oy1 & K2 & L1 & B1 & AY). rewrite EL. cbn [obind fst snd].
    set (m1 := reskip m None). assert (UN1 : uniform m1) by exact M4.
    destruct (carry_chroma_inter_ok (8 * mw) (8 * mh) qi q (ra_u o) column row m1 (ra_u ref) (ra_u r) Hq Eq P8w P8h Ou Lu Ru ltac:(lia) ltac:(lia) ltac:(lia) ltac:(lia) UN1) as (us & u & EU & Su & Ou1 & LU & BU & AU).
    destruct (carry_chroma_inter_ok (8 * mw) (8 * mh) qi q (ra_v o) column row m1 (ra_v ref) (ra_v r) Hq Eq P8w P8h Ov Lv Rv ltac:(lia) ltac:(lia) ltac:(lia) ltac:(lia) UN1) as (vs & v & EV & Sv & Ov1 & LV & BV & AV).
    rewrite EU, EV. cbn [obind fst snd].
    set (c := mkCoef y2 bl us vs). rewrite CR. set (m2 := reskip m (Some (skip_for (mb_ymode m) c))).
    assert (YC : y2_coded m2 = negb (mb_ymode m =? SPLITMV)) by (unfold y2_coded, m2, reskip; cbn [mb_ymode]; replace (mb_ymode m =? B_PRED) with false by lia; reflexivity).
    assert (CK : coef_ok m2 c).
    { apply coefs_good; try reflexivity; try assumption; unfold y_type; rewrite YC; unfold c; cbn [co_y2 co_y co_u co_v].
      - destruct (mb_ymode m =? SPLITMV); exact K2.
      - destruct (mb_ymode m =? SPLITMV); exact B1. }
    assert (GM : mb_good m2 c) by (split; [exact CK|]; unfold m2, reskip, mvs_ok, uniform; cbn [mb_inter mb_mvs mb_ymode]; rewrite HI; auto).
    set (r1 := mkRaster (ra_dw r) (ra_dh r) y u v).
    assert (R1 : raster_ok mw mh r1) by (apply raster_sized; auto).
    destruct (mb_solves mw mh false q refs m2 c column row ltac:(change (2 ^ 24) with 16777216; lia) ltac:(change (2 ^ 24) with 16777216; lia) GM (fun _ => HR) ltac:(discriminate) Hc Hrow) as [SV _].
    assert (HI2 : mb_inter m2 = true) by exact HI.
    destruct (SV r1 R1) as (r' & ER' & R' & (P1 & P2 & P3) & (V1 & V2 & V3)). cbn [negb andb] in ER'. rewrite HI2 in ER'. rewrite ER'. cbn [obind].
    exists m2, c, r'. split; [reflexivity|]. split; [|].
    + split; [split; [exact R'|exact Ht]|]. split; [exact GM|].
      split; [split; [exact (off_trans _ _ _ _ _ _ _ _ Ry Sy Oy1 P1)|split; [exact (off_trans _ _ _ _ _ _ _ _ Ru Su Ou1 P2)|exact (off_trans _ _ _ _ _ _ _ _ Rv Sv Ov1 P3)]]|].
      rewrite HI2. split; [exists r1; split; [exact R1|]; split; [auto|]; split; [split; [exact Oy1|split; [exact Ou1|exact Ov1]]|exact ER']|].
      intros _ _. change (named refs m2) with ref in *. split; [|split; [apply (AU m2); try assumption; reflexivity|apply (AV m2); try assumption; reflexivity]].
      apply (AY m2 c); try assumption; try reflexivity. exact (coef_ok_shape m2 c CK).
    + unfold m2 at 1. f_equal. f_equal. unfold has_nonzero, skipped, skip_for. change (mb_skip m2) with (Some (skip_for (mb_ymode m) c)). unfold skip_for. rewrite YC.
      replace (mb_ymode m =? B_PRED) with false by lia. cbn [orb]. set (b := _ || _ || _ || _). destruct b; reflexivity.
  - set (m1 := reskip m None). cbv zeta.
    destruct (carry_luma_ok (16 * mw) (16 * mh) ltac:(lia) qi q (ra_y o) column row m (ra_y r) Hq Eq Oy Ry ltac:(lia) ltac:(lia) ltac:(lia) ltac:(lia) HI HM)
      as (y2 & bl & y & EL & Sy & Oy1 & K2 & L1 & B1 & AY). rewrite EL. cbn [obind fst snd].
    assert (BM := intra_chroma_mode _ _ _ HM).
    destruct (carry_chroma_ok (8 * mw) (8 * mh) qi q (ra_u o) column row m (ra_u r) Hq Eq Ou Ru ltac:(lia) ltac:(lia) ltac:(lia) ltac:(lia) BM) as (us & u & EU & Su & Ou1 & LU & BU & AU).
    destruct (carry_chroma_ok (8 * mw) (8 * mh) qi q (ra_v o) column row m (ra_v r) Hq Eq Ov Rv ltac:(lia) ltac:(lia) ltac:(lia) ltac:(lia) BM) as (vs & v & EV & Sv & Ov1 & LV & BV & AV).
    rewrite EU, EV. cbn [obind fst snd].
    set (c := mkCoef y2 bl us vs). rewrite CR. set (m2 := reskip m (Some (skip_for (mb_ymode m) c))).
    assert (NS : (mb_ymode m =? SPLITMV) = false) by (destruct HM as (A & _); unfold SPLITMV; lia).
    assert (YC : y2_coded m2 = negb (mb_ymode m =? B_PRED)) by (unfold y2_coded, m2, reskip; cbn [mb_ymode]; rewrite NS, orb_false_r; reflexivity).
    assert (CK : coef_ok m2 c).
    { apply coefs_good; try reflexivity; try assumption; unfold y_type; rewrite YC; unfold c; cbn [co_y2 co_y co_u co_v].
      - destruct (mb_ymode m =? B_PRED); exact K2.
      - destruct (mb_ymode m =? B_PRED); exact B1. }
    assert (HI2 : mb_inter m2 = false) by exact HI.
    assert (GM : mb_good m2 c) by (split; [exact CK|]; rewrite HI2; exact HM).
    set (r1 := mkRaster (ra_dw r) (ra_dh r) y u v).
    assert (R1 : raster_ok mw mh r1) by (apply raster_sized; auto).
    destruct (mb_solves mw mh true q refs m2 c column row ltac:(change (2 ^ 24) with 16777216; lia) ltac:(change (2 ^ 24) with 16777216; lia) GM ltac:(congruence) ltac:(auto) Hc Hrow) as [SV _].
    destruct (SV r1 R1) as (r' & ER' & R' & (P1 & P2 & P3) & (V1 & V2 & V3)). cbn [negb andb] in ER'. rewrite ER'. cbn [obind].
    assert (OY' := off_trans _ _ _ _ _ _ _ _ Ry Sy Oy1 P1). assert (OU' := off_trans _ _ _ _ _ _ _ _ Ru Su Ou1 P2). assert (OV' := off_trans _ _ _ _ _ _ _ _ Rv Sv Ov1 P3).
    pose proof R' as R''. apply raster_sized in R''. destruct R'' as (Y' & U' & V').
    exists m2, c, r'. split; [reflexivity|]. split; [|].
    + split; [split; [exact R'|exact Ht]|]. split; [exact GM|].
      split; [split; [exact OY'|split; [exact OU'|exact OV']]|].
      rewrite HI2. split; [exists r1; split; [exact R1|]; split; [auto|]; split; [split; [exact Oy1|split; [exact Ou1|exact Ov1]]|exact ER']|].
      intros _ _. split; [|split].
      * apply (AY m2 c (ra_y r') (ra_y (named refs m2))); try assumption; try reflexivity. exact (coef_ok_shape m2 c CK).
      * apply (AU m2 (ra_u r') (ra_u (named refs m2))); try assumption; reflexivity.
      * apply (AV m2 (ra_v r') (ra_v (named refs m2))); try assumption; reflexivity.
    + unfold m2 at 1. f_equal. f_equal. unfold has_nonzero, skipped, skip_for. change (mb_skip m2) with (Some (skip_for (mb_ymode m) c)). unfold skip_for. rewrite YC.
      rewrite NS, orb_false_r. set (b := _ || _ || _ || _). destruct b; reflexivity.
Qed.
