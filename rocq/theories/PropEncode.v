(** C64: the frames the encoder makes. *)
From Verif Require Import Base BoolCoderModel ParserModel Tables TreeModel HeaderModel MVModel MBModel TokenModel ChunkModel ContainerModel FrameModel.
From Verif Require Import QuantModel RasterModel TransformModel PredictModel LoopFilterModel ReconModel StateModel EncoderModel.
From Verif Require Import ResidueModel SafeRasterModel MotionModel VarianceModel EncodeModel.
From Verif Require Import PropState HeaderProofs MBProofs TokenProofs FrameProofs RasterProofs PropQuant PropTransform PredictProofs PropInter PropIntra PropLoopFilter PropFrame.
From Verif Require Import ResidueProofs PropResidue PropVariance ReconProofs PropPicture PropRecon StateProofs PropEncoder PropSafeRaster PropMotion EncodeProofs EncodeMBProofs.

(** ** Lists *)

Lemma indexed_app {A} (l : list A) a : indexed (l ++ [a]) = indexed l ++ [(length l, a)].
Proof.
  unfold indexed. rewrite app_length. cbn [length]. rewrite Nat.add_comm. change (1 + length l)%nat with (S (length l)). rewrite seq_S. cbn [Nat.add].
  assert (G : forall (k l : list nat) (a b : list A) , length k = length a -> combine (k ++ l) (a ++ b) = combine k a ++ combine l b).
  { induction k as [|x k IH]; intros l0 [|y a0] b E; try discriminate; [reflexivity|]. cbn. f_equal. apply IH. cbn in E. congruence. }
  rewrite G by apply seq_length. reflexivity.
Qed.
Lemma combine_app1 {A B} (l : list A) (k : list B) a b : length l = length k -> combine (l ++ [a]) (k ++ [b]) = combine l k ++ [(a, b)].
Proof. revert k. induction l as [|x l IH]; intros [|y k] E; try discriminate; [reflexivity|]. cbn. f_equal. apply IH. cbn in E. congruence. Qed.
Lemma nth_error_snoc {A} (l : list A) a j x : nth_error (l ++ [a]) j = Some x -> (nth_error l j = Some x /\ (j < length l)%nat) \/ (j = length l /\ x = a).
Proof.
  intros E. destruct (Nat.lt_ge_cases j (length l)) as [Hj|Hj]; [left; rewrite nth_error_app1 in E by exact Hj; auto|]. right.
  rewrite nth_error_app2 in E by exact Hj. destruct (j - length l)%nat eqn:D; [|destruct n; discriminate]. cbn in E. split; [lia|congruence].
Qed.

(** The reconstruction does not look at the segment ids if there is no
    segmentation. *)
Lemma ofold_ids {A B I S} (f : S -> nat * (A * B * I) -> option S) (g : S -> nat * (A * B) -> option S) (l : list (A * B)) (ids : list I) s :
  length ids = length l -> (forall s i a b id, f s (i, (a, b, id)) = g s (i, (a, b))) ->
  ofold f (indexed (combine l ids)) s = ofold g (indexed l) s.
Proof.
  intros L E. unfold indexed. rewrite combine_length, L, Nat.min_id. generalize 0%nat. revert ids L s.
  induction l as [|[a b] l IH]; intros [|id ids] L s k; try discriminate; [reflexivity|].
  cbn [length seq combine ofold]. rewrite E. destruct (g s (k, (a, b))) as [s'|]; cbn [obind]; [|reflexivity]. apply IH. cbn in L. congruence.
Qed.

(** ** The invariant *)

Definition decode_mb (q : Quantizer) (refs : references) (W : nat) (r : raster) (x : nat * (mbinfo * mbcoef)) : option raster :=
  let '(i, (m, c)) := x in
  if mb_inter m then reconstruct_inter q refs m c (column_of W i) (row_of W i) r else reconstruct_intra q m c (column_of W i) (row_of W i) r.

Lemma position_earlier (W i j : nat) : (0 < W)%nat -> (j < i)%nat -> row_of W j < row_of W i \/ (row_of W j = row_of W i /\ column_of W j < column_of W i).
Proof.
  intros HW H. unfold row_of, column_of. pose proof (Nat.div_mod i W ltac:(lia)) as Di. pose proof (Nat.div_mod j W ltac:(lia)) as Dj.
  pose proof (Nat.mod_upper_bound i W ltac:(lia)). pose proof (Nat.mod_upper_bound j W ltac:(lia)).
  generalize dependent (i / W)%nat. generalize dependent (j / W)%nat. generalize dependent (i mod W)%nat. generalize dependent (j mod W)%nat. intros b Hb a Ha d Dj c Di.
  destruct (Nat.lt_trichotomy d c) as [L|[L|L]]; [lia|subst; lia|]. exfalso. nia.
Qed.

Lemma close_keeps w h n ci ri cj rj bound p p' o : 0 < n -> sized w h p -> off_block (n * ci) (n * ri) n p p' ->
  0 <= cj -> 0 <= rj -> n * (cj + 1) <= w -> n * (rj + 1) <= h -> 0 <= ci -> rj < ri \/ (rj = ri /\ cj < ci) ->
  close n cj rj bound p o -> close n cj rj bound p' o.
Proof.
  intros Hn Sp O Hcj Hrj Hw Hh Hci Hlt Q x y B. rewrite <- (O x y); [exact (Q x y B)| |].
  - apply (inside_sized w h p); [exact Sp|]. unfold blk in B. split; nia.
  - apply Bool.not_true_iff_false. intros B2. apply in_block_blk in B2. unfold blk in *. nia.
Qed.

Lemma place W H mw mh : Z.of_nat W = mw -> Z.of_nat H = mh -> (0 < W)%nat -> forall i, (i < W * H)%nat -> 0 <= column_of W i < mw /\ 0 <= row_of W i < mh.
Proof. intros EW EH W0 i Hi. apply (position_ok mw mh W (W * H)); try assumption; lia. Qed.

Section frame.
  Variables (W H : nat) (mw mh : Z) (q : Quantizer) (refs : references) (mcs : nat -> mb_costs) (o : raster).
  Variable dw dh : Z.
  Variable good : list mbinfo -> nat -> mbinfo -> Prop.
  Variable enc : encoding -> nat -> option (mbinfo * mbcoef * raster * raster).
  Hypothesis EW : Z.of_nat W = mw.
  Hypothesis EH : Z.of_nat H = mh.
  Hypothesis W0 : (0 < W)%nat.
  Hypothesis Bw : mw <= 2 ^ 24.
  Hypothesis Bh : mh <= 2 ^ 24.
  Hypothesis refs_fit : forall l i m, good l i m -> mb_inter m = true -> refs_ok mw mh refs.
  Hypothesis enc_ok : forall s i, raster_ok mw mh (ec_r s) -> raster_ok mw mh (ec_t s) -> (i < W * H)%nat ->
    exists m c r' t', enc s i = Some (m, c, r', t') /\ mb_result mw mh q refs (mcs i) o (column_of W i) (row_of W i) (ec_r s) m c r' t' /\ good (ec_ms s) i m.

  Definition frame_inv (i : nat) (s : encoding) : Prop :=
    (length (ec_ms s) = i /\ length (ec_cs s) = i) /\ (raster_ok mw mh (ec_r s) /\ raster_ok mw mh (ec_t s)) /\ (ra_dw (ec_r s) = dw /\ ra_dh (ec_r s) = dh) /\
    (forall j m, nth_error (ec_ms s) j = Some m -> good (firstn j (ec_ms s)) j m) /\
    coefs_ok (ec_ms s) (ec_cs s) /\
    (forall j m, nth_error (ec_ms s) j = Some m -> mc_pass (mcs j) = None -> EncodeProofs.costs_ok (mcs j) -> near q o (column_of W j) (row_of W j) m (ec_r s)) /\
    (forall d0, raster_ok mw mh d0 -> ra_dw d0 = dw -> ra_dh d0 = dh ->
       exists d, ofold (decode_mb q refs W) (indexed (combine (ec_ms s) (ec_cs s))) d0 = Some d /\ raster_ok mw mh d /\ raster_inv W i (ec_r s) d).

  Lemma frame_step i s : (i < W * H)%nat -> frame_inv i s -> exists s', (let? x := enc s i in Some (add_mb s x)) = Some s' /\ frame_inv (i + 1) s'.
  Proof.
    intros Hi ((L1 & L2) & (R1 & R2) & (D1 & D2) & GO & CO & NE & DE).
    destruct (enc_ok s i R1 R2 Hi) as (m & c & r' & t' & E & ((R1' & R2') & MG & OFF & (r1 & Rr1 & (Dw1 & Dh1) & O1 & RE) & NE') & GM).
    rewrite E. cbn [obind]. eexists. split; [reflexivity|]. unfold add_mb.
    destruct (place W H mw mh EW EH W0 i Hi) as [Hc Hr].
    assert (MR : mb_ready m c).
    { destruct MG as [C1 C2]. split; [exact (coef_ok_shape m c C1)|]. destruct (mb_inter m); [destruct C2 as (A & B & C & _); auto|exact C2]. }
    assert (ST : rstep (fun r => decode_mb q refs W r (i, (m, c))) mw mh (raster_inv W i) (ragree (column_of W i + 1) (row_of W i))).
    { unfold decode_mb, raster_inv. destruct (mb_inter m) eqn:EI; [apply (step_inter mw mh q refs m c _ _ Bw Bh MR EI (refs_fit _ _ _ GM EI) Hc Hr)|apply (step_intra mw mh q m c _ _ Bw Bh MR EI Hc Hr)]. }
    assert (RR : decode_mb q refs W r1 (i, (m, c)) = Some r') by exact RE.
    apply raster_sized in R1. destruct R1 as (Sy & Su & Sv). pose proof R1' as R1s. apply raster_sized in R1s. destruct R1s as (Sy' & Su' & Sv').
    pose proof Rr1 as Rr1'. apply raster_sized in Rr1'. destruct Rr1' as (Ty & Tu & Tv).
    assert (AG : forall d, raster_inv W i (ec_r s) d -> raster_inv W i r1 d).
    { intros d (E1 & E2 & A1 & A2 & A3). destruct O1 as (OY & OU & OV). split; [congruence|]. split; [congruence|].
      assert (G : forall w h n p p1 pd, 0 < n -> sized w h p -> sized w h p1 -> off_block (n * column_of W i) (n * row_of W i) n p p1 ->
                ReconProofs.agree (done n (column_of W i) (row_of W i)) p pd -> ReconProofs.agree (done n (column_of W i) (row_of W i)) p1 pd).
      { intros w h n p p1 pd Hn Hp Hp1 O A x y Hin Hd. assert (Hin' : inside p x y = true) by (apply (inside_sized w h p); [exact Hp|]; apply (inside_sized w h p1); assumption).
        rewrite <- (A x y Hin' Hd). symmetry. apply O; [exact Hin'|]. apply Bool.not_true_iff_false. intros B. apply in_block_blk in B. unfold done, blk in *. nia. }
      split; [apply (G _ _ 16 (ra_y (ec_r s)) _ _ ltac:(lia) Sy Ty OY A1)|]. split; [apply (G _ _ 8 (ra_u (ec_r s)) _ _ ltac:(lia) Su Tu OU A2)|apply (G _ _ 8 (ra_v (ec_r s)) _ _ ltac:(lia) Sv Tv OV A3)]. }
    assert (DIM : forall d, raster_ok mw mh d -> raster_inv W i r1 d -> exists d', decode_mb q refs W d (i, (m, c)) = Some d' /\ raster_ok mw mh d' /\ ragree (column_of W i + 1) (row_of W i) r' d').
    { intros d Hd Id. destruct (ST r1 d Rr1 Hd Id) as (x & y & X1 & X2 & X3 & X4 & X5). rewrite RR in X1. apply some_eq in X1. subst x. eauto. }
    assert (DD : ra_dw r' = dw /\ ra_dh r' = dh).
    { assert (G : ra_dw r' = ra_dw r1 /\ ra_dh r' = ra_dh r1); [|destruct G; split; congruence].
      clear - RE. destruct (mb_inter m); [unfold reconstruct_inter in RE|unfold reconstruct_intra in RE].
      - repeat match type of RE with context [obind ?x _] => destruct x; cbn [obind] in RE; [|discriminate] end.
        apply some_eq in RE. subst r'. auto.
      - repeat match type of RE with context [obind ?x _] => destruct x; cbn [obind] in RE; [|discriminate] end.
        apply some_eq in RE. subst r'. auto. }
    unfold frame_inv. cbn [ec_ms ec_cs ec_r ec_t].
    split; [rewrite !app_length; cbn [length]; lia|]. split; [auto|]. split; [exact DD|]. split; [|split; [|split]].
    - intros j m' Hj. apply nth_error_snoc in Hj. destruct Hj as [[Hj Lj]|[-> ->]].
      + rewrite firstn_app. replace (j - length (ec_ms s))%nat with 0%nat by lia. cbn [firstn]. rewrite app_nil_r. exact (GO j m' Hj).
      + rewrite firstn_app, firstn_all, Nat.sub_diag. cbn [firstn]. rewrite app_nil_r, L1. exact GM.
    - destruct CO as [C1 C2]. split; [rewrite !app_length; cbn [length]; lia|]. intros j m' c' Hj Hc'.
      apply nth_error_snoc in Hj. apply nth_error_snoc in Hc'. destruct Hj as [[Hj Lj]|[-> ->]], Hc' as [[Hc' Lc]|[Ec ->]]; try lia; [exact (C2 j m' c' Hj Hc')|exact (proj1 MG)].
    - intros j m' Hj NP CK. apply nth_error_snoc in Hj. destruct Hj as [[Hj Lj]|[-> ->]]; [|rewrite L1 in *; exact (NE' NP CK)].
      destruct (NE j m' Hj NP CK) as (N1 & N2 & N3). destruct OFF as (OY & OU & OV).
      destruct (place W H mw mh EW EH W0 j ltac:(lia)) as [Hcj Hrj]. pose proof (position_earlier W i j W0 ltac:(lia)) as PE.
      unfold near. split; [|split].
      + apply (close_keeps (16 * mw) (16 * mh) 16 (column_of W i) (row_of W i) _ _ _ (ra_y (ec_r s))); try assumption; lia.
      + apply (close_keeps (8 * mw) (8 * mh) 8 (column_of W i) (row_of W i) _ _ _ (ra_u (ec_r s))); try assumption; lia.
      + apply (close_keeps (8 * mw) (8 * mh) 8 (column_of W i) (row_of W i) _ _ _ (ra_v (ec_r s))); try assumption; lia.
    - intros d0 Hd0 Dd0 Dh0. destruct (DE d0 Hd0 Dd0 Dh0) as (d & Ed & Rd & Id).
      destruct (DIM d Rd (AG d Id)) as (d' & Ed' & Rd' & Id'). exists d'.
      rewrite combine_app1 by lia. rewrite indexed_app, ofold_app, Ed. cbn [obind ofold]. rewrite combine_length, L1, L2, Nat.min_id, Ed'. cbn [obind].
      split; [reflexivity|]. split; [exact Rd'|]. exact (inv_next mw mh W i r' d' W0 EW R1' Id').
  Qed.

  Lemma frame_ok r t : raster_ok mw mh r -> raster_ok mw mh t -> ra_dw r = dw -> ra_dh r = dh ->
    exists s, ofold (fun s i => let? x := enc s i in Some (add_mb s x)) (seq 0 (W * H)) (mkEnc [] [] r t) = Some s /\
      frame_inv (W * H) s /\
      forall d0, raster_ok mw mh d0 -> ra_dw d0 = dw -> ra_dh d0 = dh -> ofold (decode_mb q refs W) (indexed (combine (ec_ms s) (ec_cs s))) d0 = Some (ec_r s).
  Proof.
    intros Hr Ht D1 D2.
    destruct (ofold_indexed (fun s i => let? x := enc s i in Some (add_mb s x)) frame_inv (seq 0 (W * H)) 0) with (s := mkEnc [] [] r t) as (s & E & IV).
    - intros i a s Ha IV. cbn [Nat.add] in *. assert (Hi : (i < W * H)%nat) by (rewrite <- (seq_length (W * H) 0); apply nth_error_Some; congruence).
      assert (a = i) as ->. { apply (nth_error_nth _ _ 0%nat) in Ha. rewrite seq_nth in Ha by exact Hi. lia. }
      exact (frame_step i s Hi IV).
    - unfold frame_inv. cbn [ec_ms ec_cs ec_r ec_t length]. split; [auto|]. split; [auto|]. split; [auto|].
      split; [intros [|j] m Hj; discriminate|]. split; [split; [reflexivity|intros [|j] m c Hj; discriminate]|]. split; [intros [|j] m Hj; discriminate|].
      intros d0 Hd Dw Dh. exists d0. split; [reflexivity|]. split; [exact Hd|].
      unfold raster_inv, column_of, row_of. rewrite Nat.mod_0_l, Nat.div_0_l by lia. split; [congruence|]. split; [congruence|].
      split; [|split]; intros x y Hin [Hd'|Hd']; apply inside_iff in Hin; lia.
    - rewrite seq_length in IV. cbn [Nat.add] in IV. exists s. split; [exact E|]. split; [exact IV|].
      destruct IV as (_ & (O1 & _) & _ & _ & _ & _ & DE). intros d0 Hd Dw Dh. destruct (DE d0 Hd Dw Dh) as (d & -> & O2 & A1 & A2 & AY & AU & AV). f_equal.
      assert (CE : column_of W (W * H) = 0 /\ row_of W (W * H) = mh).
      { unfold column_of, row_of. rewrite (Nat.mul_comm W H), Nat.mod_mul, Nat.div_mul by lia. lia. }
      destruct CE as [C1 C2]. rewrite C1, C2 in *.
      apply raster_sized in O1. apply raster_sized in O2. destruct O1 as (Y1 & U1 & V1). destruct O2 as (Y2 & U2 & V2).
      assert (EX : forall n w p q, sized w (n * mh) p -> sized w (n * mh) q -> ReconProofs.agree (done n 0 mh) p q -> p = q).
      { intros n w p p' Hp Hq Ha. apply plane_ext; [apply Hp|apply Hq|exact (sized_dims _ _ _ _ Hp Hq)|].
        intros x y Hi. apply Ha; [exact Hi|]. apply inside_iff in Hi. destruct Hp as (_ & _ & Hh). left. lia. }
      pose proof (EX 16 _ _ _ Y1 Y2 AY) as Q1. pose proof (EX 8 _ _ _ U1 U2 AU) as Q2. pose proof (EX 8 _ _ _ V1 V2 AV) as Q3.
      clear - A1 A2 Q1 Q2 Q3. destruct (ec_r s), d; cbn in *. congruence.
  Qed.
End frame.

(** ** Whole frames *)

Definition passes_ok (mcs : nat -> mb_costs) : Prop := forall i, pass_ok (mc_pass (mcs i)).
Definition key_good (l : list mbinfo) (i : nat) (m : mbinfo) : Prop :=
  mb_segment m = None /\ mb_skip m <> None /\ mb_inter m = false /\ mb_sel1 m = None /\ mb_sel2 m = None /\ mb_flipped m = false /\ mb_partition m = None /\
  mb_mvs m = repeat mv_zero 16 /\ intra_modes_ok (mb_ymode m) (mb_bmodes m) (mb_uvmode m).
Definition inter_good (W H : nat) (l : list mbinfo) (i : nat) (m : mbinfo) : Prop :=
  mb_segment m = None /\ mb_skip m <> None /\ mb_flipped m = false /\ mb_sel2 m = None /\
  if mb_inter m then mb_sel1 m = Some false /\ mb_uvmode m = 0 /\ inter_modes_ok W H l i m
  else mb_sel1 m = None /\ mb_partition m = None /\ mb_mvs m = repeat mv_zero 16 /\ intra_modes_ok (mb_ymode m) (mb_bmodes m) (mb_uvmode m).

Lemma key_pass_ok (W H : nat) mw mh qi q refs mcs o r t : Z.of_nat W = mw -> Z.of_nat H = mh -> (0 < W)%nat -> mw <= 2 ^ 24 -> mh <= 2 ^ 24 ->
  qi_small qi -> make_quantizer qi = Some q -> passes_ok mcs -> raster_ok mw mh o -> raster_ok mw mh r -> raster_ok mw mh t ->
  exists s, key_pass mcs q W (W * H) o r t = Some s /\ frame_inv W mw mh q refs mcs o (ra_dw r) (ra_dh r) key_good (W * H) s /\
    forall d0, raster_ok mw mh d0 -> ra_dw d0 = ra_dw r -> ra_dh d0 = ra_dh r -> ofold (decode_mb q refs W) (indexed (combine (ec_ms s) (ec_cs s))) d0 = Some (ec_r s).
Proof.
  intros EW EH W0 Bw Bh Hq Eq HP Ho Hr Ht. unfold key_pass.
  apply (frame_ok W H mw mh q refs mcs o (ra_dw r) (ra_dh r) key_good (fun s i => key_mb (mcs i) q o (column_of W i) (row_of W i) (ec_r s) (ec_t s))); try assumption; try reflexivity.
  - intros l i m (_ & _ & E & _) E2. congruence.
  - intros s i R1 R2 Hi. destruct (place W H mw mh EW EH W0 i Hi) as [Hc Hrow].
    exact (key_mb_ok mw mh (mcs i) qi q refs o (column_of W i) (row_of W i) (ec_r s) (ec_t s) Bw Bh Hq Eq (HP i) Ho R1 R2 Hc Hrow).
Qed.

Lemma encode_key_ok (W H : nat) mw mh qi q refs o passes : Z.of_nat W = mw -> Z.of_nat H = mh -> (0 < W)%nat -> mw <= 2 ^ 24 -> mh <= 2 ^ 24 ->
  qi_small qi -> make_quantizer qi = Some q -> raster_ok mw mh o -> Forall passes_ok passes -> passes <> [] -> forall l0 r t, raster_ok mw mh r -> raster_ok mw mh t ->
  exists s, ofold (fun s mcs => key_pass mcs q W (W * H) o (ec_r s) (ec_t s)) passes (mkEnc (fst l0) (snd l0) r t) = Some s /\ frame_inv W mw mh q refs (last passes (fun _ => mkMC (fun _ => 0) (fun _ _ => 0) 0 0 None (fun _ _ => 0))) o (ra_dw r) (ra_dh r) key_good (W * H) s /\
    forall d0, raster_ok mw mh d0 -> ra_dw d0 = ra_dw r -> ra_dh d0 = ra_dh r -> ofold (decode_mb q refs W) (indexed (combine (ec_ms s) (ec_cs s))) d0 = Some (ec_r s).
Proof.
  intros EW EH W0 Bw Bh Hq Eq Ho HP NE. induction HP as [|mcs passes HM HP IH]; [congruence|]. intros l0 r t Hr Ht. cbn [ofold ec_r ec_t].
  destruct (key_pass_ok W H mw mh qi q refs mcs o r t EW EH W0 Bw Bh Hq Eq HM Ho Hr Ht) as (s & E & IV & DE). rewrite E. cbn [obind].
  destruct passes as [|mcs2 passes]; [exists s; cbn [ofold last]; auto|].
  destruct IV as (_ & (R1 & R2) & (D1 & D2) & _). rewrite <- D1, <- D2. destruct s as [a b c d]. cbn [ec_r ec_t] in *.
  exact (IH ltac:(discriminate) (a, b) c d R1 R2).
Qed.

Lemma encode_inter_ok (W H : nat) mw mh qi q env mcs o r t : Z.of_nat W = mw -> Z.of_nat H = mh -> (0 < W)%nat -> mw <= 248 -> mh <= 248 ->
  qi_small qi -> make_quantizer qi = Some q -> passes_ok mcs -> env_ok mw mh env -> raster_ok mw mh o -> raster_ok mw mh r -> raster_ok mw mh t ->
  exists s, encode_inter env mcs q W H o r t = Some s /\ frame_inv W mw mh q (se_refs env) mcs o (ra_dw r) (ra_dh r) (inter_good W H) (W * H) s /\
    forall d0, raster_ok mw mh d0 -> ra_dw d0 = ra_dw r -> ra_dh d0 = ra_dh r -> ofold (decode_mb q (se_refs env) W) (indexed (combine (ec_ms s) (ec_cs s))) d0 = Some (ec_r s).
Proof.
  intros EW EH W0 Bw Bh Hq Eq HP HE Ho Hr Ht. unfold encode_inter.
  apply (frame_ok W H mw mh q (se_refs env) mcs o (ra_dw r) (ra_dh r) (inter_good W H) (fun s i => inter_mb env (mcs i) q W H (ec_ms s) i o (ec_r s) (ec_t s))); try assumption; try reflexivity;
    try (change (2 ^ 24) with 16777216; lia).
  - intros l i m _ _. exact (proj1 HE).
  - intros s i R1 R2 Hi.
    exact (inter_mb_ok env (mcs i) qi q W H mw mh (ec_ms s) i o (ec_r s) (ec_t s) (eq_sym EW) (eq_sym EH) Bw Bh Hq Eq (HP i) HE Ho R1 R2 Hi).
Qed.

(** ** Theorems *)

Lemma qi_small_of qi : qi_ok qi -> qi_small qi.
Proof. intros Hq. exact (proj1 (C30_header_indices_qualify qi Hq)). Qed.

Lemma seg_none u : u = None -> seg_ok u None.
Proof. intros ->. unfold seg_ok. cbn. split; [split; intros X; [discriminate|congruence]|intros x Hx; discriminate]. Qed.

Lemma key_good_ok hd l i m : kf_update_segmentation hd = None -> kf_prob_skip_false hd <> None -> key_good l i m -> kf_mb_ok hd m.
Proof.
  intros E1 E2 (A & B & C). split; [|split; [|exact C]].
  - rewrite A. apply seg_none, E1.
  - split; auto.
Qed.

Lemma inter_good_ok hd (W H : nat) l i m : (0 < W)%nat -> if_update_segmentation hd = None -> if_prob_skip_false hd <> None ->
  inter_good W H (firstn i l) i m -> if_mb_ok hd W H l i m.
Proof.
  intros HW E1 E2 (A & B & C & D & F). split; [rewrite A; apply seg_none, E1|]. split; [split; auto|]. split.
  - unfold mb_header_ok, flip_of, mb_reference, reference. rewrite C, D. destruct (mb_inter m).
    + destruct F as (-> & _). cbn. split; [split; [discriminate|reflexivity]|]. split; [split; [discriminate|congruence]|reflexivity].
    + destruct F as (-> & _). cbn. split; [split; [discriminate|congruence]|]. split; [split; [discriminate|congruence]|reflexivity].
  - destruct (mb_inter m); [|apply F]. destruct F as (_ & U & IM). split; [exact U|].
    unfold inter_modes_ok in *. cbv zeta in *. rewrite census_at_firstn, above_of_firstn, left_of_firstn in IM by exact HW. exact IM.
Qed.

Lemma decode_key refs (W : nat) hd ms cs ids q scratch : make_quantizer (kf_quant_indices hd) = Some q -> length cs = length ms -> length ids = length ms ->
  Forall (fun m => mb_inter m = false) ms ->
  picture_decode None refs (key_pic W hd ms cs ids) scratch = ofold (decode_mb q refs W) (indexed (combine ms cs)) scratch.
Proof.
  intros Eq LC LI FI. unfold picture_decode. cbn [pc_qi pc_key pc_W pc_mbs key_pic]. rewrite Eq. cbn [obind segment_quantizers negb andb].
  rewrite (ofold_ids _ (fun r '(i, (m, c)) => reconstruct_intra q m c (column_of W i) (row_of W i) r)) by (reflexivity || (rewrite combine_length; lia)).
  clear LI. unfold indexed. rewrite combine_length, LC, Nat.min_id. generalize 0%nat. revert cs LC scratch. induction FI as [|m ms HI FI IH]; intros [|c cs] LC r k; try discriminate; [reflexivity|].
  cbn [length seq combine ofold]. unfold decode_mb at 1. rewrite HI. destruct (reconstruct_intra q m c (column_of W k) (row_of W k) r); cbn [obind]; [|reflexivity]. apply IH. cbn in LC. congruence.
Qed.
Lemma decode_inter refs (W : nat) hd ms cs ids q scratch : make_quantizer (if_quant_indices hd) = Some q -> length cs = length ms -> length ids = length ms ->
  picture_decode None refs (inter_pic W hd ms cs ids) scratch = ofold (decode_mb q refs W) (indexed (combine ms cs)) scratch.
Proof.
  intros Eq LC LI. unfold picture_decode. cbn [pc_qi pc_key pc_W pc_mbs inter_pic]. rewrite Eq. cbn [obind segment_quantizers negb andb].
  apply ofold_ids; [rewrite combine_length; lia|]. reflexivity.
Qed.

(** Key frames. Whatever the picture, the buffers, the costs and contexts used to
    choose among modes and coefficients: the encoding succeeds, the frame fits
    the format, and the encoder's reconstruction is what a decoder computes
    from the frame before its loop filter. *)
Theorem C64_key : forall w h hd q passes o r t,
  0 < w <= 16383 -> 0 < h <= 16383 -> kfh_ok hd -> key_frame_header_supported hd = true ->
  kf_update_segmentation hd = None -> kf_prob_skip_false hd <> None -> make_quantizer (kf_quant_indices hd) = Some q ->
  Forall passes_ok passes -> passes <> [] -> raster_for w h o -> raster_for w h r -> raster_for w h t ->
  exists e, encode_key passes q (mb_dim w) (mb_dim w * mb_dim h) o r t = Some e /\
    (forall show ids, length ids = length (ec_ms e) -> writable w h (KeyW show hd (ec_ms e) (ec_cs e) ids)) /\
    raster_for w h (ec_r e) /\
    forall refs ids scratch, length ids = length (ec_ms e) -> raster_for w h scratch ->
      picture_decode None refs (key_pic (mb_dim w) hd (ec_ms e) (ec_cs e) ids) scratch = Some (ec_r e).
Proof.
  intros w h hd q passes o r t Hw Hh K SU NS SK Eq HP NE (Ho & _ & _) (Hr & Dw & Dh) (Ht & _ & _).
  pose proof (dims_ok w Hw) as Bw. pose proof (dims_ok h Hh) as Bh. pose proof (qi_small_of _ (kfo_qi hd K)) as Hq.
  destruct (encode_key_ok (mb_dim w) (mb_dim h) _ _ _ q (mkRefs r r r) o passes eq_refl eq_refl ltac:(lia) ltac:(lia) ltac:(lia) Hq Eq Ho HP NE ([], []) r t Hr Ht)
    as (e & E & ((L1 & L2) & (R1 & R2) & (D1 & D2) & GO & CO & _ & _) & DE).
  assert (FI : Forall (kf_mb_ok hd) (ec_ms e)).
  { apply Forall_forall. intros m Hm. apply In_nth_error in Hm. destruct Hm as [j Hm]. exact (key_good_ok hd _ _ _ NS SK (GO j m Hm)). }
  exists e. split; [exact E|]. split; [|split].
  - intros show ids LI. cbn [writable]. auto 10.
  - split; [exact R1|]. split; congruence.
  - intros refs ids scratch LI (Rs & Ds1 & Ds2).
    assert (FN : Forall (fun m => mb_inter m = false) (ec_ms e)) by (eapply Forall_impl; [|exact FI]; intros m Hm; apply Hm).
    destruct (encode_key_ok (mb_dim w) (mb_dim h) _ _ _ q refs o passes eq_refl eq_refl ltac:(lia) ltac:(lia) ltac:(lia) Hq Eq Ho HP NE ([], []) r t Hr Ht) as (e' & E' & _ & DE').
    unfold encode_key in E. rewrite E in E'. apply some_eq in E'. subst e'.
    rewrite (decode_key refs _ hd _ _ ids q) by (try assumption; lia). apply DE'; congruence.
Qed.

(** Inter frames, up to the size for which the motion search is in range (see
    C63). *)
Theorem C64_inter : forall w h hd q env mcs o r t,
  0 < w <= 3968 -> 0 < h <= 3968 -> ifh_ok hd -> inter_frame_header_supported hd = true ->
  if_update_segmentation hd = None -> if_prob_skip_false hd <> None -> make_quantizer (if_quant_indices hd) = Some q ->
  passes_ok mcs -> env_ok (Z.of_nat (mb_dim w)) (Z.of_nat (mb_dim h)) env -> raster_for w h o -> raster_for w h r -> raster_for w h t ->
  exists e, encode_inter env mcs q (mb_dim w) (mb_dim h) o r t = Some e /\
    (forall show ids, length ids = length (ec_ms e) -> writable w h (InterW show hd (ec_ms e) (ec_cs e) ids)) /\
    raster_for w h (ec_r e) /\
    forall ids scratch, length ids = length (ec_ms e) -> raster_for w h scratch ->
      picture_decode None (se_refs env) (inter_pic (mb_dim w) hd (ec_ms e) (ec_cs e) ids) scratch = Some (ec_r e).
Proof.
  intros w h hd q env mcs o r t Hw Hh K SU NS SK Eq HP HE (Ho & _ & _) (Hr & Dw & Dh) (Ht & _ & _).
  assert (Bw : 0 < Z.of_nat (mb_dim w) <= 248) by (unfold mb_dim; lia). assert (Bh : 0 < Z.of_nat (mb_dim h) <= 248) by (unfold mb_dim; lia).
  pose proof (qi_small_of _ (ifo_qi hd K)) as Hq.
  destruct (encode_inter_ok (mb_dim w) (mb_dim h) _ _ _ q env mcs o r t eq_refl eq_refl ltac:(lia) ltac:(lia) ltac:(lia) Hq Eq HP HE Ho Hr Ht)
    as (e & E & ((L1 & L2) & (R1 & R2) & (D1 & D2) & GO & CO & _ & _) & DE).
  exists e. split; [exact E|]. split; [|split].
  - intros show ids LI. cbn [writable]. split; [exact K|]. split; [exact SU|]. split; [exact L1|]. split; [|auto].
    intros i m Hm. apply inter_good_ok; [lia|exact NS|exact SK|exact (GO i m Hm)].
  - split; [exact R1|]. split; congruence.
  - intros ids scratch LI (Rs & Ds1 & Ds2). rewrite (decode_inter _ _ hd _ _ ids q) by (try assumption; lia). apply DE; congruence.
Qed.

(** ** Accuracy *)

(** The most a pixel may differ from the original, in terms of the steps of the
    quantiser (see C61). *)
Definition luma_error (q : Quantizer) (m : mbinfo) : Z :=
  if (mb_ymode m =? B_PRED) || (mb_ymode m =? SPLITMV) then (q_y_dc q + 15 * q_y_ac q + 5) / 8
  else (2 * Z.max (q_y2_dc q) (q_y2_ac q) + 15 * q_y_ac q + 5) / 8.
Definition chroma_error (q : Quantizer) : Z := (q_uv_dc q + 15 * q_uv_ac q + 5) / 8.

(** Every pixel of picture [r] is so near to that of [o]. *)
Definition pixel_near (bound : Z) (p o : plane) (x y : Z) : Prop := Z.abs (at_px p x y - at_px o x y) <= bound.
Definition frame_near (q : Quantizer) (W : nat) (ms : list mbinfo) (o r : raster) : Prop :=
  (forall x y, inside (ra_y o) x y = true -> exists m, nth_error ms (Z.to_nat (y / 16) * W + Z.to_nat (x / 16)) = Some m /\ pixel_near (luma_error q m) (ra_y r) (ra_y o) x y) /\
  (forall x y, inside (ra_u o) x y = true -> pixel_near (chroma_error q) (ra_u r) (ra_u o) x y) /\
  (forall x y, inside (ra_v o) x y = true -> pixel_near (chroma_error q) (ra_v r) (ra_v o) x y).

(** The costs of the code: first pass, tables of uint16_t, multipliers as in
    encoder.cc. *)
Definition first_pass (mcs : nat -> mb_costs) : Prop :=
  forall i, mc_pass (mcs i) = None /\ 0 <= mc_rm (mcs i) <= 1000 /\ 0 <= mc_dm (mcs i) <= 100 /\
    (forall m, 0 <= mc_mode (mcs i) m < 65536) /\ forall k m, 0 <= mc_sub (mcs i) k m < 65536.

Lemma near_all q (W H : nat) mw mh ms o r : Z.of_nat W = mw -> Z.of_nat H = mh -> length ms = (W * H)%nat -> raster_ok mw mh o ->
  (forall j m, nth_error ms j = Some m -> near q o (column_of W j) (row_of W j) m r) -> frame_near q W ms o r.
Proof.
  intros EW EH LM Ho NE. apply raster_sized in Ho. destruct Ho as (Y & U & V).
  assert (G : forall n p x y, 0 < n -> sized (n * mw) (n * mh) p -> inside p x y = true ->
     let j := (Z.to_nat (y / n) * W + Z.to_nat (x / n))%nat in exists m, nth_error ms j = Some m /\ blk (n * column_of W j) (n * row_of W j) n x y).
  { intros n p x y Hn (_ & Pw & Ph) Hi j. apply inside_iff in Hi. rewrite Pw, Ph in Hi.
    assert (Hx : 0 <= x / n < mw) by (split; [apply Z.div_pos; lia|apply Z.div_lt_upper_bound; lia]).
    assert (Hy : 0 <= y / n < mh) by (split; [apply Z.div_pos; lia|apply Z.div_lt_upper_bound; lia]).
    assert (Ej : (j mod W)%nat = Z.to_nat (x / n) /\ (j / W)%nat = Z.to_nat (y / n)).
    { unfold j. rewrite Nat.add_comm, Nat.mod_add, Nat.div_add by lia. rewrite Nat.mod_small, Nat.div_small by lia. auto. }
    assert (Lj : (j < length ms)%nat).
    { rewrite LM. unfold j. assert (Z.to_nat (y / n) + 1 <= H)%nat by lia. assert (Z.to_nat (x / n) < W)%nat by lia. nia. }
    destruct (nth_error ms j) as [m|] eqn:Em; [|apply nth_error_None in Em; lia]. exists m. split; [reflexivity|].
    unfold column_of, row_of. destruct Ej as [-> ->]. rewrite !Z2Nat.id by lia. unfold blk.
    pose proof (Z.div_mod x n ltac:(lia)). pose proof (Z.mod_pos_bound x n ltac:(lia)). pose proof (Z.div_mod y n ltac:(lia)). pose proof (Z.mod_pos_bound y n ltac:(lia)). lia. }
  split; [|split].
  - intros x y Hi. destruct (G 16 _ x y ltac:(lia) Y Hi) as (m & Em & B). exists m. split; [exact Em|]. destruct (NE _ _ Em) as (N & _ & _). specialize (N x y B). unfold luma_bound, y2_coded in N. unfold luma_error. destruct (_ || _); exact N.
  - intros x y Hi. destruct (G 8 _ x y ltac:(lia) U Hi) as (m & Em & B). destruct (NE _ _ Em) as (_ & N & _). exact (N x y B).
  - intros x y Hi. destruct (G 8 _ x y ltac:(lia) V Hi) as (m & Em & B). destruct (NE _ _ Em) as (_ & _ & N). exact (N x y B).
Qed.

(** Without the trellis every pixel of the reconstruction is near the original:
    the distance depends on the quantiser only, not on the picture. *)
Theorem C64_key_near : forall w h qi q mcs o r t e,
  0 < w <= 16383 -> 0 < h <= 16383 -> qi_ok qi -> make_quantizer qi = Some q -> first_pass mcs ->
  raster_for w h o -> raster_for w h r -> raster_for w h t ->
  encode_key [mcs] q (mb_dim w) (mb_dim w * mb_dim h) o r t = Some e -> frame_near q (mb_dim w) (ec_ms e) o (ec_r e).
Proof.
  intros w h qi q mcs o r t e Hw Hh Hq Eq HP (Ho & _ & _) (Hr & Dw & Dh) (Ht & _ & _) E.
  pose proof (dims_ok w Hw) as Bw. pose proof (dims_ok h Hh) as Bh. pose proof (qi_small_of _ Hq) as Hqs.
  assert (PO : Forall passes_ok [mcs]) by (constructor; [intros i; rewrite (proj1 (HP i)); exact I|constructor]).
  destruct (encode_key_ok (mb_dim w) (mb_dim h) _ _ _ q (mkRefs r r r) o [mcs] eq_refl eq_refl ltac:(lia) ltac:(lia) ltac:(lia) Hqs Eq Ho PO ltac:(discriminate) ([], []) r t Hr Ht)
    as (e' & E' & ((L1 & L2) & _ & _ & _ & _ & NE & _) & _).
  cbn [fst snd] in E'. unfold encode_key in E. rewrite E in E'. apply some_eq in E'. subst e'.
  apply (near_all q (mb_dim w) (mb_dim h) _ _ _ _ _ eq_refl eq_refl L1 Ho). intros j m Hj. destruct (HP j) as (P1 & P2). exact (NE j m Hj P1 P2).
Qed.

Theorem C64_inter_near : forall w h qi q env mcs o r t e,
  0 < w <= 3968 -> 0 < h <= 3968 -> qi_ok qi -> make_quantizer qi = Some q -> first_pass mcs -> env_ok (Z.of_nat (mb_dim w)) (Z.of_nat (mb_dim h)) env ->
  raster_for w h o -> raster_for w h r -> raster_for w h t ->
  encode_inter env mcs q (mb_dim w) (mb_dim h) o r t = Some e -> frame_near q (mb_dim w) (ec_ms e) o (ec_r e).
Proof.
  intros w h qi q env mcs o r t e Hw Hh Hq Eq HP HE (Ho & _ & _) (Hr & Dw & Dh) (Ht & _ & _) E.
  assert (Bw : 0 < Z.of_nat (mb_dim w) <= 248) by (unfold mb_dim; lia). assert (Bh : 0 < Z.of_nat (mb_dim h) <= 248) by (unfold mb_dim; lia).
  pose proof (qi_small_of _ Hq) as Hqs.
  assert (PO : passes_ok mcs) by (intros i; rewrite (proj1 (HP i)); exact I).
  destruct (encode_inter_ok (mb_dim w) (mb_dim h) _ _ _ q env mcs o r t eq_refl eq_refl ltac:(lia) ltac:(lia) ltac:(lia) Hqs Eq PO HE Ho Hr Ht)
    as (e' & E' & ((L1 & L2) & _ & _ & _ & _ & NE & _) & _).
  rewrite E in E'. apply some_eq in E'. subst e'.
  apply (near_all q (mb_dim w) (mb_dim h) _ _ _ _ _ eq_refl eq_refl L1 Ho). intros j m Hj. destruct (HP j) as (P1 & P2). exact (NE j m Hj P1 P2).
Qed.

(** ** From the original to the decoder's screen *)

(** A key frame is encoded, written and decoded. The decoder shows the encoder's
    reconstruction after the loop filter. *)
Theorem C64_key_decoded : forall w h hd q passes o r t e en d show ids blank scratch scratch' en' bytes,
  0 < w <= 16383 -> 0 < h <= 16383 -> kfh_ok hd -> key_frame_header_supported hd = true ->
  kf_update_segmentation hd = None -> kf_prob_skip_false hd <> None -> make_quantizer (kf_quant_indices hd) = Some q ->
  Forall passes_ok passes -> passes <> [] -> raster_for w h o -> raster_for w h r -> raster_for w h t ->
  encode_key passes q (mb_dim w) (mb_dim w * mb_dim h) o r t = Some e ->
  let f := KeyW show hd (ec_ms e) (ec_cs e) ids in
  length ids = length (ec_ms e) -> decoder_good w h d -> ready w h en d f -> raster_for w h scratch -> raster_for w h scratch' ->
  write_frame en f blank scratch = Some (en', bytes) -> sizes_ok (ds_pt (en_state en)) w h f bytes ->
  exists d' shown_r, get_frame_output d (chunk_of bytes) scratch' = (d', Output show shown_r) /\
    picture_loopfilter None (ds_fa (en_state en')) (key_pic (mb_dim w) hd (ec_ms e) (ec_cs e) ids) (ec_r e) = Some (Filtered shown_r) /\
    (kf_loop_filter_level hd = 0 -> shown_r = ec_r e).
Proof.
  intros w h hd q passes o r t e en d show ids blank scratch scratch' en' bytes Hw Hh K SU NS SK Eq HP NE Ho Hr Ht E f LI G RD Hs Hs' EW SZ.
  destruct (C64_key w h hd q passes o r t Hw Hh K SU NS SK Eq HP NE Ho Hr Ht) as (e' & E' & WR & RE & DE). rewrite E in E'. apply some_eq in E'. subst e'.
  destruct (C28_frame w h en d f blank scratch scratch' Hw Hh G RD (WR show ids LI) Hs Hs') as (en2 & b2 & EW2 & _ & C). rewrite EW in EW2. apply some_eq in EW2. apply pair_equal_spec in EW2. destruct EW2 as [<- <-].
  destruct (C SZ) as (d' & sr & GO & LS & KR & _). exists d', sr. split; [exact GO|].
  destruct RD as (Rw & Rh & _). unfold write_frame, f in EW. cbv zeta in EW. rewrite Rw in EW.
  assert (SG : ds_seg (update_state_key (en_state en) hd) = None).
  { unfold update_state_key. cbv zeta. destruct (kf_refresh_entropy_probs hd); cbn; rewrite NS; reflexivity. }
  rewrite SG in EW. unfold picture_output in EW. rewrite (DE _ ids scratch LI Hs) in EW. cbn [obind] in EW.
  destruct (picture_loopfilter None _ _ _) as [[x|]|] eqn:LF in EW; try discriminate.
  destruct (key_frame_serialize _ _ _ _ _ _ _) as [b|]; [|discriminate]. apply some_eq in EW. apply pair_equal_spec in EW. destruct EW as [<- _].
  cbn [kept_raster f en_refs] in KR. unfold key_copy_to in KR. cbn [rf_last] in KR. subst x. cbn [en_state]. split; [exact LF|].
  intros L0. unfold picture_loopfilter in LF. cbn [pc_level key_pic] in LF. rewrite L0 in LF. cbn in LF. congruence.
Qed.

Theorem C64_inter_decoded : forall w h hd q env mcs o r t e en d show ids blank scratch scratch' en' bytes,
  0 < w <= 3968 -> 0 < h <= 3968 -> ifh_ok hd -> inter_frame_header_supported hd = true ->
  if_update_segmentation hd = None -> if_prob_skip_false hd <> None -> make_quantizer (if_quant_indices hd) = Some q ->
  passes_ok mcs -> env_ok (Z.of_nat (mb_dim w)) (Z.of_nat (mb_dim h)) env -> raster_for w h o -> raster_for w h r -> raster_for w h t ->
  encode_inter env mcs q (mb_dim w) (mb_dim h) o r t = Some e ->
  let f := InterW show hd (ec_ms e) (ec_cs e) ids in
  length ids = length (ec_ms e) -> decoder_good w h d -> ready w h en d f -> se_refs env = en_refs en -> if_refresh_last hd = true ->
  raster_for w h scratch -> raster_for w h scratch' ->
  write_frame en f blank scratch = Some (en', bytes) -> sizes_ok (ds_pt (en_state en)) w h f bytes ->
  exists d' shown_r, get_frame_output d (chunk_of bytes) scratch' = (d', Output show shown_r) /\
    picture_loopfilter None (ds_fa (en_state en')) (inter_pic (mb_dim w) hd (ec_ms e) (ec_cs e) ids) (ec_r e) = Some (Filtered shown_r) /\
    (if_loop_filter_level hd = 0 -> shown_r = ec_r e).
Proof.
  intros w h hd q env mcs o r t e en d show ids blank scratch scratch' en' bytes Hw Hh K SU NS SK Eq HP HE Ho Hr Ht E f LI G RD ER RL Hs Hs' EW SZ.
  destruct (C64_inter w h hd q env mcs o r t Hw Hh K SU NS SK Eq HP HE Ho Hr Ht) as (e' & E' & WR & RE & DE). rewrite E in E'. apply some_eq in E'. subst e'.
  destruct (C28_frame w h en d f blank scratch scratch' ltac:(lia) ltac:(lia) G RD (WR show ids LI) Hs Hs') as (en2 & b2 & EW2 & _ & C). rewrite EW in EW2. apply some_eq in EW2. apply pair_equal_spec in EW2. destruct EW2 as [<- <-].
  destruct (C SZ) as (d' & sr & GO & LS & KR & _). exists d', sr. split; [exact GO|].
  destruct RD as (Rw & Rh & _ & _ & SG & _). unfold write_frame, f in EW. cbv zeta in EW. rewrite Rw in EW.
  assert (SG' : ds_seg (update_state_inter (en_state en) hd) = None).
  { unfold update_state_inter. cbv zeta. destruct (if_refresh_entropy_probs hd); cbn; exact SG. }
  rewrite SG' in EW. unfold picture_output in EW. rewrite <- ER in EW. rewrite (DE ids scratch LI Hs) in EW. cbn [obind] in EW.
  destruct (picture_loopfilter None _ _ _) as [[x|]|] eqn:LF in EW; try discriminate.
  destruct (inter_frame_serialize _ _ _ _ _ _ _) as [b|]; [|discriminate]. apply some_eq in EW. apply pair_equal_spec in EW. destruct EW as [<- _].
  specialize (KR RL). cbn [en_refs] in KR. rewrite (inter_last hd x _ RL) in KR. subst x. cbn [en_state]. split; [exact LF|].
  intros L0. unfold picture_loopfilter in LF. cbn [pc_level inter_pic] in LF. rewrite L0 in LF. cbn in LF. congruence.
Qed.

(** A key frame without a loop filter and without the trellis: what the decoder
    shows is near the original. *)
Theorem C64_shown_near : forall w h hd q mcs o r t e en d show ids blank scratch scratch' en' bytes,
  0 < w <= 16383 -> 0 < h <= 16383 -> kfh_ok hd -> key_frame_header_supported hd = true ->
  kf_update_segmentation hd = None -> kf_prob_skip_false hd <> None -> kf_loop_filter_level hd = 0 -> make_quantizer (kf_quant_indices hd) = Some q ->
  first_pass mcs -> raster_for w h o -> raster_for w h r -> raster_for w h t ->
  encode_key [mcs] q (mb_dim w) (mb_dim w * mb_dim h) o r t = Some e ->
  let f := KeyW show hd (ec_ms e) (ec_cs e) ids in
  length ids = length (ec_ms e) -> decoder_good w h d -> ready w h en d f -> raster_for w h scratch -> raster_for w h scratch' ->
  write_frame en f blank scratch = Some (en', bytes) -> sizes_ok (ds_pt (en_state en)) w h f bytes ->
  exists d' shown_r, get_frame_output d (chunk_of bytes) scratch' = (d', Output show shown_r) /\ frame_near q (mb_dim w) (ec_ms e) o shown_r.
Proof.
  intros w h hd q mcs o r t e en d show ids blank scratch scratch' en' bytes Hw Hh K SU NS SK L0 Eq HP Ho Hr Ht E f LI G RD Hs Hs' EW SZ.
  assert (PO : Forall passes_ok [mcs]) by (constructor; [intros i; rewrite (proj1 (HP i)); exact I|constructor]).
  destruct (C64_key_decoded w h hd q [mcs] o r t e en d show ids blank scratch scratch' en' bytes Hw Hh K SU NS SK Eq PO ltac:(discriminate) Ho Hr Ht E LI G RD Hs Hs' EW SZ)
    as (d' & sr & GO & _ & EL). exists d', sr. split; [exact GO|]. rewrite (EL L0).
  exact (C64_key_near w h (kf_quant_indices hd) q mcs o r t e Hw Hh (kfo_qi hd K) Eq HP Ho Hr Ht E).
Qed.

(** ** Examples *)

(** Two macroblocks, encoded in one pass, written and decoded. The original has
    stripes on the left and is smooth on the right. *)
Definition ex_mcs : nat -> mb_costs := fun _ => mkMC (fun m => m mod 5 * 100) (fun _ m => m mod 10 * 50 + 3000) 10 1 None (fun _ _ => 0).
Definition ex_hd : KeyFrameHeader :=
  mkKFH false false None false 0 0 zero_deltas 0 (mkQI 40 None None None None None) true (repeat None 1056) (Some 128).
Definition ex_q : Quantizer := Eval vm_compute in match make_quantizer (kf_quant_indices ex_hd) with Some q => q | None => mkQ 1 1 1 1 1 1 end.
Definition ex_original : raster := Eval vm_compute in
  mkRaster 20 10 (mkPlane 32 16 (map (fun i => if i mod 32 <? 16 then (i / 32 * 9 + (i mod 32) * (i mod 7)) mod 256 else i / 32 + 110) (zseq 512)))
           (ra_u (shaded 3)) (ra_v (shaded 4)).
Definition ex_r : raster := Eval vm_compute in shaded 2.
Definition ex_e := Eval vm_compute in
  match encode_key [ex_mcs] ex_q 2 2 ex_original ex_r ex_r with Some e => e | None => mkEnc [] [] ex_r ex_r end.

Lemma ex_encoded : encode_key [ex_mcs] ex_q 2 2 ex_original ex_r ex_r = Some ex_e.
Proof. vm_compute. reflexivity. Qed.
Lemma ex_hd_ok : kfh_ok ex_hd.
Proof.
  constructor; cbn -[Z.pow repeat zero_deltas]; try exact zero_lfd_ok; unfold o_ok, u_ok; try lia;
    try (intros a E; discriminate); try (split; congruence); try reflexivity;
    try (apply repeat_none_ok); try (intros a E; injection E as <-; lia).
  - constructor; cbn -[Z.pow]; unfold o_ok, u_ok; try lia; intros a E; discriminate.
  - apply Forall_forall. intros x Hx. apply repeat_spec in Hx. subst x. discriminate.
Qed.
Lemma ex_first : first_pass ex_mcs.
Proof. intros i. cbn [ex_mcs mc_pass mc_rm mc_dm mc_mode mc_sub]. split; [reflexivity|]. split; [lia|]. split; [lia|]. split; intros; lia. Qed.
Lemma ex_original_for : raster_for 20 10 ex_original.
Proof. split; [|split; reflexivity]. apply raster_sized. split; [|split]; apply sized_b; vm_compute; reflexivity. Qed.
Lemma ex_r_for : raster_for 20 10 ex_r.
Proof. split; [|split; reflexivity]. apply raster_sized. split; [|split]; apply sized_b; vm_compute; reflexivity. Qed.

Example C64_example :
  kfh_ok ex_hd /\ key_frame_header_supported ex_hd = true /\ make_quantizer (kf_quant_indices ex_hd) = Some ex_q /\ first_pass ex_mcs /\
  raster_for 20 10 ex_original /\ raster_for 20 10 ex_r /\
  encode_key [ex_mcs] ex_q (mb_dim 20) (mb_dim 20 * mb_dim 10) ex_original ex_r ex_r = Some ex_e /\
  map mb_ymode (ec_ms ex_e) = [B_PRED; DC_PRED] /\ ec_r ex_e <> ex_original /\
  let f := KeyW true ex_hd (ec_ms ex_e) (ec_cs ex_e) [0; 0] in
  decoder_good 20 10 decoder_two /\ ready 20 10 ex_encoder decoder_two f /\
  exists en' bytes, write_frame ex_encoder f (shaded 3) (shaded 4) = Some (en', bytes) /\ sizes_ok (ds_pt (en_state ex_encoder)) 20 10 f bytes.
Proof.
  split; [exact ex_hd_ok|]. split; [reflexivity|]. split; [vm_compute; reflexivity|]. split; [exact ex_first|]. split; [exact ex_original_for|]. split; [exact ex_r_for|].
  split; [exact ex_encoded|]. split; [reflexivity|]. split; [intros X; apply (f_equal (fun r => nth 0 (pl_px (ra_y r)) 0)) in X; vm_compute in X; discriminate X|].
  intros f. split; [exact decoder_two_good|]. assert (RD : ready 20 10 ex_encoder decoder_two f) by (split; [reflexivity|split; [reflexivity|exact I]]).
  split; [exact RD|].
  assert (PO : Forall passes_ok [ex_mcs]) by (constructor; [intros i; exact I|constructor]).
  destruct (C64_key 20 10 ex_hd ex_q [ex_mcs] ex_original ex_r ex_r ltac:(lia) ltac:(lia) ex_hd_ok eq_refl eq_refl ltac:(discriminate) eq_refl PO ltac:(discriminate) ex_original_for ex_r_for ex_r_for)
    as (e & E & WR & _). change (encode_key [ex_mcs] ex_q 2 2 ex_original ex_r ex_r = Some e) in E. rewrite ex_encoded in E. apply some_eq in E. subst e.
  destruct (C28_frame 20 10 ex_encoder decoder_two f (shaded 3) (shaded 4) (shaded 5) ltac:(lia) ltac:(lia) decoder_two_good RD (WR true [0; 0] eq_refl) (shaded_for 4) (shaded_for 5)) as (en' & bytes & EW & BO & _).
  exists en', bytes. split; [exact EW|]. apply sizes_small_ok; [vm_compute; reflexivity|].
  destruct (write_frame ex_encoder f (shaded 3) (shaded 4)) as [[x y]|] eqn:EF; [|discriminate].
  assert (L : match write_frame ex_encoder f (shaded 3) (shaded 4) with Some (_, b) => zlen b <? 2 ^ 64 | None => true end = true) by (vm_compute; reflexivity).
  rewrite EF in L. apply some_eq in EW. apply pair_equal_spec in EW. destruct EW as [_ <-]. lia.
Qed.

(** Inter frames: references, and their safe copy. *)
Definition ex_r32 : raster := mkRaster 32 16 (ra_y ex_r) (ra_u ex_r) (ra_v ex_r).
Lemma ex_r32_for : raster_for 32 16 ex_r32.
Proof. split; [exact (proj1 ex_r_for)|split; reflexivity]. Qed.
Example C64_inter_example :
  ifh_ok (ex_if_hd None) /\ inter_frame_header_supported (ex_if_hd None) = true /\ if_prob_skip_false (ex_if_hd None) <> None /\
  exists env, env_ok (Z.of_nat (mb_dim 20)) (Z.of_nat (mb_dim 16)) env /\ se_refs env = mkRefs ex_r32 ex_r32 ex_r32 /\
    se_refs env = en_refs (new_encoder 32 16 ex_r32 true).
Proof.
  split; [apply ex_if_hd_ok, none_ok|]. split; [reflexivity|]. split; [discriminate|].
  assert (D : raster_dims ex_r32).
  { unfold raster_dims. pose proof (proj1 (raster_sized _ _ _) (proj1 ex_r32_for)) as ((S1 & _) & _). split; [exact (proj1 S1)|]. cbn. lia. }
  destruct (C62_load ex_r32 (repeat 0 (Z.to_nat (544 * 528))) D eq_refl) as (safe & _ & _ & W1 & W2 & Shows).
  { unfold zlen. rewrite repeat_length. cbn. lia. }
  exists (mkSE (mkRefs ex_r32 ex_r32 ex_r32) safe (repeat 0 256) (repeat (repeat (repeat 0 (Z.to_nat 1024)) 2) 2) 1 true).
  split; [|split; reflexivity]. unfold env_ok. cbn [se_refs se_safe se_sads se_mv_costs rf_last].
  split; [split; [|split]; exact (proj1 ex_r32_for)|]. split; [exact D|]. split; [split; [exact W1|split; [exact W2|exact Shows]]|].
  split; [apply repeat_length|]. split; [reflexivity|].
  apply Forall_forall. intros x Hx. apply repeat_spec in Hx. subst x. split; [apply repeat_length|].
  apply Forall_forall. intros y Hy. apply repeat_spec in Hy. subst y. apply repeat_length.
Qed.

Print Assumptions C64_key.
Print Assumptions C64_inter.
Print Assumptions C64_key_near.
Print Assumptions C64_inter_near.
Print Assumptions C64_key_decoded.
Print Assumptions C64_inter_decoded.
Print Assumptions C64_shown_near.
