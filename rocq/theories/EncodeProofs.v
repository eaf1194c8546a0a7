(** Lemmas about the encoding of macroblocks. *)
From Verif Require Import Base TreeModel HeaderModel MVModel MBModel TokenModel FrameModel QuantModel RasterModel TransformModel.
From Verif Require Import PredictModel LoopFilterModel ReconModel ResidueModel SafeRasterModel MotionModel VarianceModel EncodeModel.
From Verif Require Import MBProofs TokenProofs FrameProofs RasterProofs PropQuant PropTransform PredictProofs PropInter PropIntra PropLoopFilter.
From Verif Require Import ResidueProofs PropResidue PropVariance ReconProofs PropPicture PropRecon.

(** ** Blocks of a plane *)

Definition rows_of (n : Z) (g : Z -> Z -> Z) : list (list Z) := map (fun r => map (fun c => g c r) (zseq n)) (zseq n).
Definition block_in (x y : Z) (p : plane) : Z -> Z -> Z := fun c r => at_px p (x + c) (y + r).

Lemma zseq_length n : length (zseq n) = Z.to_nat n.
Proof. unfold zseq. rewrite map_length, seq_length. reflexivity. Qed.

Lemma block_at_some w h n x y p : sized w h p -> 0 <= x -> 0 <= y -> x + n <= w -> y + n <= h ->
  block_at n x y p = Some (rows_of n (block_in x y p)).
Proof.
  intros (Op & Dw & Dh) Hx Hy Hw Hh. unfold block_at. apply grid_some. intros c r Hc Hr.
  apply pget_some; [apply Op|apply inside_iff; lia].
Qed.

Lemma block_in_byte w h n x y p : sized w h p -> 0 <= x -> 0 <= y -> x + n <= w -> y + n <= h ->
  forall c r, 0 <= c < n -> 0 <= r < n -> byte_ok (block_in x y p c r).
Proof. intros (Op & Dw & Dh) Hx Hy Hw Hh c r Hc Hr. apply at_px_byte; [exact Op|apply inside_iff; lia]. Qed.

Lemma rows_block_of n g : (forall c r, 0 <= c < n -> 0 <= r < n -> byte_ok (g c r)) -> block_of (Z.to_nat n) (rows_of n g).
Proof.
  intros H. split; [unfold rows_of; rewrite map_length; apply zseq_length|].
  apply Forall_forall. intros l Hl. apply in_map_iff in Hl. destruct Hl as (r & <- & Hr). apply zseq_in in Hr.
  split; [rewrite map_length; apply zseq_length|]. apply Forall_forall. intros v Hv. apply in_map_iff in Hv. destruct Hv as (c & <- & Hc). apply zseq_in in Hc. auto.
Qed.

Lemma rows_ext n g g' : (forall c r, 0 <= c < n -> 0 <= r < n -> g c r = g' c r) -> rows_of n g = rows_of n g'.
Proof.
  intros H. apply map_ext_in. intros r Hr. apply zseq_in in Hr. apply map_ext_in. intros c Hc. apply zseq_in in Hc. auto.
Qed.

Lemma concat_rows4 g : concat (rows_of 4 g) = map (fun k => g (Z.of_nat k mod 4) (Z.of_nat k / 4)) (seq 0 16).
Proof. reflexivity. Qed.
Lemma rows4_nth g k : (k < 16)%nat -> nth k (concat (rows_of 4 g)) 0 = g (Z.of_nat k mod 4) (Z.of_nat k / 4).
Proof.
  intros H. rewrite concat_rows4. rewrite (nth_indep _ 0 (g (Z.of_nat 0 mod 4) (Z.of_nat 0 / 4))) by (rewrite map_length, seq_length; exact H).
  rewrite (map_nth (fun k => g (Z.of_nat k mod 4) (Z.of_nat k / 4)) (seq 0 16) 0%nat k), seq_nth by exact H. reflexivity.
Qed.
Lemma rows4_pixels g : (forall c r, 0 <= c < 4 -> 0 <= r < 4 -> byte_ok (g c r)) -> PropResidue.pixels (concat (rows_of 4 g)).
Proof.
  intros H. split; [reflexivity|]. rewrite concat_rows4. apply Forall_forall. intros v Hv. apply in_map_iff in Hv.
  destruct Hv as (k & <- & Hk). apply in_seq in Hk. specialize (H (Z.of_nat k mod 4) (Z.of_nat k / 4) ltac:(lia) ltac:(lia)). unfold byte_ok in H. lia.
Qed.

(** ** Copies and predictions *)

Lemma computes_assign w h x0 y0 n l g : covers n l g -> 0 <= x0 -> 0 <= y0 -> x0 + n <= w -> y0 + n <= h ->
  (forall c r, 0 <= c < n -> 0 <= r < n -> byte_ok (g c r)) ->
  computes w h x0 y0 n (assign_block x0 y0 l) (fun _ x y => g (x - x0) (y - y0)).
Proof.
  intros HC Hx Hy Hw Hh HB p (Op & Dw & Dh). destruct (assign_covers n l g x0 y0 p HC Op Hx Hy ltac:(lia) ltac:(lia) HB) as (p' & E & O' & [D1 D2] & V).
  exists p'. split; [exact E|]. split; [split; [exact O'|]; split; congruence|]. exact V.
Qed.

Lemma computes_copy w h n x0 y0 src : sized w h src -> 0 <= x0 -> 0 <= y0 -> x0 + n <= w -> y0 + n <= h ->
  computes w h x0 y0 n (copy_block n x0 y0 src) (fun _ x y => at_px src x y).
Proof.
  intros Hs Hx Hy Hw Hh p Hp.
  destruct (computes_assign w h x0 y0 n _ _ (covers_fill n (block_in x0 y0 src)) Hx Hy Hw Hh (block_in_byte w h n x0 y0 src Hs Hx Hy Hw Hh) p Hp) as (p' & E & S' & V).
  exists p'. split.
  - unfold copy_block. rewrite <- E. apply predict_cells_assign. intros c r Hc Hr. unfold block_in. apply pget_some; [apply Hs|]. apply (inside_sized w h src); [exact Hs|lia].
  - split; [exact S'|]. intros x y Hi. rewrite (V x y Hi). destruct (in_block x0 y0 n x y); [|reflexivity]. unfold block_in. f_equal; lia.
Qed.

Lemma predict_block w h n column row p : n = 8 \/ n = 16 -> sized w h p -> 0 <= column -> 0 <= row -> n * (column + 1) <= w -> n * (row + 1) <= h ->
  exists pr, get_predictors n column row p = Some pr /\
    forall mode, block_mode mode -> computes w h (n * column) (n * row) n (predict_with n column row mode pr)
      (fun _ x y => block_spec n mode p (n * column) (n * row) (x - n * column) (y - n * row)).
Proof.
  intros Hn (Op & Dw & Dh) Hc Hr Hw Hh. rewrite predictors_block by (try assumption; try apply Op; lia). eexists. split; [reflexivity|].
  intros mode Hm. destruct (block_pixels_spec n column row mode p Hn Op Hm Hc Hr ltac:(lia) ltac:(lia)) as (l & El & Cl). cbv zeta in El, Cl.
  unfold predict_with. replace (n =? 4) with false by lia. rewrite El. cbn [obind].
  apply (computes_assign w h (n * column) (n * row) n l (block_spec n mode p (n * column) (n * row))); try assumption; try nia.
  intros c r Hc' Hr'. apply block_spec_byte; try assumption; nia.
Qed.

Lemma predict_sub w h column row p : w mod 16 = 0 -> sized w h p -> 0 <= column -> 0 <= row -> 4 * (column + 1) <= w -> 4 * (row + 1) <= h ->
  exists pr, get_predictors 4 column row p = Some pr /\
    forall mode, sub_mode mode -> computes w h (4 * column) (4 * row) 4 (predict_with 4 column row mode pr)
      (fun _ x y => sub_spec mode p (4 * column) (4 * row) (x - 4 * column) (y - 4 * row)).
Proof.
  intros H16 (Op & Dw & Dh) Hc Hr Hw Hh. rewrite predictors_sub by (try assumption; try apply Op; try lia; congruence). eexists. split; [reflexivity|].
  intros mode Hm. unfold predict_with. change (4 =? 4) with true. cbv iota.
  destruct (sub_parts_byte p (4 * column) (4 * row) Op ltac:(lia) ltac:(lia) ltac:(lia) ltac:(lia)) as (BL & BA & BC).
  destruct (sub_pixels_spec mode _ _ _ Hm BL BA BC) as (l & El & Cl). rewrite El. cbn [obind].
  apply (computes_assign w h (4 * column) (4 * row) 4 l (sub_spec mode p (4 * column) (4 * row))); try assumption; try lia.
  intros c r Hc' Hr'. apply sub_spec_byte; try assumption; lia.
Qed.

(** ** Only one block changes *)

Lemma off_refl x0 y0 n p : off_block x0 y0 n p p.
Proof. intros x y _ _. reflexivity. Qed.
Lemma off_trans w h x0 y0 n p q r : sized w h p -> sized w h q -> off_block x0 y0 n p q -> off_block x0 y0 n q r -> off_block x0 y0 n p r.
Proof.
  intros Hp Hq A B x y Hi Hb. rewrite (A x y Hi Hb). apply B; [|exact Hb]. apply (inside_sized w h q); [exact Hq|]. apply (inside_sized w h p); assumption.
Qed.
Lemma off_sub x0 y0 n x1 y1 m p q : x0 <= x1 -> y0 <= y1 -> x1 + m <= x0 + n -> y1 + m <= y0 + n -> off_block x1 y1 m p q -> off_block x0 y0 n p q.
Proof.
  intros A B C D H x y Hi Hb. apply H; [exact Hi|]. apply Bool.not_true_iff_false. intros E. apply Bool.not_true_iff_false in Hb. apply Hb.
  apply in_block_blk. apply in_block_blk in E. unfold blk in *. lia.
Qed.
Lemma computes_off w h x0 y0 n f V p p' : computes w h x0 y0 n f V -> sized w h p -> f p = Some p' -> off_block x0 y0 n p p'.
Proof.
  intros C Hp E. destruct (C p Hp) as (p2 & E2 & _ & A). assert (p2 = p') by congruence. subst. intros x y Hi Hb. rewrite (A x y Hi), Hb. reflexivity.
Qed.
Lemma computes_get w h x0 y0 n f V p p' : computes w h x0 y0 n f V -> sized w h p -> 0 <= x0 -> 0 <= y0 -> x0 + n <= w -> y0 + n <= h -> f p = Some p' ->
  sized w h p' /\ off_block x0 y0 n p p' /\ forall x y, blk x0 y0 n x y -> at_px p' x y = V p x y.
Proof.
  intros C Hp Hx Hy Hw Hh E. pose proof (computes_off w h x0 y0 n f V p p' C Hp E) as O. destruct (C p Hp) as (p2 & E2 & S2 & A). assert (p2 = p') by congruence. subst.
  split; [exact S2|]. split; [exact O|]. intros x y B. rewrite A by (apply (inside_sized w h p); [exact Hp|unfold blk in B; lia]). rewrite (proj2 (in_block_blk _ _ _ _ _) B). reflexivity.
Qed.

(** ** Folds *)

Lemma ofold_last {A B} (f : A -> B -> option A) (I J : A -> Prop) (l : list B) : l <> [] ->
  (forall s a, In a l -> I s -> exists s', f s a = Some s' /\ I s' /\ J s') ->
  forall s, I s -> exists s', ofold f l s = Some s' /\ I s' /\ J s'.
Proof.
  intros NE. destruct l as [|a l]; [congruence|]. clear NE. revert a. induction l as [|b l IH]; intros a H s Hs.
  - destruct (H s a (or_introl eq_refl) Hs) as (s' & E & HI & HJ). exists s'. cbn [ofold]. rewrite E. auto.
  - destruct (H s a (or_introl eq_refl) Hs) as (s1 & E & HI & _).
    destruct (IH b (fun s c Hc => H s c (or_intror Hc)) s1 HI) as (s2 & E2 & HI2 & HJ2).
    exists s2. change (ofold f (a :: b :: l) s) with (obind (f s a) (ofold f (b :: l))). rewrite E. cbn [obind]. auto.
Qed.

Lemma ofold_indexed {A B} (f : A -> B -> option A) (I : nat -> A -> Prop) (l : list B) : forall k,
  (forall i a s, nth_error l i = Some a -> I (k + i)%nat s -> exists s', f s a = Some s' /\ I (k + i + 1)%nat s') ->
  forall s, I k s -> exists s', ofold f l s = Some s' /\ I (k + length l)%nat s'.
Proof.
  induction l as [|a l IH]; intros k H s Hs; [exists s; cbn; rewrite Nat.add_0_r; auto|].
  destruct (H 0%nat a s eq_refl) as (s1 & E & H1); [rewrite Nat.add_0_r; exact Hs|].
  destruct (IH (k + 1)%nat) with (s := s1) as (s2 & E2 & H2).
  - intros i b t Hi Ht. destruct (H (S i) b t Hi) as (t' & E' & H'); [replace (k + S i)%nat with (k + 1 + i)%nat by lia; exact Ht|].
    exists t'. split; [exact E'|]. replace (k + 1 + i + 1)%nat with (k + S i + 1)%nat by lia. exact H'.
  - replace (k + 1)%nat with (k + 0 + 1)%nat by lia. exact H1.
  - exists s2. cbn [ofold length]. rewrite E. cbn [obind]. split; [exact E2|]. replace (k + S (length l))%nat with (k + 1 + length l)%nat by lia. exact H2.
Qed.

(** ** Costs *)

(** Costs that the encoder may have: the multipliers of update_rd_multipliers
    (encoder.cc l.178-193), 16-bit tables. *)
Definition costs_ok (mc : mb_costs) : Prop :=
  0 <= mc_rm mc <= 1000 /\ 0 <= mc_dm mc <= 100 /\ (forall m, 0 <= mc_mode mc m < 65536) /\ forall k m, 0 <= mc_sub mc k m < 65536.

Lemma cost_small mc rate d : costs_ok mc -> 0 <= rate < 2 ^ 21 -> 0 <= d <= 16646400 -> cost_of mc rate d < UINT32_MAX.
Proof.
  intros (Hr & Hd & _) H1 H2. unfold cost_of, rdcost, UINT32_MAX, wrap. change (2 ^ 21) with 2097152 in H1. change (2 ^ 32) with 4294967296.
  assert (A : 0 <= rate * mc_rm mc <= 2097152 * 1000) by nia. assert (B : 0 <= d * mc_dm mc <= 16646400 * 100) by nia.
  generalize dependent (rate * mc_rm mc). generalize dependent (d * mc_dm mc). intros b B a A.
  rewrite (Z.mod_small a) by lia. rewrite (Z.mod_small b) by lia. rewrite (Z.mod_small (128 + a)) by lia. rewrite Z.mod_small by lia. lia.
Qed.

Lemma sse_range n a b : size_ok n -> block_of n a -> block_of n b -> 0 <= sse n a b <= 65025 * Z.of_nat (n * n).
Proof.
  intros Hn Ha Hb. destruct (C66_portable n a b Hn Ha Hb) as (_ & E & _). rewrite E.
  destruct (differences_range n a b Ha Hb) as [L R]. pose proof (squares_le _ R) as Q. unfold zlen in Q. rewrite L in Q.
  pose proof (C66_meaning n a b Hn Ha Hb) as (V & _). lia.
Qed.

(** ** B_PRED *)

Section luma.
  Variables w h : Z.
  Hypothesis w16 : w mod 16 = 0.

  Lemma sub_best_ok mc k (o : plane) column row p t : sized w h o -> sized w h p -> sized w h t ->
    0 <= column -> 0 <= row -> 4 * (column + 1) <= w -> 4 * (row + 1) <= h ->
    exists mode p' t', sub_best mc k (rows_of 4 (block_in (4 * column) (4 * row) o)) column row p t = Some (mode, p', t') /\
      sub_mode mode /\ sized w h p' /\ sized w h t' /\ off_block (4 * column) (4 * row) 4 p p' /\
      (costs_ok mc -> forall x y, blk (4 * column) (4 * row) 4 x y ->
         at_px p' x y = sub_spec mode p (4 * column) (4 * row) (x - 4 * column) (y - 4 * row)).
  Proof.
    intros Ho Hp Ht Hc Hr Hw Hh. unfold sub_best. destruct (predict_sub w h column row p w16 Hp Hc Hr Hw Hh) as (pr & -> & PR). cbn [obind].
    set (orig := rows_of 4 _). set (step := fun s mode => _).
    set (I := fun s : Z * Z * plane * plane => let '(best, cost, p', t') := s in sub_mode best /\ sized w h p' /\ sized w h t' /\ off_block (4 * column) (4 * row) 4 p p' /\
      (cost = UINT32_MAX \/ forall x y, blk (4 * column) (4 * row) 4 x y -> at_px p' x y = sub_spec best p (4 * column) (4 * row) (x - 4 * column) (y - 4 * row))).
    set (J := fun s : Z * Z * plane * plane => let '(best, cost, p', t') := s in costs_ok mc -> cost < UINT32_MAX).
    destruct (ofold_last step I J (zseq 10)) with (s := (B_DC_PRED, UINT32_MAX, p, t)) as ([[[best cost] p'] t'] & E & HI & HJ).
    - discriminate.
    - intros [[[best cost] p'] t'] mode Hm (I1 & I2 & I3 & I4 & I5). apply zseq_in in Hm. unfold step.
      assert (SM : sub_mode mode) by (unfold sub_mode, B_DC_PRED, B_HU_PRED; lia).
      destruct (PR mode SM t' I3) as (t2 & E2 & S2 & A2). rewrite E2. cbn [obind].
      rewrite (block_at_some w h 4 (4 * column) (4 * row) t2 S2) by lia. cbn [obind].
      set (err := cost_of mc _ _).
      assert (EB : costs_ok mc -> err < UINT32_MAX).
      { intros CO. apply cost_small; [exact CO|change (2 ^ 21) with 2097152; destruct CO as (_ & _ & _ & CO); specialize (CO k mode); lia|].
        pose proof (sse_range 4 orig (rows_of 4 (block_in (4 * column) (4 * row) t2))) as Q. change (65025 * Z.of_nat (4 * 4)) with 1040400 in Q.
        destruct Q as [Q1 Q2]; [unfold size_ok; lia|apply (rows_block_of 4), (block_in_byte w h); try assumption; lia|apply (rows_block_of 4), (block_in_byte w h); try assumption; lia|].
        split; [exact Q1|]. lia. }
      destruct (computes_get w h _ _ 4 _ _ t' t2 (PR mode SM) I3 ltac:(lia) ltac:(lia) ltac:(lia) ltac:(lia) E2) as (_ & _ & V2).
      destruct (err <? cost) eqn:EC.
      + destruct (computes_copy w h 4 (4 * column) (4 * row) t2 S2 ltac:(lia) ltac:(lia) ltac:(lia) ltac:(lia) p' I2) as (p2 & E3 & S3 & A3).
        rewrite E3. cbn [obind]. eexists. split; [reflexivity|]. split; [|exact EB].
        destruct (computes_get w h _ _ 4 _ _ p' p2 (computes_copy w h 4 (4 * column) (4 * row) t2 S2 ltac:(lia) ltac:(lia) ltac:(lia) ltac:(lia)) I2 ltac:(lia) ltac:(lia) ltac:(lia) ltac:(lia) E3) as (_ & O3 & V3).
        split; [exact SM|]. split; [exact S3|]. split; [exact S2|]. split; [exact (off_trans w h _ _ _ _ _ _ Hp I2 I4 O3)|].
        right. intros x y B. rewrite (V3 x y B). apply V2, B.
      + eexists. split; [reflexivity|]. split; [|intros CO; specialize (EB CO); lia].
        split; [exact I1|]. split; [exact I2|]. split; [exact S2|]. split; [exact I4|exact I5].
    - split; [unfold sub_mode, B_DC_PRED, B_HU_PRED; lia|]. split; [exact Hp|]. split; [exact Ht|]. split; [apply off_refl|left; reflexivity].
    - rewrite E. cbn [obind]. destruct HI as (I1 & I2 & I3 & I4 & I5). exists best, p', t'. split; [reflexivity|].
      split; [exact I1|]. split; [exact I2|]. split; [exact I3|]. split; [exact I4|].
      intros CO. specialize (HJ CO). destruct I5 as [I5|I5]; [unfold UINT32_MAX in *; lia|exact I5].
  Qed.

  Definition res4 (f : Z * Z) (b : block) (x y : Z) : Z := (both_ways cosine (coef (dequant f b)) (Z.to_nat y) (Z.to_nat x) + 4) / 8.

  (** Sub-block j of a macroblock in the plane [tp], predicted from [tp] itself. *)
  Definition coded_sub (mc : mb_costs) (q : Quantizer) (o : plane) (column row : Z) (modes : list Z) (blocks : list block) (tp : plane) (j : nat) : Prop :=
    let X := 16 * column + 4 * (Z.of_nat j mod 4) in
    let Y := 16 * row + 4 * (Z.of_nat j / 4) in
    code_block (mc_pass mc) (mc_ctx mc Y_without_Y2 j) q Y_without_Y2 (concat (rows_of 4 (block_in X Y o))) (concat (rows_of 4 (sub_spec (nth j modes 0) tp X Y))) =
      Some (nth j blocks fresh_block) /\
    forall x y, blk X Y 4 x y -> at_px tp x y = clip (sub_spec (nth j modes 0) tp X Y (x - X) (y - Y) + res4 (y_factors q) (nth j blocks fresh_block) (x - X) (y - Y)).

  Definition trial_inv (mc : mb_costs) (q : Quantizer) (o : plane) (column row : Z) (p0 : plane) (k : nat) (s : trial) : Prop :=
    (length (tr_modes s) = k /\ length (tr_blocks s) = k /\ Forall bmode_ok (tr_modes s) /\ Forall (block_ok Y_without_Y2) (tr_blocks s)) /\
    (sized w h (tr_p s) /\ sized w h (tr_t s) /\ off_block (16 * column) (16 * row) 16 p0 (tr_p s)) /\
    (costs_ok mc -> forall j, (j < k)%nat -> coded_sub mc q o column row (tr_modes s) (tr_blocks s) (tr_p s) j).

  Lemma sub_code_ok mc qi q k o column row mode p : qi_small qi -> make_quantizer qi = Some q -> pass_ok (mc_pass mc) ->
    sized w h o -> sized w h p -> sub_mode mode ->
    0 <= column -> 0 <= row -> 4 * (column + 1) <= w -> 4 * (row + 1) <= h ->
    exists b p', sub_code mc q k (rows_of 4 (block_in (4 * column) (4 * row) o)) column row mode p = Some (b, p') /\
      code_block (mc_pass mc) (mc_ctx mc Y_without_Y2 k) q Y_without_Y2 (concat (rows_of 4 (block_in (4 * column) (4 * row) o))) (concat (rows_of 4 (block_in (4 * column) (4 * row) p))) = Some b /\
      block_ok Y_without_Y2 b /\ sized w h p' /\ off_block (4 * column) (4 * row) 4 p p' /\
      forall x y, blk (4 * column) (4 * row) 4 x y ->
        at_px p' x y = clip (sub_spec mode p (4 * column) (4 * row) (x - 4 * column) (y - 4 * row) + res4 (y_factors q) b (x - 4 * column) (y - 4 * row)).
  Proof.
    intros Hq Eq Hpass Ho Hp Hm Hc Hr Hw Hh. unfold sub_code. rewrite (block_at_some w h 4 (4 * column) (4 * row) p Hp) by lia. cbn [obind].
    destruct (C61_block qi q (mc_pass mc) (mc_ctx mc Y_without_Y2 k) Y_without_Y2 (concat (rows_of 4 (block_in (4 * column) (4 * row) o)))
               (concat (rows_of 4 (block_in (4 * column) (4 * row) p))) Hq Eq Hpass (or_introl eq_refl)) as (_ & b & _ & E & _ & _ & B & _).
    { apply rows4_pixels, (block_in_byte w h); try assumption; lia. }
    { apply rows4_pixels, (block_in_byte w h); try assumption; lia. }
    rewrite E. cbn [obind].
    pose proof (computes_add w h (4 * column) (4 * row) 4 _ _ _ _ (computes_intra_sub w h column row mode Hm w16 Hc Hr Hw Hh)
      (computes_idct w h (4 * column) (4 * row) (dequant (y_factors q) b) (dequant_ok _ b (proj1 B)) ltac:(lia) ltac:(lia) ltac:(lia) ltac:(lia))) as CP.
    destruct (CP p Hp) as (p' & E' & _). pose proof (computes_get w h _ _ 4 _ _ p p' CP Hp ltac:(lia) ltac:(lia) ltac:(lia) ltac:(lia) E') as (S' & O' & V').
    destruct (intra_predict 4 column row mode p) as [p1|]; [|discriminate]. cbn [obind] in *. rewrite E'. cbn [obind].
    exists b, p'. split; [reflexivity|]. split; [reflexivity|]. split; [exact B|]. split; [exact S'|]. split; [exact O'|]. exact V'.
  Qed.

  Lemma coded_keeps mc q o column row modes blocks modes' blocks' tp tp' sc sr j : sized w h tp -> sized w h tp' ->
    0 <= column -> 0 <= row -> 16 * (column + 1) <= w -> 16 * (row + 1) <= h -> 0 <= sc < 4 -> 0 <= sr < 4 ->
    off_block (16 * column + 4 * sc) (16 * row + 4 * sr) 4 tp tp' -> Z.of_nat j < 4 * sr + sc ->
    nth j modes' 0 = nth j modes 0 -> nth j blocks' fresh_block = nth j blocks fresh_block ->
    coded_sub mc q o column row modes blocks tp j -> coded_sub mc q o column row modes' blocks' tp' j.
  Proof.
    intros S1 S2 Hc Hr Hw Hh Hsc Hsr O Hj EM EB (C1 & C2). cbv zeta in C1, C2. unfold coded_sub. cbv zeta. rewrite EM, EB.
    set (X := 16 * column + 4 * (Z.of_nat j mod 4)) in *. set (Y := 16 * row + 4 * (Z.of_nat j / 4)) in *.
    assert (SP : forall c r, 0 <= c < 4 -> 0 <= r < 4 -> sub_spec (nth j modes 0) tp X Y c r = sub_spec (nth j modes 0) tp' X Y c r).
    { apply (sub_reads w h column row (Z.of_nat j mod 4) (Z.of_nat j / 4)); try assumption; try lia.
      apply (off_agree w h (16 * column + 4 * sc) (16 * row + 4 * sr) 4); try assumption. intros x y. unfold subdone, done, blk. lia. }
    split.
    - rewrite <- C1. f_equal. apply (f_equal (@concat Z)). apply rows_ext. intros. symmetry. apply SP; assumption.
    - intros x y B. unfold blk in B. rewrite <- SP by lia. rewrite <- (C2 x y) by (unfold blk; lia). symmetry. apply O; [apply (inside_sized w h tp); [exact S1|subst X Y; lia]|].
      apply Bool.not_true_iff_false. intros B'. apply in_block_blk in B'. unfold blk in B'. subst X Y. lia.
  Qed.

  Lemma try_sub_ok mc qi q o column row p0 i c r s : qi_small qi -> make_quantizer qi = Some q -> pass_ok (mc_pass mc) ->
    sized w h o -> sized w h p0 -> 0 <= column -> 0 <= row -> 16 * (column + 1) <= w -> 16 * (row + 1) <= h ->
    nth_error (cells 4) i = Some (c, r) -> trial_inv mc q o column row p0 i s ->
    exists s', try_sub mc q o column row s (c, r) = Some s' /\ trial_inv mc q o column row p0 (i + 1) s'.
  Proof.
    intros Hq Eq Hpass Ho Hp0 Hc Hr Hw Hh Hi ((L1 & L2 & F1 & F2) & (S1 & S2 & O) & CD). apply cells4_nth in Hi. destruct Hi as (Ei & Hcc & Hrr).
    unfold try_sub. cbv zeta. cbn [fst snd].
    assert (EX : 4 * (4 * column + c) = 16 * column + 4 * c) by lia. assert (EY : 4 * (4 * row + r) = 16 * row + 4 * r) by lia.
    assert (EK : Z.to_nat (4 * r + c) = i) by lia. rewrite EK.
    destruct (sub_best_ok mc i o (4 * column + c) (4 * row + r) (tr_p s) (tr_t s) Ho S1 S2 ltac:(lia) ltac:(lia) ltac:(lia) ltac:(lia)) as (mode & p & t & EB & SM & Sp & St & Op & VP).
    rewrite (block_at_some w h 4 (4 * (4 * column + c)) (4 * (4 * row + r)) o Ho) by lia. cbn [obind]. rewrite EB. cbn [obind].
    rewrite (block_at_some w h 4 (4 * (4 * column + c)) (4 * (4 * row + r)) p Sp) by lia. cbn [obind].
    destruct (sub_code_ok mc qi q i o (4 * column + c) (4 * row + r) mode p Hq Eq Hpass Ho Sp SM ltac:(lia) ltac:(lia) ltac:(lia) ltac:(lia)) as (b & p' & EC & CB & BO & Sp' & Op' & VP').
    rewrite EC. cbn [obind]. eexists. split; [reflexivity|]. unfold trial_inv. cbn [tr_modes tr_blocks tr_p tr_t].
    rewrite EX, EY in *.
    assert (OFF : off_block (16 * column + 4 * c) (16 * row + 4 * r) 4 (tr_p s) p') by exact (off_trans w h _ _ _ _ _ _ S1 Sp Op Op').
    split; [|split; [split; [exact Sp'|split; [exact St|]]|]].
    - rewrite !app_length. cbn [length]. split; [lia|]. split; [lia|].
      split; apply Forall_app; split; try assumption; (constructor; [|constructor]); [|exact BO]. unfold bmode_ok. unfold sub_mode, B_DC_PRED, B_HU_PRED in SM. lia.
    - apply (off_trans w h _ _ _ _ _ _ Hp0 S1 O). apply (off_sub _ _ _ (16 * column + 4 * c) (16 * row + 4 * r) 4); try lia. exact OFF.
    - intros CO j Hj. destruct (Nat.eq_dec j i) as [-> |NE].
      + specialize (VP CO). unfold coded_sub. cbv zeta. replace (Z.of_nat i mod 4) with c by lia. replace (Z.of_nat i / 4) with r by lia.
        rewrite !app_nth2 by lia. rewrite L1, L2, Nat.sub_diag. cbn [nth].
        assert (SP : forall cc rr, 0 <= cc < 4 -> 0 <= rr < 4 -> sub_spec mode (tr_p s) (16 * column + 4 * c) (16 * row + 4 * r) cc rr = sub_spec mode p' (16 * column + 4 * c) (16 * row + 4 * r) cc rr).
        { apply (sub_reads w h); try assumption. apply (off_agree w h (16 * column + 4 * c) (16 * row + 4 * r) 4); try assumption. intros x y. unfold subdone, done, blk. lia. }
        assert (SP2 : forall cc rr, 0 <= cc < 4 -> 0 <= rr < 4 -> sub_spec mode p (16 * column + 4 * c) (16 * row + 4 * r) cc rr = sub_spec mode p' (16 * column + 4 * c) (16 * row + 4 * r) cc rr).
        { apply (sub_reads w h); try assumption. apply (off_agree w h (16 * column + 4 * c) (16 * row + 4 * r) 4); try assumption. intros x y. unfold subdone, done, blk. lia. }
        split.
        * rewrite <- CB. f_equal. apply (f_equal (@concat Z)). apply rows_ext. intros cc rr Hcc' Hrr'. rewrite <- SP by assumption. unfold block_in. rewrite VP by (unfold blk; lia). f_equal; lia.
        * intros x y B. rewrite (VP' x y B). rewrite SP2 by (unfold blk in B; lia). reflexivity.
      + apply (coded_keeps mc q o column row (tr_modes s) (tr_blocks s) _ _ (tr_p s) p' c r j); try assumption; try lia.
        * rewrite app_nth1 by lia. reflexivity.
        * rewrite app_nth1 by lia. reflexivity.
        * apply CD; [exact CO|lia].
  Qed.

  (** ** The luma mode *)

  Definition bpred_ok (mc : mb_costs) (q : Quantizer) (o : plane) (column row : Z) (p : plane) (modes : list Z) (blocks : list block) : Prop :=
    (length modes = 16%nat /\ length blocks = 16%nat /\ Forall bmode_ok modes /\ Forall (block_ok Y_without_Y2) blocks) /\
    (costs_ok mc -> exists tp, sized w h tp /\ off_block (16 * column) (16 * row) 16 p tp /\
       forall j, (j < 16)%nat -> coded_sub mc q o column row modes blocks tp j).
  Definition filled (column row : Z) (p : plane) (mode : Z) (p' : plane) : Prop :=
    forall x y, blk (16 * column) (16 * row) 16 x y -> at_px p' x y = block_spec 16 mode p (16 * column) (16 * row) (x - 16 * column) (y - 16 * row).
  Definition pick_inv (mc : mb_costs) (q : Quantizer) (o : plane) (column row : Z) (p : plane) (s : luma_pick) : Prop :=
    (sized w h (lp_p s) /\ sized w h (lp_t s) /\ off_block (16 * column) (16 * row) 16 p (lp_p s)) /\
    0 <= lp_mode s <= 4 /\
    (lp_mode s = B_PRED -> bpred_ok mc q o column row p (lp_modes s) (lp_blocks s)) /\
    (lp_mode s <> B_PRED -> lp_cost s = UINT32_MAX \/ filled column row p (lp_mode s) (lp_p s)).

  Lemma try_bpred_ok mc qi q o column row pr p t : qi_small qi -> make_quantizer qi = Some q -> pass_ok (mc_pass mc) ->
    sized w h o -> sized w h p -> sized w h t -> 0 <= column -> 0 <= row -> 16 * (column + 1) <= w -> 16 * (row + 1) <= h ->
    exists s, try_mode mc q o column row pr (mkLP DC_PRED UINT32_MAX [] [] p t) B_PRED = Some s /\ pick_inv mc q o column row p s.
  Proof.
    intros Hq Eq Hpass Ho Hp Ht Hc Hr Hw Hh. unfold try_mode. rewrite Z.eqb_refl. cbn [lp_p lp_t lp_cost lp_mode].
    destruct (ofold_indexed (try_sub mc q o column row) (trial_inv mc q o column row p) (cells 4) 0) with (s := mkTrial [] [] (mc_mode mc B_PRED) 0 p t) as (s & E & IV).
    { intros i [c r] s Hi IV. cbn [Nat.add] in *. eapply try_sub_ok; eassumption. }
    { unfold trial_inv. cbn [tr_modes tr_blocks tr_p tr_t]. split; [repeat (split; [reflexivity|]); split; constructor|]. split; [split; [exact Hp|split; [exact Ht|apply off_refl]]|]. intros; lia. }
    rewrite E. cbn [obind]. change (0 + length (cells 4))%nat with 16%nat in IV. destruct IV as ((L1 & L2 & F1 & F2) & (S1 & S2 & O) & CD).
    assert (BP : bpred_ok mc q o column row p (tr_modes s) (tr_blocks s)).
    { split; [auto|]. intros CO. exists (tr_p s). auto. }
    destruct (_ <? UINT32_MAX).
    - pose proof (computes_copy w h 16 (16 * column) (16 * row) (tr_t s) S2 ltac:(lia) ltac:(lia) ltac:(lia) ltac:(lia)) as CC.
      destruct (CC (tr_p s) S1) as (p2 & E2 & S3 & _). rewrite E2. cbn [obind]. eexists. split; [reflexivity|]. unfold pick_inv. cbn [lp_p lp_t lp_cost lp_mode lp_modes lp_blocks].
      split; [split; [exact S3|split; [exact S2|exact (off_trans w h _ _ _ _ _ _ Hp S1 O (computes_off w h _ _ _ _ _ _ _ CC S1 E2))]]|].
      split; [unfold B_PRED; lia|]. split; [intros _; exact BP|]. intros N. congruence.
    - eexists. split; [reflexivity|]. unfold pick_inv. cbn [lp_p lp_t lp_cost lp_mode lp_modes lp_blocks].
      split; [split; [exact S1|split; [exact S2|exact O]]|]. split; [unfold DC_PRED; lia|]. split; [intros _; exact BP|]. left. reflexivity.
  Qed.

  Lemma try_block_ok mc q o column row p pr mode s : 
    sized w h o -> sized w h p -> 0 <= column -> 0 <= row -> 16 * (column + 1) <= w -> 16 * (row + 1) <= h ->
    (forall mode, block_mode mode -> computes w h (16 * column) (16 * row) 16 (predict_with 16 column row mode pr)
      (fun _ x y => block_spec 16 mode p (16 * column) (16 * row) (x - 16 * column) (y - 16 * row))) ->
    block_mode mode -> pick_inv mc q o column row p s ->
    exists s', try_mode mc q o column row pr s mode = Some s' /\ pick_inv mc q o column row p s' /\ (costs_ok mc -> lp_cost s' < UINT32_MAX).
  Proof.
    intros Ho Hp Hc Hr Hw Hh PR BM ((S1 & S2 & O) & HM & HB & HF). unfold try_mode.
    assert (NB : (mode =? B_PRED) = false) by (unfold block_mode, DC_PRED, V_PRED, H_PRED, TM_PRED in BM; unfold B_PRED; lia). rewrite NB.
    destruct (PR mode BM (lp_t s) S2) as (t2 & E2 & S3 & _). rewrite E2. cbn [obind].
    destruct (computes_get w h _ _ 16 _ _ (lp_t s) t2 (PR mode BM) S2 ltac:(lia) ltac:(lia) ltac:(lia) ltac:(lia) E2) as (_ & _ & V2).
    rewrite (block_at_some w h 16 (16 * column) (16 * row) o Ho) by lia. rewrite (block_at_some w h 16 (16 * column) (16 * row) t2 S3) by lia. cbn [obind].
    set (a := rows_of 16 (block_in (16 * column) (16 * row) o)). set (b := rows_of 16 (block_in (16 * column) (16 * row) t2)).
    assert (CB : costs_ok mc -> cost_of mc (mc_mode mc mode) (VarianceModel.variance 16 a b) < UINT32_MAX).
    { intros CO. assert (Ba : block_of 16 a) by (apply (rows_block_of 16), (block_in_byte w h); try assumption; lia).
      assert (Bb : block_of 16 b) by (apply (rows_block_of 16), (block_in_byte w h); try assumption; lia).
      assert (SO : size_ok 16) by (unfold size_ok; lia). pose proof (sse_range 16 a b SO Ba Bb) as Q. change (65025 * Z.of_nat (16 * 16)) with 16646400 in Q.
      destruct (C66_meaning 16 a b SO Ba Bb) as (Q2 & _).
      apply cost_small; [exact CO|change (2 ^ 21) with 2097152; destruct CO as (_ & _ & CO & _); specialize (CO mode); lia|lia]. }
    destruct (_ <? lp_cost s) eqn:EC.
    - pose proof (computes_copy w h 16 (16 * column) (16 * row) t2 S3 ltac:(lia) ltac:(lia) ltac:(lia) ltac:(lia)) as CC.
      destruct (CC (lp_p s) S1) as (p2 & E3 & S4 & _). rewrite E3. cbn [obind]. eexists. split; [reflexivity|]. unfold pick_inv. cbn [lp_p lp_t lp_cost lp_mode lp_modes lp_blocks].
      destruct (computes_get w h _ _ 16 _ _ _ p2 CC S1 ltac:(lia) ltac:(lia) ltac:(lia) ltac:(lia) E3) as (_ & O3 & V3).
      split; [|exact CB].
      split; [split; [exact S4|split; [exact S3|exact (off_trans w h _ _ _ _ _ _ Hp S1 O O3)]]|].
      split; [unfold block_mode, DC_PRED, V_PRED, H_PRED, TM_PRED in BM; lia|]. split; [intros; subst; discriminate|].
      intros _. right. intros x y B. rewrite (V3 x y B). apply V2, B.
    - eexists. split; [reflexivity|]. unfold pick_inv. cbn [lp_p lp_t lp_cost lp_mode lp_modes lp_blocks].
      split; [|intros CO; specialize (CB CO); lia].
      split; [split; [exact S1|split; [exact S3|exact O]]|]. split; [exact HM|]. split; [exact HB|exact HF].
  Qed.

  Lemma luma_best_ok mc qi q bpred o column row p t : qi_small qi -> make_quantizer qi = Some q -> pass_ok (mc_pass mc) ->
    sized w h o -> sized w h p -> sized w h t -> 0 <= column -> 0 <= row -> 16 * (column + 1) <= w -> 16 * (row + 1) <= h ->
    exists s, luma_best mc q bpred o column row p t = Some s /\
      (sized w h (lp_p s) /\ sized w h (lp_t s) /\ off_block (16 * column) (16 * row) 16 p (lp_p s)) /\
      0 <= lp_mode s <= 4 /\
      (lp_mode s = B_PRED -> bpred_ok mc q o column row p (lp_modes s) (lp_blocks s)) /\
      (lp_mode s <> B_PRED -> costs_ok mc -> filled column row p (lp_mode s) (lp_p s)).
  Proof.
    intros Hq Eq Hpass Ho Hp Ht Hc Hr Hw Hh. unfold luma_best. destruct (predict_block w h 16 column row p (or_intror eq_refl) Hp Hc Hr Hw Hh) as (pr & -> & PR). cbn [obind].
    assert (R : forall s, pick_inv mc q o column row p s -> exists s', ofold (try_mode mc q o column row pr) [TM_PRED; H_PRED; V_PRED; DC_PRED] s = Some s' /\
       pick_inv mc q o column row p s' /\ (costs_ok mc -> lp_cost s' < UINT32_MAX)).
    { apply ofold_last; [discriminate|]. intros s mode Hm. apply try_block_ok; try assumption. unfold block_mode. cbn [In] in Hm. intuition. }
    assert (FIN : forall s, pick_inv mc q o column row p s -> exists s', ofold (try_mode mc q o column row pr) [TM_PRED; H_PRED; V_PRED; DC_PRED] s = Some s' /\
      (sized w h (lp_p s') /\ sized w h (lp_t s') /\ off_block (16 * column) (16 * row) 16 p (lp_p s')) /\
      0 <= lp_mode s' <= 4 /\
      (lp_mode s' = B_PRED -> bpred_ok mc q o column row p (lp_modes s') (lp_blocks s')) /\
      (lp_mode s' <> B_PRED -> costs_ok mc -> filled column row p (lp_mode s') (lp_p s'))).
    { intros s Hs. destruct (R s Hs) as (s' & E & (A & B & C & D) & J). exists s'. split; [exact E|]. split; [exact A|]. split; [exact B|]. split; [exact C|].
      intros N CO. specialize (J CO). destruct (D N) as [D'|D']; [unfold UINT32_MAX in *; lia|exact D']. }
    destruct bpred.
    - destruct (try_bpred_ok mc qi q o column row pr p t Hq Eq Hpass Ho Hp Ht Hc Hr Hw Hh) as (s & E & IV).
      destruct (FIN s IV) as (s' & E' & F). exists s'. split; [|exact F].
      change (luma_modes true) with (B_PRED :: [TM_PRED; H_PRED; V_PRED; DC_PRED]).
      change (obind (try_mode mc q o column row pr (mkLP DC_PRED UINT32_MAX [] [] p t) B_PRED) (ofold (try_mode mc q o column row pr) [TM_PRED; H_PRED; V_PRED; DC_PRED]) = Some s').
      rewrite E. exact E'.
    - apply FIN. unfold pick_inv. cbn [lp_p lp_t lp_cost lp_mode lp_modes lp_blocks].
      split; [split; [exact Hp|split; [exact Ht|apply off_refl]]|]. split; [unfold DC_PRED; lia|]. split; [intros; discriminate|]. left. reflexivity.
  Qed.
End luma.

(** ** Residues, as the equations of a macroblock state them *)

Lemma clamp_clip x : clamp255 x = clip x.
Proof. unfold clamp255, clip. destruct (x <? 0) eqn:?, (255 <? x) eqn:?; lia. Qed.

Lemma residue_nth c res r k : coefs16 c -> idct_residue c = Some res -> (r < 4)%nat -> (k < 4)%nat -> nth (4 * r + k) res 0 = (both_ways cosine (coef c) r k + 4) / 8.
Proof.
  intros [L F] E Hr Hk. destruct (C31_idct c L F) as (res' & E' & _ & _ & V). assert (res' = res) by congruence. subst. exact (V r k Hr Hk).
Qed.

Lemma set_dc_ok f b v : length (fst b) = 16%nat -> int16_ok v -> coefs16 (set_dc (dequant f b) v).
Proof.
  intros L Hv. destruct (dequant_ok f b L) as [E1 E2]. destruct (dequant f b) as [|d0 rest]; [discriminate|]. cbn [set_dc].
  split; [exact E1|]. constructor; [exact Hv|]. inversion E2; assumption.
Qed.

Lemma luma_residue_y2 q m c dcs res x y : y2_coded m = true -> shape_ok c -> iwht (dequant (y2_factors q) (co_y2 c)) = Some dcs -> (x < 16)%nat -> (y < 16)%nat ->
  idct_residue (set_dc (dequant (y_factors q) (nth (4 * (y / 4) + x / 4) (co_y c) fresh_block)) (nth (4 * (y / 4) + x / 4) dcs 0)) = Some res ->
  luma_residue q m c x y = nth (4 * (y mod 4) + x mod 4) res 0.
Proof.
  intros HC (L2 & (L & F) & _) ED Hx Hy ER.
  destruct (dequant_ok (y2_factors q) (co_y2 c) L2) as [D1 D2]. destruct (C31_iwht _ D1 D2) as (dcs' & E & Ld & Fd & V).
  assert (dcs' = dcs) by congruence. subst dcs'.
  assert (Hr : (y / 4 < 4)%nat) by lia. assert (Hk : (x / 4 < 4)%nat) by lia. assert (Hr' : (y mod 4 < 4)%nat) by lia. assert (Hk' : (x mod 4 < 4)%nat) by lia.
  unfold luma_residue. pose proof HC as HC'. unfold y2_coded in HC'. rewrite HC'. cbv zeta.
  generalize dependent (y / 4)%nat. intros r ER Hr. generalize dependent (x / 4)%nat. intros k Hk ER.
  assert (L16 : length (fst (nth (4 * r + k) (co_y c) fresh_block)) = 16%nat) by (apply (proj1 (Forall_forall _ _) F), nth_In; lia).
  rewrite (residue_nth _ res (y mod 4) (x mod 4) (set_dc_ok (y_factors q) _ (nth (4 * r + k) dcs 0) L16 ltac:(apply (proj1 (Forall_forall _ _) Fd), nth_In; lia)) ER Hr' Hk').
  f_equal. f_equal. apply both_ways_ext; [auto|]. intros i j Hi Hj. rewrite andb_true_r. unfold coef at 1.
  destruct (4 * i + j)%nat as [|s] eqn:ES.
  - cbn [Nat.eqb]. assert (exists d0 rest, dequant (y_factors q) (nth (4 * r + k) (co_y c) fresh_block) = d0 :: rest) as (d0 & rest & ->).
    { unfold dequant. destruct (fst (nth (4 * r + k) (co_y c) fresh_block)); [discriminate|]. cbn [dequantize]. eauto. }
    cbn [set_dc nth]. pose proof (V r k Hr Hk) as Q. unfold coef at 1 in Q. rewrite Q. unfold y2_value. f_equal. f_equal. f_equal.
    apply both_ways_ext; [auto|]. intros a b Ha Hb. symmetry. apply coefs_scaled; assumption.
  - cbn [Nat.eqb]. pose proof (dequant_nth (y_factors q) (nth (4 * r + k) (co_y c) fresh_block) (S s) ltac:(lia) L16) as Q.
    destruct (dequant (y_factors q) (nth (4 * r + k) (co_y c) fresh_block)) as [|d0 rest]; cbn [set_dc nth] in *; symmetry; exact Q.
Qed.

Lemma luma_residue_sub q m c x y : mb_ymode m = B_PRED -> shape_ok c -> (x < 16)%nat -> (y < 16)%nat ->
  luma_residue q m c x y = res4 (y_factors q) (nth (4 * (y / 4) + x / 4) (co_y c) fresh_block) (Z.of_nat (x mod 4)) (Z.of_nat (y mod 4)).
Proof.
  intros HM (_ & (L & F) & _) Hx Hy. unfold luma_residue, res4. rewrite HM. change (B_PRED =? B_PRED) with true. cbn [orb negb]. cbv zeta. rewrite !Nat2Z.id.
  assert (Hr : (y / 4 < 4)%nat) by lia. assert (Hk : (x / 4 < 4)%nat) by lia.
  generalize dependent (y / 4)%nat. intros r Hr. generalize dependent (x / 4)%nat. intros k Hk.
  f_equal. f_equal. apply both_ways_ext; [auto|]. intros i j Hi Hj. rewrite andb_false_r. symmetry. apply coefs_scaled; try assumption.
  apply (proj1 (Forall_forall _ _) F), nth_In. lia.
Qed.

Lemma chroma_res_sub q bl x y : length bl = 4%nat -> Forall (fun b : block => length (fst b) = 16%nat) bl -> (x < 8)%nat -> (y < 8)%nat ->
  chroma_res q bl x y = res4 (uv_factors q) (nth (2 * (y / 4) + x / 4) bl fresh_block) (Z.of_nat (x mod 4)) (Z.of_nat (y mod 4)).
Proof.
  intros L F Hx Hy. unfold chroma_res, res4. cbv zeta. rewrite !Nat2Z.id.
  assert (Hr : (y / 4 < 2)%nat) by lia. assert (Hk : (x / 4 < 2)%nat) by lia.
  generalize dependent (y / 4)%nat. intros r Hr. generalize dependent (x / 4)%nat. intros k Hk.
  f_equal. f_equal. apply both_ways_ext; [auto|]. intros i j Hi Hj. symmetry. apply coefs_scaled; try assumption.
  apply (proj1 (Forall_forall _ _) F), nth_In. lia.
Qed.

(** ** How far off the first pass may be *)

Definition bound_own (f : Z * Z) : Z := (fst f + 15 * snd f + 5) / 8.
Definition bound_y2 (q : Quantizer) : Z := (2 * Z.max (q_y2_dc q) (q_y2_ac q) + 15 * q_y_ac q + 5) / 8.

Lemma own_near qi q ctx type f (g go : Z -> Z -> Z) b : qi_small qi -> make_quantizer qi = Some q ->
  (type = Y_without_Y2 /\ f = y_factors q \/ type = UV_type /\ f = uv_factors q) ->
  (forall c r, 0 <= c < 4 -> 0 <= r < 4 -> byte_ok (g c r)) -> (forall c r, 0 <= c < 4 -> 0 <= r < 4 -> byte_ok (go c r)) ->
  code_block None ctx q type (concat (rows_of 4 go)) (concat (rows_of 4 g)) = Some b ->
  forall c r, 0 <= c < 4 -> 0 <= r < 4 -> Z.abs (clip (g c r + res4 f b c r) - go c r) <= bound_own f.
Proof.
  intros Hq Eq HT Hg Hgo E c r Hc Hr.
  assert (HT' : type = Y_without_Y2 \/ type = UV_type) by tauto.
  destruct (C61_first_pass qi q ctx type (concat (rows_of 4 go)) (concat (rows_of 4 g)) Hq Eq HT' (rows4_pixels _ Hgo) (rows4_pixels _ Hg)) as (b' & res & E' & ER & V).
  assert (b' = b) by congruence. subst b'.
  assert (DF : decoder_factors q type = f) by (destruct HT as [[-> ->]|[-> ->]]; reflexivity). rewrite DF in *.
  destruct (C61_block qi q None ctx type (concat (rows_of 4 go)) (concat (rows_of 4 g)) Hq Eq I HT' (rows4_pixels _ Hgo) (rows4_pixels _ Hg)) as (_ & b' & _ & E2 & _ & _ & B & _).
  assert (b' = b) by congruence. subst b'.
  specialize (V (4 * Z.to_nat r + Z.to_nat c)%nat ltac:(lia)). rewrite !rows4_nth in V by lia.
  replace (Z.of_nat (4 * Z.to_nat r + Z.to_nat c) mod 4) with c in V by lia. replace (Z.of_nat (4 * Z.to_nat r + Z.to_nat c) / 4) with r in V by lia.
  rewrite (residue_nth _ res (Z.to_nat r) (Z.to_nat c) (dequant_ok f b (proj1 B)) ER ltac:(lia) ltac:(lia)) in V. rewrite clamp_clip in V. exact V.
Qed.

(** ** Blocks with Y2 *)

Lemma map_fst_combine {A B} (a : list A) : forall (b : list B), length a = length b -> map fst (combine a b) = a.
Proof. induction a as [|x a IH]; intros [|y b] L; try discriminate; [reflexivity|]. cbn. f_equal. apply IH. injection L as L. exact L. Qed.
Lemma map_snd_combine {A B} (a : list A) : forall (b : list B), length a = length b -> map snd (combine a b) = b.
Proof. induction a as [|x a IH]; intros [|y b] L; try discriminate; [reflexivity|]. cbn. f_equal. apply IH. injection L as L. exact L. Qed.
Lemma omap_combine {A B C D} (F : A -> option D) (G : B -> C -> option D) f g l : (forall x, In x l -> F x = G (f x) (g x)) ->
  omap F l = omap (fun '(a, b) => G a b) (combine (map f l) (map g l)).
Proof.
  induction l as [|x l IH]; intros E; [reflexivity|]. cbn [omap map combine]. rewrite (E x (or_introl eq_refl)). rewrite IH by (intros y Hy; apply E; right; exact Hy). reflexivity.
Qed.

Section codes.
  Variables w h : Z.

  Definition cell_pixels (x0 y0 : Z) (p : plane) (cell : Z * Z) : list Z := concat (rows_of 4 (block_in (x0 + 4 * fst cell) (y0 + 4 * snd cell) p)).
  Lemma cell_nth x0 y0 p c r k : (k < 16)%nat -> nth k (cell_pixels x0 y0 p (c, r)) 0 = at_px p (x0 + 4 * c + Z.of_nat k mod 4) (y0 + 4 * r + Z.of_nat k / 4).
  Proof. intros H. unfold cell_pixels. rewrite rows4_nth by exact H. reflexivity. Qed.
  Lemma cell_ok x0 y0 p n c r : sized w h p -> 0 <= x0 -> 0 <= y0 -> x0 + 4 * n <= w -> y0 + 4 * n <= h -> 0 <= c < n -> 0 <= r < n -> PropResidue.pixels (cell_pixels x0 y0 p (c, r)).
  Proof. intros. apply rows4_pixels, (block_in_byte w h); cbn [fst snd]; try assumption; lia. Qed.

  Lemma code_luma_ok pass ctx qi q o column row p : qi_small qi -> make_quantizer qi = Some q -> pass_ok pass -> sized w h o -> sized w h p ->
    0 <= column -> 0 <= row -> 16 * (column + 1) <= w -> 16 * (row + 1) <= h ->
    exists y2 bl, code_luma pass ctx q o column row p = Some (y2, bl) /\ block_ok Y2_type y2 /\ length bl = 16%nat /\ Forall (block_ok Y_after_Y2) bl /\
      (pass = None -> forall m c, y2_coded m = true -> shape_ok c -> co_y2 c = y2 -> co_y c = bl -> forall x y, (x < 16)%nat -> (y < 16)%nat ->
         Z.abs (clip (at_px p (16 * column + Z.of_nat x) (16 * row + Z.of_nat y) + luma_residue q m c x y) - at_px o (16 * column + Z.of_nat x) (16 * row + Z.of_nat y)) <= bound_y2 q).
  Proof.
    intros Hq Eq Hpass Ho Hp Hc Hr Hw Hh. unfold code_luma. cbv zeta.
    set (F := fun cell : Z * Z => code_block_y2 pass (ctx Y_after_Y2 (Z.to_nat (4 * snd cell + fst cell))) q (cell_pixels (16 * column) (16 * row) o cell) (cell_pixels (16 * column) (16 * row) p cell)).
    assert (IN : forall cell, In cell (cells 4) -> 0 <= fst cell < 4 /\ 0 <= snd cell < 4).
    { intros [c r] Hi. apply cells_in in Hi. exact Hi. }
    assert (PX : forall s, sized w h s -> Forall PropResidue.pixels (map (cell_pixels (16 * column) (16 * row) s) (cells 4))).
    { intros s Hs. apply Forall_forall. intros v Hv. apply in_map_iff in Hv. destruct Hv as ([c r] & <- & Hi). apply IN in Hi. cbn [fst snd] in Hi. apply (cell_ok _ _ _ 4); try assumption; lia. }
    match goal with |- context [omap ?f (cells 4)] => assert (EF : omap f (cells 4) = omap F (cells 4)) end.
    { rewrite <- (map_id (cells 4)) at 2. assert (G : forall l, (forall cell, In cell l -> In cell (cells 4)) -> forall f, (forall cell, In cell (cells 4) -> f cell = F cell) -> omap f l = omap F (map (fun x => x) l)).
      { induction l as [|a l IH]; intros HI f Hf; [reflexivity|]. cbn [omap map]. rewrite (Hf a) by (apply HI; left; reflexivity). rewrite (IH (fun c Hl => HI c (or_intror Hl)) f Hf). reflexivity. }
      apply G; [auto|]. intros cell Hi. apply IN in Hi. unfold F.
      rewrite (block_at_some w h 4 _ _ o Ho) by lia. rewrite (block_at_some w h 4 _ _ p Hp) by lia. reflexivity. }
    rewrite EF. clear EF.
    destruct (omap_map2 F (fun _ b dc => block_ok Y_after_Y2 b /\ -2040 <= dc <= 2040) (cells 4)) as (bl & dcs & E & L1 & L2 & V).
    { apply Forall_forall. intros [c r] Hi. apply IN in Hi. cbn [fst snd] in Hi. unfold F.
      destruct (C61_block_under_y2 qi q pass (ctx Y_after_Y2 (Z.to_nat (4 * r + c))) (cell_pixels (16 * column) (16 * row) o (c, r)) (cell_pixels (16 * column) (16 * row) p (c, r)) Hq Eq Hpass) as (_ & b & dc & _ & E & _ & R & _ & B & _).
      - apply (cell_ok _ _ _ 4); try assumption; lia.
      - apply (cell_ok _ _ _ 4); try assumption; lia.
      - exists b, dc. cbn [fst snd]. auto. }
    change (length (cells 4)) with 16%nat in L1, L2, V.
    assert (FB : Forall (block_ok Y_after_Y2) bl).
    { apply Forall_forall. intros b Hb. apply (In_nth _ _ fresh_block) in Hb. destruct Hb as (i & Hi & <-). apply (V i (0, 0) fresh_block 0). lia. }
    assert (FD : Forall (fun x => -2040 <= x <= 2040) dcs).
    { apply Forall_forall. intros b Hb. apply (In_nth _ _ 0) in Hb. destruct Hb as (i & Hi & <-). apply (V i (0, 0) fresh_block 0). lia. }
    destruct (C61_y2_block qi q pass (ctx Y2_type 0%nat) dcs Hq Eq Hpass L2 FD) as (_ & y2 & _ & E2 & _ & _ & B2 & _).
    rewrite E. cbn [obind]. rewrite map_fst_combine, map_snd_combine by congruence. rewrite E2. cbn [obind].
    exists y2, bl. split; [reflexivity|]. split; [exact B2|]. split; [exact L1|]. split; [exact FB|].
    intros -> m c HY HS Ey2 Ey x y Hx Hy.
    destruct (C61_first_pass_y2 qi q 0 (ctx Y2_type 0%nat) (map (cell_pixels (16 * column) (16 * row) o) (cells 4)) (map (cell_pixels (16 * column) (16 * row) p) (cells 4)) Hq Eq eq_refl eq_refl (PX o Ho) (PX p Hp))
      as (bl' & dcs1 & y2' & dcs' & E' & L1' & L2' & E2' & EI & L3 & V').
    rewrite <- (omap_combine F) in E' by reflexivity.
    assert (EC : combine bl dcs = combine bl' dcs1) by congruence.
    assert (bl' = bl) by (rewrite <- (map_fst_combine bl dcs), <- (map_fst_combine bl' dcs1) by congruence; congruence).
    assert (dcs1 = dcs) by (rewrite <- (map_snd_combine bl dcs), <- (map_snd_combine bl' dcs1) by congruence; congruence).
    assert (y2' = y2) by congruence. subst bl' dcs1 y2'. clear E' EC.
    assert (Hi : (4 * (y / 4) + x / 4 < 16)%nat) by lia. destruct (V' _ Hi) as (res & ER & VR).
    rewrite (luma_residue_y2 q m c dcs' res x y HY HS) by (try assumption; try (rewrite Ey2; exact EI); rewrite Ey; exact ER).
    specialize (VR (4 * (y mod 4) + x mod 4)%nat ltac:(lia)). rewrite clamp_clip in VR.
    assert (NC : forall s, nth (4 * (y mod 4) + x mod 4) (nth (4 * (y / 4) + x / 4) (map (cell_pixels (16 * column) (16 * row) s) (cells 4)) []) 0 =
      at_px s (16 * column + Z.of_nat x) (16 * row + Z.of_nat y)).
    { intros s. rewrite (nth_indep _ [] (cell_pixels (16 * column) (16 * row) s (0, 0))) by exact Hi. rewrite map_nth.
      destruct (nth_error (cells 4) (4 * (y / 4) + x / 4)) as [[cc cr]|] eqn:EN; [|apply nth_error_None in EN; change (length (cells 4)) with 16%nat in EN; lia].
      rewrite (nth_error_nth _ _ (0, 0) EN). apply cells4_nth in EN. rewrite cell_nth by lia. f_equal; lia. }
    rewrite !NC in VR. exact VR.
  Qed.

  (** ** Chroma *)

  Lemma code_chroma_ok pass ctx first qi q o column row p : qi_small qi -> make_quantizer qi = Some q -> pass_ok pass -> sized w h o -> sized w h p ->
    0 <= column -> 0 <= row -> 8 * (column + 1) <= w -> 8 * (row + 1) <= h ->
    exists bl, code_chroma pass ctx first q o column row p = Some bl /\ length bl = 4%nat /\ Forall (block_ok UV_type) bl /\
      (pass = None -> forall x y, (x < 8)%nat -> (y < 8)%nat ->
         Z.abs (clip (at_px p (8 * column + Z.of_nat x) (8 * row + Z.of_nat y) + chroma_res q bl x y) - at_px o (8 * column + Z.of_nat x) (8 * row + Z.of_nat y)) <= bound_own (uv_factors q)).
  Proof.
    intros Hq Eq Hpass Ho Hp Hc Hr Hw Hh. unfold code_chroma. cbv zeta.
    match goal with |- context [omap ?f (cells 2)] => set (F := f) end.
    assert (HF : forall c r, 0 <= c < 2 -> 0 <= r < 2 -> exists b, F (c, r) = Some b /\ block_ok UV_type b /\
      (pass = None -> forall cc rr, 0 <= cc < 4 -> 0 <= rr < 4 ->
        Z.abs (clip (at_px p (8 * column + 4 * c + cc) (8 * row + 4 * r + rr) + res4 (uv_factors q) b cc rr) - at_px o (8 * column + 4 * c + cc) (8 * row + 4 * r + rr)) <= bound_own (uv_factors q))).
    { intros c r Bc Br. unfold F. cbn [fst snd]. rewrite (block_at_some w h 4 _ _ o Ho) by lia. rewrite (block_at_some w h 4 _ _ p Hp) by lia. cbn [obind].
      assert (Ko : forall cc rr, 0 <= cc < 4 -> 0 <= rr < 4 -> byte_ok (block_in (8 * column + 4 * c) (8 * row + 4 * r) o cc rr)) by (apply (block_in_byte w h); try assumption; lia).
      assert (Kp : forall cc rr, 0 <= cc < 4 -> 0 <= rr < 4 -> byte_ok (block_in (8 * column + 4 * c) (8 * row + 4 * r) p cc rr)) by (apply (block_in_byte w h); try assumption; lia).
      destruct (C61_block qi q pass (ctx UV_type (first + Z.to_nat (2 * r + c))%nat) UV_type _ _ Hq Eq Hpass (or_intror eq_refl) (rows4_pixels _ Ko) (rows4_pixels _ Kp)) as (_ & b & _ & E & _ & _ & B & _).
      exists b. split; [exact E|]. split; [exact B|]. intros -> cc rr Hcc Hrr.
      exact (own_near qi q _ UV_type (uv_factors q) _ _ b Hq Eq (or_intror (conj eq_refl eq_refl)) Kp Ko E cc rr Hcc Hrr). }
    change (cells 2) with [(0, 0); (1, 0); (0, 1); (1, 1)].
    destruct (HF 0 0 ltac:(lia) ltac:(lia)) as (b0 & E0 & B0 & A0). destruct (HF 1 0 ltac:(lia) ltac:(lia)) as (b1 & E1 & B1 & A1).
    destruct (HF 0 1 ltac:(lia) ltac:(lia)) as (b2 & E2 & B2 & A2). destruct (HF 1 1 ltac:(lia) ltac:(lia)) as (b3 & E3 & B3 & A3).
    cbn [omap]. rewrite E0, E1, E2, E3. cbn [obind]. exists [b0; b1; b2; b3].
    split; [reflexivity|]. split; [reflexivity|].
    split; [constructor; [exact B0|]; constructor; [exact B1|]; constructor; [exact B2|]; constructor; [exact B3|constructor]|].
    intros HP x y Hx Hy. 
    assert (FL : Forall (fun b : block => length (fst b) = 16%nat) [b0; b1; b2; b3]).
    { constructor; [apply B0|]. constructor; [apply B1|]. constructor; [apply B2|]. constructor; [apply B3|constructor]. }
    rewrite (chroma_res_sub q [b0; b1; b2; b3] x y eq_refl FL Hx Hy).
    assert (Dx : (x / 4 = 0 \/ x / 4 = 1)%nat) by lia. assert (Dy : (y / 4 = 0 \/ y / 4 = 1)%nat) by lia.
    assert (Ex : Z.of_nat x = 4 * Z.of_nat (x / 4) + Z.of_nat (x mod 4)) by lia. assert (Ey : Z.of_nat y = 4 * Z.of_nat (y / 4) + Z.of_nat (y mod 4)) by lia.
    assert (Mx : 0 <= Z.of_nat (x mod 4) < 4) by lia. assert (My : 0 <= Z.of_nat (y mod 4) < 4) by lia.
    rewrite Ex, Ey, !Z.add_assoc. generalize dependent (x mod 4)%nat. generalize dependent (y mod 4)%nat. intros ym _ My xm _ Mx.
    destruct Dx as [-> | ->], Dy as [-> | ->]; cbn [Nat.mul Nat.add nth]; [apply A0|apply A2|apply A1|apply A3]; assumption.
  Qed.

  Definition filled8 (column row : Z) (p : plane) (mode : Z) (p' : plane) : Prop :=
    forall x y, blk (8 * column) (8 * row) 8 x y -> at_px p' x y = block_spec 8 mode p (8 * column) (8 * row) (x - 8 * column) (y - 8 * row).

  Lemma chroma_best_ok ou ov column row u v tu tv : sized w h ou -> sized w h ov -> sized w h u -> sized w h v -> sized w h tu -> sized w h tv ->
    0 <= column -> 0 <= row -> 8 * (column + 1) <= w -> 8 * (row + 1) <= h ->
    exists s, chroma_best ou ov column row u v tu tv = Some s /\ block_mode (cp_mode s) /\
      (sized w h (cp_u s) /\ sized w h (cp_v s) /\ sized w h (cp_tu s) /\ sized w h (cp_tv s)) /\
      off_block (8 * column) (8 * row) 8 u (cp_u s) /\ off_block (8 * column) (8 * row) 8 v (cp_v s) /\
      filled8 column row u (cp_mode s) (cp_u s) /\ filled8 column row v (cp_mode s) (cp_v s).
  Proof.
    intros Hou Hov Hu Hv Htu Htv Hc Hr Hw Hh. unfold chroma_best.
    destruct (predict_block w h 8 column row u (or_introl eq_refl) Hu Hc Hr Hw Hh) as (pu & -> & PU).
    destruct (predict_block w h 8 column row v (or_introl eq_refl) Hv Hc Hr Hw Hh) as (pv & -> & PV). cbn [obind].
    set (I := fun s => block_mode (cp_mode s) /\ (sized w h (cp_u s) /\ sized w h (cp_v s) /\ sized w h (cp_tu s) /\ sized w h (cp_tv s)) /\
      (off_block (8 * column) (8 * row) 8 u (cp_u s) /\ off_block (8 * column) (8 * row) 8 v (cp_v s)) /\
      (cp_dist s = UINT32_MAX \/ filled8 column row u (cp_mode s) (cp_u s) /\ filled8 column row v (cp_mode s) (cp_v s))).
    destruct (ofold_last (try_chroma ou ov column row pu pv) I (fun s => cp_dist s < UINT32_MAX) [DC_PRED; V_PRED; H_PRED; TM_PRED])
      with (s := mkCP DC_PRED UINT32_MAX u v tu tv) as (s & E & (I1 & I2 & (I3 & I4) & I5) & HJ).
    - discriminate.
    - intros s mode Hm (I1 & (S1 & S2 & S3 & S4) & (O1 & O2) & I5).
      assert (BM : block_mode mode) by (unfold block_mode; cbn [In] in Hm; intuition).
      unfold try_chroma. destruct (PU mode BM (cp_tu s) S3) as (t1 & E1 & T1 & _). rewrite E1. cbn [obind].
      destruct (PV mode BM (cp_tv s) S4) as (t2 & E2 & T2 & _). rewrite E2. cbn [obind].
      destruct (computes_get w h _ _ 8 _ _ _ t1 (PU mode BM) S3 ltac:(lia) ltac:(lia) ltac:(lia) ltac:(lia) E1) as (_ & _ & W1).
      destruct (computes_get w h _ _ 8 _ _ _ t2 (PV mode BM) S4 ltac:(lia) ltac:(lia) ltac:(lia) ltac:(lia) E2) as (_ & _ & W2).
      rewrite (block_at_some w h 8 _ _ ou Hou) by lia. rewrite (block_at_some w h 8 _ _ t1 T1) by lia.
      rewrite (block_at_some w h 8 _ _ ov Hov) by lia. rewrite (block_at_some w h 8 _ _ t2 T2) by lia. cbn [obind]. cbv zeta.
      match goal with |- context [wrap 32 ?d] => assert (DB : wrap 32 d < UINT32_MAX) end.
      { assert (SO : size_ok 8) by (unfold size_ok; lia).
        pose proof (sse_range 8 (rows_of 8 (block_in (8 * column) (8 * row) ou)) (rows_of 8 (block_in (8 * column) (8 * row) t1)) SO) as Q1.
        pose proof (sse_range 8 (rows_of 8 (block_in (8 * column) (8 * row) ov)) (rows_of 8 (block_in (8 * column) (8 * row) t2)) SO) as Q2.
        change (65025 * Z.of_nat (8 * 8)) with 4161600 in Q1, Q2.
        assert (Q1' := Q1 ltac:(apply (rows_block_of 8), (block_in_byte w h); try assumption; lia) ltac:(apply (rows_block_of 8), (block_in_byte w h); try assumption; lia)).
        assert (Q2' := Q2 ltac:(apply (rows_block_of 8), (block_in_byte w h); try assumption; lia) ltac:(apply (rows_block_of 8), (block_in_byte w h); try assumption; lia)).
        unfold wrap, UINT32_MAX. change (2 ^ 32) with 4294967296. rewrite Z.mod_small by lia. lia. }
      destruct (_ <? cp_dist s) eqn:EC.
      + pose proof (computes_copy w h 8 (8 * column) (8 * row) t1 T1 ltac:(lia) ltac:(lia) ltac:(lia) ltac:(lia)) as C1.
        pose proof (computes_copy w h 8 (8 * column) (8 * row) t2 T2 ltac:(lia) ltac:(lia) ltac:(lia) ltac:(lia)) as C2.
        destruct (C1 _ S1) as (p1 & F1 & G1 & _). destruct (C2 _ S2) as (p2 & F2 & G2 & _). rewrite F1, F2. cbn [obind].
        destruct (computes_get w h _ _ 8 _ _ _ p1 C1 S1 ltac:(lia) ltac:(lia) ltac:(lia) ltac:(lia) F1) as (_ & X1 & Y1).
        destruct (computes_get w h _ _ 8 _ _ _ p2 C2 S2 ltac:(lia) ltac:(lia) ltac:(lia) ltac:(lia) F2) as (_ & X2 & Y2).
        eexists. split; [reflexivity|]. cbn [cp_dist]. split; [|exact DB]. unfold I. cbn [cp_mode cp_dist cp_u cp_v cp_tu cp_tv].
        split; [exact BM|]. split; [auto|]. split; [split; [exact (off_trans w h _ _ _ _ _ _ Hu S1 O1 X1)|exact (off_trans w h _ _ _ _ _ _ Hv S2 O2 X2)]|].
        right. split; intros x y B; [rewrite (Y1 x y B); apply W1, B|rewrite (Y2 x y B); apply W2, B].
      + eexists. split; [reflexivity|]. cbn [cp_dist]. split; [|lia]. unfold I. cbn [cp_mode cp_dist cp_u cp_v cp_tu cp_tv].
        split; [exact I1|]. split; [auto|]. split; [auto|]. exact I5.
    - unfold I. cbn [cp_mode cp_dist cp_u cp_v cp_tu cp_tv]. split; [left; reflexivity|]. split; [auto|]. split; [split; apply off_refl|left; reflexivity].
    - exists s. split; [exact E|]. split; [exact I1|]. split; [exact I2|]. split; [exact I3|]. split; [exact I4|].
      destruct I5 as [I5|I5]; [rewrite I5 in HJ; lia|exact I5].
  Qed.
End codes.
