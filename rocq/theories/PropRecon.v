(** Property C55: every pixel before loop filtering is the prediction plus the
    residue. *)
From Verif Require Import Base BoolCoderModel TreeModel HeaderModel MVModel MBModel TokenModel ChunkModel ContainerModel FrameModel.
From Verif Require Import QuantModel RasterModel TransformModel PredictModel LoopFilterModel ReconModel.
From Verif Require Import HeaderProofs MBProofs TokenProofs FrameProofs PropContainer PropMacroblocks PropFrame RasterProofs PropQuant PropTransform PredictProofs PropInter PropIntra PropLoopFilter ReconProofs PropPicture.

(** ** Independent description *)

Definition clip (x : Z) : Z := Z.max 0 (Z.min 255 x).

(** Coefficient k of a block, times its factor (DC or AC), kept in 16 bits. *)
Definition scaled (f : Z * Z) (b : block) (k : nat) : Z := s16 (nth k (fst b) 0 * (if (k =? 0)%nat then fst f else snd f)).

(** The DC coefficient that the Y2 block gives to the luma block in row r,
    column k. *)
Definition y2_value (q : Quantizer) (c : mbcoef) (r k : nat) : Z :=
  s16 ((both_ways hadamard (fun i j => scaled (q_y2_dc q, q_y2_ac q) (co_y2 c) (4 * i + j)) r k + 3) / 8).

(** Residue at column x, row y of the macroblock (0..15), and of the chroma
    block (0..7). *)
Definition luma_residue (q : Quantizer) (m : mbinfo) (c : mbcoef) (x y : nat) : Z :=
  let b := nth (4 * (y / 4) + x / 4) (co_y c) fresh_block in
  let split := (mb_ymode m =? B_PRED) || (mb_ymode m =? SPLITMV) in
  let co i j := if (4 * i + j =? 0)%nat && negb split then y2_value q c (y / 4) (x / 4)
                else scaled (q_y_dc q, q_y_ac q) b (4 * i + j) in
  (both_ways cosine co (y mod 4) (x mod 4) + 4) / 8.
Definition chroma_res (q : Quantizer) (bl : list block) (x y : nat) : Z :=
  let b := nth (2 * (y / 4) + x / 4) bl fresh_block in
  (both_ways cosine (fun i j => scaled (q_uv_dc q, q_uv_ac q) b (4 * i + j)) (y mod 4) (x mod 4) + 4) / 8.

(** Vector of the sub-block in column sx, row sy. *)
Definition vector (m : mbinfo) (sx sy : Z) : mv := nth (Z.to_nat (4 * sy + sx)) (mb_mvs m) mv_zero.

(** Chroma vector of a 4x4 chroma block: the sum of the four luma vectors
    over it, in 16 bits, divided by eight and rounded away from zero at the
    half. Chroma vectors count eighths of a pixel. *)
Definition eighth (s : Z) : Z := Z.sgn s * ((Z.abs s + 4) / 8).
Definition chroma_vector (m : mbinfo) (sx sy : Z) : mv :=
  let sum f := s16 (f (vector m (2 * sx) (2 * sy)) + f (vector m (2 * sx + 1) (2 * sy)) +
                    f (vector m (2 * sx) (2 * sy + 1)) + f (vector m (2 * sx + 1) (2 * sy + 1))) in
  (eighth (sum fst), eighth (sum snd)).

(** Prediction of the pixel (px, py) of a plane in macroblock (column, row).
    [p]: that plane of the picture itself. *)
Definition luma_prediction (ref : plane) (m : mbinfo) (column row : Z) (p : plane) (px py : Z) : Z :=
  let x := px - 16 * column in
  let y := py - 16 * row in
  if mb_inter m then
    let v := vector m (x / 4) (y / 4) in displaced ref (fst v) (snd v) px py
  else if mb_ymode m =? B_PRED then
    sub_spec (nth (Z.to_nat (4 * (y / 4) + x / 4)) (mb_bmodes m) 0) p (px - x mod 4) (py - y mod 4) (x mod 4) (y mod 4)
  else block_spec 16 (mb_ymode m) p (16 * column) (16 * row) x y.
Definition chroma_prediction (ref : plane) (m : mbinfo) (column row : Z) (p : plane) (px py : Z) : Z :=
  let x := px - 8 * column in
  let y := py - 8 * row in
  if mb_inter m then
    let v := chroma_vector m (x / 4) (y / 4) in displaced ref (fst v) (snd v) px py
  else block_spec 8 (mb_uvmode m) p (8 * column) (8 * row) x y.

(** The reference picture that a macroblock names. *)
Definition named (refs : references) (m : mbinfo) : raster :=
  match mb_sel1 m, mb_sel2 m with
  | Some true, Some true => rf_alt refs
  | Some true, _ => rf_golden refs
  | _, _ => rf_last refs
  end.

(** The equations of one macroblock. *)
Definition plane_solves (n column row : Z) (pred : plane -> Z -> Z -> Z) (res : nat -> nat -> Z) (p : plane) : Prop :=
  forall px py, n * column <= px < n * column + n -> n * row <= py < n * row + n ->
    at_px p px py = clip (pred p px py + res (Z.to_nat (px - n * column)) (Z.to_nat (py - n * row))).
Definition solves (q : Quantizer) (refs : references) (m : mbinfo) (c : mbcoef) (column row : Z) (r : raster) : Prop :=
  plane_solves 16 column row (luma_prediction (ra_y (named refs m)) m column row) (luma_residue q m c) (ra_y r) /\
  plane_solves 8 column row (chroma_prediction (ra_u (named refs m)) m column row) (chroma_res q (co_u c)) (ra_u r) /\
  plane_solves 8 column row (chroma_prediction (ra_v (named refs m)) m column row) (chroma_res q (co_v c)) (ra_v r).

(** ** Residue *)

Lemma both_ways_ext t c c' row col : (t = cosine \/ t = hadamard) -> (forall i j, (i < 4)%nat -> (j < 4)%nat -> c i j = c' i j) ->
  both_ways t c row col = both_ways t c' row col.
Proof.
  intros Ht H.
  assert (E : forall k (f g : nat -> Z), (forall i, (i < 4)%nat -> f i = g i) -> t k f = t k g).
  { intros k f g Hf. pose proof (Hf 0%nat ltac:(lia)) as H0. pose proof (Hf 1%nat ltac:(lia)) as H1.
    pose proof (Hf 2%nat ltac:(lia)) as H2. pose proof (Hf 3%nat ltac:(lia)) as H3.
    destruct Ht as [-> | ->]; destruct k as [|[|[|k]]]; cbn; rewrite H0, H1, H2, H3; reflexivity. }
  unfold both_ways. apply E. intros j Hj. f_equal. apply E. intros i Hi. apply H; assumption.
Qed.

Lemma dequant_nth f b k : (k < 16)%nat -> length (fst b) = 16%nat -> nth k (dequant f b) 0 = scaled f b k.
Proof.
  intros Hk L. unfold dequant, scaled. destruct (fst b) as [|c0 r]; [discriminate|]. cbn [dequantize].
  destruct k as [|k]; [reflexivity|]. cbn [nth Nat.eqb]. rewrite (nth_indep _ 0 (s16 (0 * snd f))) by (rewrite map_length; cbn in L; lia).
  rewrite (map_nth (fun x => s16 (x * snd f))). reflexivity.
Qed.

Definition computes (w h x0 y0 n : Z) (f : plane -> option plane) (V : plane -> Z -> Z -> Z) : Prop :=
  forall p, sized w h p -> exists p', f p = Some p' /\ sized w h p' /\
    forall x y, inside p x y = true -> at_px p' x y = if in_block x0 y0 n x y then V p x y else at_px p x y.

Lemma computes_ext w h x0 y0 n f V V' : (forall p x y, sized w h p -> blk x0 y0 n x y -> inside p x y = true -> V p x y = V' p x y) ->
  computes w h x0 y0 n f V -> computes w h x0 y0 n f V'.
Proof.
  intros H F p Hp. destruct (F p Hp) as (p' & E & S & A). exists p'. split; [exact E|]. split; [exact S|].
  intros x y Hi. rewrite (A x y Hi). destruct (in_block x0 y0 n x y) eqn:B; [|reflexivity]. apply H; try assumption. apply in_block_blk, B.
Qed.

Lemma inside_sized w h p x y : sized w h p -> (inside p x y = true <-> 0 <= x < w /\ 0 <= y < h).
Proof. intros (_ & <- & <-). rewrite inside_iff. tauto. Qed.

(** Prediction followed by the addition of a residue. *)
Lemma computes_add w h x0 y0 n f g V R : computes w h x0 y0 n f V -> computes w h x0 y0 n g (fun p x y => clip (at_px p x y + R x y)) ->
  computes w h x0 y0 n (fun p => let? p := f p in g p) (fun p x y => clip (V p x y + R x y)).
Proof.
  intros F G p Hp. destruct (F p Hp) as (p1 & E1 & S1 & A1). destruct (G p1 S1) as (p2 & E2 & S2 & A2).
  exists p2. rewrite E1. cbn [obind]. split; [exact E2|]. split; [exact S2|].
  intros x y Hi. rewrite A2 by (apply (inside_sized w h p1); [exact S1|]; apply (inside_sized w h p); assumption).
  rewrite (A1 x y Hi). destruct (in_block x0 y0 n x y); reflexivity.
Qed.
Lemma computes_zero w h x0 y0 n f V R : computes w h x0 y0 n f V -> (forall x y, blk x0 y0 n x y -> R x y = 0) ->
  computes w h x0 y0 n (fun p => let? p := f p in Some p) (fun p x y => clip (V p x y + R x y)).
Proof.
  intros F HR p Hp. destruct (F p Hp) as (p1 & E1 & S1 & A1). exists p1. rewrite E1. split; [reflexivity|]. split; [exact S1|].
  intros x y Hi. pose proof (A1 x y Hi) as E. rewrite E. destruct (in_block x0 y0 n x y) eqn:B; [|reflexivity].
  rewrite (HR x y) by (apply in_block_blk, B). rewrite Z.add_0_r.
  assert (Q : byte_ok (at_px p1 x y)) by (apply at_px_byte; [apply S1|]; apply (inside_sized w h p1); [exact S1|]; apply (inside_sized w h p); assumption).
  rewrite E in Q. unfold clip, byte_ok in *. lia.
Qed.

Lemma computes_idct w h x0 y0 c : coefs16 c -> 0 <= x0 -> 0 <= y0 -> x0 + 4 <= w -> y0 + 4 <= h ->
  computes w h x0 y0 4 (idct_add x0 y0 c) (fun p x y => clip (at_px p x y + (both_ways cosine (coef c) (Z.to_nat (y - y0)) (Z.to_nat (x - x0)) + 4) / 8)).
Proof.
  intros [L F] Hx Hy Hw Hh p (Op & Dw & Dh). destruct (C31_idct_add p x0 y0 c Op L F Hx Hy ltac:(lia) ltac:(lia)) as (p' & E & O' & [D1 D2] & V).
  exists p'. split; [exact E|]. split; [split; [exact O'|]; split; congruence|]. exact V.
Qed.

(** The cell that a pixel lies in. *)
Definition in_cells (x0 y0 : Z) (l : list (Z * Z)) (x y : Z) : bool := existsb (fun '(c, r) => in_block (x0 + 4 * c) (y0 + 4 * r) 4 x y) l.

Lemma cells_fold W H x0 y0 (f : plane -> Z * Z -> option plane) (G : Z * Z -> Z -> Z -> Z -> Z) (l : list (Z * Z)) :
  (forall c r, In (c, r) l -> computes W H (x0 + 4 * c) (y0 + 4 * r) 4 (fun p => f p (c, r)) (fun p x y => G (c, r) x y (at_px p x y))) -> NoDup l ->
  forall p, sized W H p -> exists p', ofold f l p = Some p' /\ sized W H p' /\
    forall x y, inside p x y = true -> at_px p' x y = if in_cells x0 y0 l x y then G ((x - x0) / 4, (y - y0) / 4) x y (at_px p x y) else at_px p x y.
Proof.
  induction l as [|[c r] l IH]; intros HG ND p Hp; [exists p; cbn; auto|].
  inversion ND as [|? ? NI ND']; subst.
  destruct (HG c r (or_introl eq_refl) p Hp) as (p1 & E1 & S1 & A1).
  destruct (IH (fun c' r' Hin => HG c' r' (or_intror Hin)) ND' p1 S1) as (p2 & E2 & S2 & A2).
  exists p2. cbn [ofold]. rewrite E1. cbn [obind]. split; [exact E2|]. split; [exact S2|].
  intros x y Hi. rewrite A2 by (apply (inside_sized W H p1); [exact S1|]; apply (inside_sized W H p); assumption).
  rewrite (A1 x y Hi). cbn [in_cells existsb]. destruct (in_block (x0 + 4 * c) (y0 + 4 * r) 4 x y) eqn:B.
  - assert (EC : (x - x0) / 4 = c /\ (y - y0) / 4 = r) by (apply in_block_blk in B; unfold blk in B; lia).
    destruct EC as (Ec & Er).
    assert (in_cells x0 y0 l x y = false) as ->.
    { apply Bool.not_true_iff_false. intros Q. apply existsb_exists in Q. destruct Q as ([c' r'] & Hin & Q). apply in_block_blk in Q. unfold blk in Q.
      apply NI. assert (c' = c) by lia. assert (r' = r) by lia. subst. exact Hin. }
    rewrite Ec, Er. reflexivity.
  - cbn [orb]. reflexivity.
Qed.

Lemma computes_cells W H x0 y0 (g : Z * Z -> list Z) (l : list (Z * Z)) :
  (forall c r, In (c, r) l -> coefs16 (g (c, r)) /\ 0 <= x0 + 4 * c /\ 0 <= y0 + 4 * r /\ x0 + 4 * c + 4 <= W /\ y0 + 4 * r + 4 <= H) -> NoDup l ->
  forall p, sized W H p -> exists p', ofold (fun p '(c, r) => idct_add (x0 + 4 * c) (y0 + 4 * r) (g (c, r)) p) l p = Some p' /\ sized W H p' /\
    forall x y, inside p x y = true -> at_px p' x y = if in_cells x0 y0 l x y
      then clip (at_px p x y + (both_ways cosine (coef (g ((x - x0) / 4, (y - y0) / 4))) (Z.to_nat ((y - y0) mod 4)) (Z.to_nat ((x - x0) mod 4)) + 4) / 8)
      else at_px p x y.
Proof.
  intros HG ND.
  apply (cells_fold W H x0 y0 (fun p '(c, r) => idct_add (x0 + 4 * c) (y0 + 4 * r) (g (c, r)) p)
    (fun cr x y v => clip (v + (both_ways cosine (coef (g cr)) (Z.to_nat ((y - y0) mod 4)) (Z.to_nat ((x - x0) mod 4)) + 4) / 8))); [|exact ND].
  intros c r Hin. destruct (HG c r Hin) as (C & B1 & B2 & B3 & B4).
  eapply computes_ext; [|exact (computes_idct W H _ _ _ C B1 B2 B3 B4)].
  intros p x y Hp B Hi. unfold blk in B.
  assert (EC : (x - x0) mod 4 = x - (x0 + 4 * c) /\ (y - y0) mod 4 = y - (y0 + 4 * r)) by lia.
  destruct EC as (-> & ->). reflexivity.
Qed.

Lemma in_cells_block w x0 y0 x y : 0 <= w -> in_cells x0 y0 (cells w) x y = in_block x0 y0 (4 * w) x y.
Proof.
  intros Hw. apply eq_true_iff_eq. rewrite in_block_blk. unfold in_cells. rewrite existsb_exists. unfold blk. split.
  - intros ([c r] & Hin & B). apply cells_in in Hin. apply in_block_blk in B. unfold blk in B. lia.
  - intros B. exists ((x - x0) / 4, (y - y0) / 4). split; [apply cells_in; lia|]. apply in_block_blk. unfold blk. lia.
Qed.

Lemma computes_add_blocks W H w x0 y0 bl : 0 <= w -> (forall k, (k < Z.to_nat (w * w))%nat -> coefs16 (nth k bl [])) ->
  0 <= x0 -> 0 <= y0 -> x0 + 4 * w <= W -> y0 + 4 * w <= H ->
  computes W H x0 y0 (4 * w) (add_blocks w x0 y0 bl)
    (fun p x y => clip (at_px p x y + (both_ways cosine (coef (nth (Z.to_nat (w * ((y - y0) / 4) + (x - x0) / 4)) bl [])) (Z.to_nat ((y - y0) mod 4)) (Z.to_nat ((x - x0) mod 4)) + 4) / 8)).
Proof.
  intros Hw Hbl Hx Hy HW HH p Hp.
  destruct (computes_cells W H x0 y0 (fun '(c, r) => nth (Z.to_nat (w * r + c)) bl []) (cells w)) with (p := p) as (p' & E & S & A); [|apply cells_nodup|exact Hp|].
  { intros c r Hin. apply cells_in in Hin. split; [|lia]. apply Hbl. assert (w * r + c < w * w) by nia. lia. }
  exists p'. split; [exact E|]. split; [exact S|]. intros x y Hi. rewrite (A x y Hi), in_cells_block by exact Hw. reflexivity.
Qed.

Lemma coefs_scaled f b : length (fst b) = 16%nat -> forall i j, (i < 4)%nat -> (j < 4)%nat -> coef (dequant f b) i j = scaled f b (4 * i + j).
Proof. intros L i j Hi Hj. unfold coef. apply dequant_nth; [lia|exact L]. Qed.

Lemma zdivmod4 a : 0 <= a -> Z.to_nat (a mod 4) = (Z.to_nat a mod 4)%nat /\ Z.to_nat (a / 4) = (Z.to_nat a / 4)%nat.
Proof. intros. split; lia. Qed.

Lemma computes_chroma_residue W H q bl x0 y0 : length bl = 4%nat -> Forall (fun b : block => length (fst b) = 16%nat) bl ->
  0 <= x0 -> 0 <= y0 -> x0 + 8 <= W -> y0 + 8 <= H ->
  computes W H x0 y0 8 (chroma_residue q bl x0 y0) (fun p x y => clip (at_px p x y + chroma_res q bl (Z.to_nat (x - x0)) (Z.to_nat (y - y0)))).
Proof.
  intros L F Hx Hy HW HH. unfold chroma_residue.
  eapply computes_ext; [|apply (computes_add_blocks W H 2 x0 y0); try lia].
  2:{ intros k Hk. change (Z.to_nat (2 * 2)) with 4%nat in Hk. apply nth_map_dequant; [lia|exact F]. }
  intros p x y Hp B Hi. unfold blk in B. cbn beta. do 2 f_equal. unfold chroma_res. do 2 f_equal.
  destruct (zdivmod4 (x - x0) ltac:(lia)) as [X1 X2]. destruct (zdivmod4 (y - y0) ltac:(lia)) as [Y1 Y2]. rewrite X1, Y1.
  replace (Z.to_nat (2 * ((y - y0) / 4) + (x - x0) / 4)) with (2 * (Z.to_nat (y - y0) / 4) + Z.to_nat (x - x0) / 4)%nat by lia.
  set (k := (2 * _ + _)%nat). assert (Hk : (k < 4)%nat) by (subst k; lia).
  apply both_ways_ext; [auto|]. intros i j Hi' Hj.
  rewrite (nth_indep _ [] (dequant (uv_factors q) fresh_block)) by (rewrite map_length; lia). rewrite map_nth.
  apply coefs_scaled; try assumption. apply (proj1 (Forall_forall _ _) F), nth_In. lia.
Qed.

Lemma computes_luma_plain W H q m c x0 y0 : shape_ok c -> y2_coded m = false ->
  0 <= x0 -> 0 <= y0 -> x0 + 16 <= W -> y0 + 16 <= H ->
  computes W H x0 y0 16 (add_blocks 4 x0 y0 (map (dequant (y_factors q)) (co_y c)))
    (fun p x y => clip (at_px p x y + luma_residue q m c (Z.to_nat (x - x0)) (Z.to_nat (y - y0)))).
Proof.
  intros (_ & (L & F) & _) HC Hx Hy HW HH.
  eapply computes_ext; [|apply (computes_add_blocks W H 4 x0 y0); try lia].
  2:{ intros k Hk. change (Z.to_nat (4 * 4)) with 16%nat in Hk. apply nth_map_dequant; [lia|exact F]. }
  intros p x y Hp B Hi. unfold blk in B. cbn beta. do 2 f_equal. unfold luma_residue. cbv zeta. do 2 f_equal.
  unfold y2_coded in HC. rewrite HC.
  destruct (zdivmod4 (x - x0) ltac:(lia)) as [X1 X2]. destruct (zdivmod4 (y - y0) ltac:(lia)) as [Y1 Y2]. rewrite X1, Y1.
  replace (Z.to_nat (4 * ((y - y0) / 4) + (x - x0) / 4)) with (4 * (Z.to_nat (y - y0) / 4) + Z.to_nat (x - x0) / 4)%nat by lia.
  set (k := (4 * _ + _)%nat). assert (Hk : (k < 16)%nat) by (subst k; lia).
  apply both_ways_ext; [auto|]. intros i j Hi' Hj. rewrite andb_false_r.
  rewrite (nth_indep _ [] (dequant (y_factors q) fresh_block)) by (rewrite map_length; lia). rewrite map_nth.
  apply coefs_scaled; try assumption. apply (proj1 (Forall_forall _ _) F), nth_In. lia.
Qed.

Lemma computes_walsh W H q m c x0 y0 : shape_ok c -> y2_coded m = true ->
  0 <= x0 -> 0 <= y0 -> x0 + 16 <= W -> y0 + 16 <= H ->
  computes W H x0 y0 16 (apply_walsh q m c x0 y0)
    (fun p x y => clip (at_px p x y + luma_residue q m c (Z.to_nat (x - x0)) (Z.to_nat (y - y0)))).
Proof.
  intros (L2 & (L & F) & _) HC Hx Hy HW HH. unfold apply_walsh. rewrite HC. cbn [negb].
  destruct (dequant_ok (y2_factors q) (co_y2 c) L2) as [D1 D2].
  destruct (C31_iwht _ D1 D2) as (dcs & E & Ld & Fd & V). rewrite E. cbn [obind].
  assert (N : forall k, (k < 16)%nat -> nth k (map (fun '(b, dc) => set_dc (dequant (y_factors q) b) dc) (combine (co_y c) dcs)) [] =
                set_dc (dequant (y_factors q) (nth k (co_y c) fresh_block)) (nth k dcs 0)).
  { intros k Hk. rewrite (nth_map_pair _ (co_y c) dcs k) by lia. reflexivity. }
  assert (B16 : forall k, (k < 16)%nat -> length (fst (nth k (co_y c) fresh_block)) = 16%nat) by (intros; apply (proj1 (Forall_forall _ _) F), nth_In; lia).
  eapply computes_ext; [|apply (computes_add_blocks W H 4 x0 y0); try lia].
  2:{ intros k Hk. change (Z.to_nat (4 * 4)) with 16%nat in Hk. rewrite N by exact Hk.
      destruct (dequant_ok (y_factors q) _ (B16 k Hk)) as [E1 E2].
      assert (I : int16_ok (nth k dcs 0)) by (apply (proj1 (Forall_forall _ _) Fd), nth_In; lia).
      destruct (dequant (y_factors q) (nth k (co_y c) fresh_block)) as [|d0 rest]; [discriminate|]. cbn [set_dc].
      split; [exact E1|]. constructor; [exact I|]. inversion E2; assumption. }
  intros p x y Hp B Hi. unfold blk in B. cbn beta. do 2 f_equal. unfold luma_residue. cbv zeta. do 2 f_equal.
  pose proof HC as HC'. unfold y2_coded in HC'. rewrite HC'.
  destruct (zdivmod4 (x - x0) ltac:(lia)) as [X1 X2]. destruct (zdivmod4 (y - y0) ltac:(lia)) as [Y1 Y2]. rewrite X1, Y1.
  replace (Z.to_nat (4 * ((y - y0) / 4) + (x - x0) / 4)) with (4 * (Z.to_nat (y - y0) / 4) + Z.to_nat (x - x0) / 4)%nat by lia.
  assert (Hr : (Z.to_nat (y - y0) / 4 < 4)%nat) by lia. assert (Hc : (Z.to_nat (x - x0) / 4 < 4)%nat) by lia.
  generalize dependent (Z.to_nat (y - y0) / 4)%nat. intros r _ Hr. generalize dependent (Z.to_nat (x - x0) / 4)%nat. intros k _ Hk.
  apply both_ways_ext; [auto|]. intros i j Hi' Hj. rewrite andb_true_r. unfold coef at 1. rewrite N by lia.
  pose proof (B16 (4 * r + k)%nat ltac:(lia)) as L16.
  destruct (4 * i + j)%nat as [|s] eqn:ES.
  - cbn [Nat.eqb]. assert (exists d0 rest, dequant (y_factors q) (nth (4 * r + k) (co_y c) fresh_block) = d0 :: rest) as (d0 & rest & ->).
    { unfold dequant. destruct (fst (nth (4 * r + k) (co_y c) fresh_block)); [discriminate|]. cbn [dequantize]. eauto. }
    cbn [set_dc nth]. pose proof (V r k Hr Hk) as Q. unfold coef at 1 in Q. rewrite Q. unfold y2_value. f_equal. f_equal. f_equal.
    apply both_ways_ext; [auto|]. intros a b Ha Hb. apply coefs_scaled; assumption.
  - cbn [Nat.eqb]. pose proof (dequant_nth (y_factors q) (nth (4 * r + k) (co_y c) fresh_block) (S s) ltac:(lia) L16) as Q.
    destruct (dequant (y_factors q) (nth (4 * r + k) (co_y c) fresh_block)) as [|d0 rest].
    + cbn [set_dc nth] in *. exact Q.
    + cbn [set_dc nth] in *. exact Q.
Qed.

(** No residue if no coefficient is set. *)
Lemma any_nonzero_false l : any_nonzero l = false -> forall k, nth k l 0 = 0.
Proof.
  intros H k. destruct (Nat.lt_ge_cases k (length l)) as [Hk|Hk]; [|apply nth_overflow; exact Hk].
  destruct (Z.eq_dec (nth k l 0) 0) as [e|e]; [exact e|]. exfalso. unfold any_nonzero in H.
  rewrite <- Bool.not_true_iff_false in H. apply H. apply existsb_exists. exists (nth k l 0). split; [apply nth_In; exact Hk|].
  apply negb_true_iff, Z.eqb_neq. exact e.
Qed.

Definition zero_block (b : block) : Prop := forall k, nth k (fst b) 0 = 0.
Lemma fresh_zero : zero_block fresh_block.
Proof. intros k. do 17 (destruct k as [|k]; [reflexivity|]). destruct k; reflexivity. Qed.

Lemma no_residue m c : coef_ok m c -> has_nonzero m c = false ->
  zero_block (co_y2 c) /\ (forall k, zero_block (nth k (co_y c) fresh_block)) /\
  (forall k, zero_block (nth k (co_u c) fresh_block)) /\ (forall k, zero_block (nth k (co_v c) fresh_block)).
Proof.
  unfold coef_ok, has_nonzero. destruct (skipped m).
  - intros -> _. assert (R : forall n k, zero_block (nth k (repeat fresh_block n) fresh_block)).
    { intros n k. apply Forall_nth_d; [apply Forall_repeat|]; exact fresh_zero. }
    split; [exact fresh_zero|]. repeat split; intros; apply R.
  - intros (A & _ & F1 & _ & F2 & _ & F3) H. cbn [negb andb] in H.
    apply orb_false_iff in H. destruct H as [H H4]. apply orb_false_iff in H. destruct H as [H H3]. apply orb_false_iff in H. destruct H as [H1 H2].
    assert (Q : forall t (l : list block), Forall (block_ok t) l -> existsb snd l = false -> forall k, zero_block (nth k l fresh_block)).
    { intros t l Hl He k. destruct (Nat.lt_ge_cases k (length l)) as [Hk|Hk]; [|rewrite nth_overflow by exact Hk; exact fresh_zero].
      pose proof (nth_In l fresh_block Hk) as Hin. pose proof (proj1 (Forall_forall _ _) Hl _ Hin) as (_ & _ & B & _).
      intros j. apply any_nonzero_false. rewrite <- B. destruct (snd (nth k l fresh_block)) eqn:ES; [|reflexivity].
      exfalso. assert (existsb snd l = true) by (apply existsb_exists; eauto). congruence. }
    split; [|split; [|split]]; try (eapply Q; eassumption).
    destruct (y2_coded m); [|rewrite A; exact fresh_zero]. destruct A as (_ & _ & B & _).
    intros j. apply any_nonzero_false. rewrite <- B. cbn [andb] in H1. exact H1.
Qed.

Lemma scaled_zero f b k : zero_block b -> scaled f b k = 0.
Proof. intros H. unfold scaled. rewrite H. reflexivity. Qed.

Lemma cosine_zero r k (c : nat -> nat -> Z) : (forall i j, (i < 4)%nat -> (j < 4)%nat -> c i j = 0) -> (both_ways cosine c r k + 4) / 8 = 0.
Proof.
  intros H. rewrite (both_ways_ext cosine c (fun _ _ => 0)) by auto. 
  destruct r as [|[|[|r]]]; (destruct k as [|[|[|k]]]; reflexivity).
Qed.

Lemma luma_residue_zero q m c x y : coef_ok m c -> has_nonzero m c = false -> luma_residue q m c x y = 0.
Proof.
  intros HC HN. destruct (no_residue m c HC HN) as (A & B & _). unfold luma_residue. cbv zeta. apply cosine_zero.
  intros i j Hi Hj. destruct (_ && _)%bool.
  - unfold y2_value. rewrite (both_ways_ext hadamard _ (fun _ _ => 0)) by (auto; intros; apply scaled_zero; exact A).
    generalize (y / 4)%nat (x / 4)%nat. intros r k. destruct r as [|[|[|r]]]; (destruct k as [|[|[|k]]]; reflexivity).
  - apply scaled_zero, B.
Qed.
Lemma chroma_res_zero q bl x y : (forall k, zero_block (nth k bl fresh_block)) -> chroma_res q bl x y = 0.
Proof. intros H. unfold chroma_res. cbv zeta. apply cosine_zero. intros. apply scaled_zero, H. Qed.

(** ** Prediction *)

Lemma computes_inter w h size column row v ref : block_size size -> sized w h ref -> mv_int16 v ->
  0 <= column -> 0 <= row -> size * (column + 1) <= w -> size * (row + 1) <= h -> w <= 2 ^ 30 -> h <= 2 ^ 30 ->
  computes w h (size * column) (size * row) size (inter_predict size column row v ref) (fun _ x y => displaced ref (fst v) (snd v) x y).
Proof.
  intros Hs Hr Hm Hc Hrow Hw Hh Bw Bh p Hp. pose proof (sized_dims w h ref p Hr Hp) as D. destruct Hp as (Op & Dw & Dh). destruct Hr as (Or & Rw & Rh).
  destruct (C32_inter_predict size column row v ref p) as (p' & E & O & [D1 D2] & V); try assumption; try lia.
  exists p'. split; [exact E|]. split; [split; [exact O|]; split; congruence|]. exact V.
Qed.

(** Macroblocks: the plane afterwards satisfies the equations, the rest is as
    before. *)
Definition msolves (w h n column row : Z) (f : plane -> option plane) (pred : plane -> Z -> Z -> Z) (res : nat -> nat -> Z) : Prop :=
  forall p, sized w h p -> exists p', f p = Some p' /\ sized w h p' /\
    (forall x y, inside p x y = true -> in_block (n * column) (n * row) n x y = false -> at_px p' x y = at_px p x y) /\
    plane_solves n column row pred res p'.

(** The prediction depends only on the pixels of this and earlier macroblocks. *)
Definition plocal (w h n column row : Z) (pred : plane -> Z -> Z -> Z) : Prop :=
  forall p q, sized w h p -> sized w h q -> ReconProofs.agree (done n (column + 1) row) p q ->
  forall x y, blk (n * column) (n * row) n x y -> pred p x y = pred q x y.

Definition off_block (x0 y0 n : Z) (p q : plane) : Prop := forall x y, inside p x y = true -> in_block x0 y0 n x y = false -> at_px p x y = at_px q x y.

Lemma computes_msolves w h n column row f pred res :
  0 <= column -> 0 <= row -> n * column + n <= w -> n * row + n <= h -> 0 < n ->
  computes w h (n * column) (n * row) n f (fun p x y => clip (pred p x y + res (Z.to_nat (x - n * column)) (Z.to_nat (y - n * row)))) ->
  (forall p q, sized w h p -> sized w h q -> off_block (n * column) (n * row) n p q -> forall x y, blk (n * column) (n * row) n x y -> pred p x y = pred q x y) ->
  msolves w h n column row f pred res.
Proof.
  intros Hc Hr Hw Hh Hn F L p Hp. destruct (F p Hp) as (p' & E & S & A). exists p'. split; [exact E|]. split; [exact S|].
  assert (OFF : off_block (n * column) (n * row) n p p').
  { intros x y Hi B. rewrite (A x y Hi), B. reflexivity. }
  split; [intros x y Hi B; symmetry; apply OFF; assumption|].
  intros x y Bx By. assert (B : blk (n * column) (n * row) n x y) by (split; assumption).
  rewrite A by (apply (inside_sized w h p Hp)||(apply (inside_sized w h p); [exact Hp|nia])).
  rewrite (proj2 (in_block_blk _ _ _ _ _) B). rewrite (L p p' Hp S OFF x y B). reflexivity.
Qed.

(** *** Whole blocks *)
Lemma block_spec_agree w h n column row mode (S : pixels) p q : sized w h p -> sized w h q -> 0 < n ->
  0 <= column -> 0 <= row -> n * (column + 1) <= w -> n * (row + 1) <= h ->
  (forall x y, 0 <= x -> 0 <= y -> (y = n * row - 1 /\ n * column - 1 <= x < n * column + n) \/ (x = n * column - 1 /\ n * row <= y < n * row + n) -> S x y) ->
  ReconProofs.agree S p q -> forall c r, 0 <= c < n -> 0 <= r < n ->
  block_spec n mode p (n * column) (n * row) c r = block_spec n mode q (n * column) (n * row) c r.
Proof.
  intros Hp Hq Hn Hc Hr Hw Hh HS A c r Bc Br.
  apply block_spec_ext; try lia.
  + intros i Hi'. unfold row_above. apply (bordered_agree w h S); try assumption; try lia. intros. apply HS; try assumption. lia.
  + intros i Hi'. unfold col_left. apply (bordered_agree w h S); try assumption; try lia. intros. apply HS; try assumption. lia.
  + apply (bordered_agree w h S); try assumption; try lia. intros. apply HS; try assumption. lia.
Qed.

Lemma off_agree w h x0 y0 n p q (S : pixels) : sized w h p -> (forall x y, S x y -> blk x0 y0 n x y -> False) -> off_block x0 y0 n p q -> ReconProofs.agree S p q.
Proof.
  intros Hp HS O x y Hi Hs. apply O; [exact Hi|]. apply Bool.not_true_iff_false. intros B. apply in_block_blk in B. exact (HS x y Hs B).
Qed.

Lemma computes_intra w h n column row mode : n = 8 \/ n = 16 -> block_mode mode ->
  0 <= column -> 0 <= row -> n * (column + 1) <= w -> n * (row + 1) <= h ->
  computes w h (n * column) (n * row) n (intra_predict n column row mode) (fun p x y => block_spec n mode p (n * column) (n * row) (x - n * column) (y - n * row)).
Proof.
  intros Hn Hm Hc Hr Hw Hh p (Op & Dw & Dh). destruct (C53_block n column row mode p) as (p' & E & O & [D1 D2] & V); try assumption; try lia.
  exists p'. split; [exact E|]. split; [split; [exact O|]; split; congruence|]. exact V.
Qed.

(** *** Sub-blocks *)
Lemma sub_spec_agree w h column row mode (S : pixels) p q : w mod 16 = 0 -> sized w h p -> sized w h q ->
  0 <= column -> 0 <= row -> 4 * (column + 1) <= w -> 4 * (row + 1) <= h ->
  (forall x y, 0 <= x -> 0 <= y -> (y = 4 * row - 1 /\ 4 * column - 1 <= x < 4 * column + 4) \/ (x = 4 * column - 1 /\ 4 * row <= y < 4 * row + 4) \/
     (4 * column + 4 <= x < 4 * column + 8 /\ y = (if column mod 4 =? 3 then row / 4 * 16 else 4 * row) - 1) \/
     (column mod 4 = 3 /\ x = 4 * column + 3 /\ y = row / 4 * 16 - 1) -> S x y) ->
  ReconProofs.agree S p q -> forall c r, 0 <= c < 4 -> 0 <= r < 4 ->
  sub_spec mode p (4 * column) (4 * row) c r = sub_spec mode q (4 * column) (4 * row) c r.
Proof.
  intros Hw16 Hp Hq Hc Hr Hw Hh HS A c r Bc Br. pose proof Hp as (Op & Dw & Dh). pose proof Hq as (Oq & Dw' & Dh').
  apply sub_spec_ext; try lia.
  + intros i Hi'. unfold row_above8. destruct (i <? 4) eqn:?.
    * unfold row_above. apply (bordered_agree w h S); try assumption; try lia. intros. apply HS; try assumption. lia.
    * rewrite Dw, Dw'.
      assert (T : (4 * column mod 16 =? 12) = (column mod 4 =? 3)) by lia. rewrite T.
      assert (R : 4 * row / 16 * 16 = row / 4 * 16) by lia. rewrite R.
      apply (bordered_agree w h S); try assumption; try lia.
      -- destruct (column mod 4 =? 3); lia.
      -- intros. apply HS; try assumption. destruct (Z.le_gt_cases (4 * column + i) (w - 1)) as [Hle|Hgt].
         ++ rewrite Z.min_l by lia. right. right. left. lia.
         ++ rewrite Z.min_r by lia. assert (column mod 4 = 3 /\ w - 1 = 4 * column + 3) as [E1 E2] by lia.
            right. right. right. rewrite E1. cbn [Z.eqb Pos.eqb]. lia.
  + intros i Hi'. unfold col_left. apply (bordered_agree w h S); try assumption; try lia. intros. apply HS; try assumption. lia.
  + apply (bordered_agree w h S); try assumption; try lia. intros. apply HS; try assumption. lia.
Qed.

(** The sub-block (sc, sr) reads only what was decoded before it. *)
Lemma sub_reads w h column row sc sr mode p q : w mod 16 = 0 -> sized w h p -> sized w h q ->
  0 <= column -> 0 <= row -> 16 * (column + 1) <= w -> 16 * (row + 1) <= h -> 0 <= sc < 4 -> 0 <= sr < 4 ->
  ReconProofs.agree (subdone column row (4 * sr + sc)) p q -> forall c r, 0 <= c < 4 -> 0 <= r < 4 ->
  sub_spec mode p (16 * column + 4 * sc) (16 * row + 4 * sr) c r = sub_spec mode q (16 * column + 4 * sc) (16 * row + 4 * sr) c r.
Proof.
  intros Hw16 Hp Hq Hc Hr Hw Hh Hsc Hsr A c r Bc Br.
  replace (16 * column + 4 * sc) with (4 * (4 * column + sc)) by lia. replace (16 * row + 4 * sr) with (4 * (4 * row + sr)) by lia.
  apply (sub_spec_agree w h _ _ _ (subdone column row (4 * sr + sc))); try assumption; try lia.
  intros x y Hx Hy H. unfold subdone, done.
  assert (Dv : (4 * sr + sc) / 4 = sr) by lia. assert (Md : (4 * sr + sc) mod 4 = sc) by lia. rewrite Dv, Md.
  assert (T1 : (4 * column + sc) mod 4 = sc) by lia. assert (T2 : (4 * row + sr) / 4 = row) by lia. rewrite T1, T2 in H. clear T1 T2 Dv Md.
  destruct (sc =? 3) eqn:?; lia.
Qed.

Lemma computes_intra_sub w h column row mode : sub_mode mode -> w mod 16 = 0 ->
  0 <= column -> 0 <= row -> 4 * (column + 1) <= w -> 4 * (row + 1) <= h ->
  computes w h (4 * column) (4 * row) 4 (intra_predict 4 column row mode) (fun p x y => sub_spec mode p (4 * column) (4 * row) (x - 4 * column) (y - 4 * row)).
Proof.
  intros Hm Hw16 Hc Hr Hw Hh p (Op & Dw & Dh). destruct (C53_subblock column row mode p) as (p' & E & O & [D1 D2] & V); try assumption; try lia.
  exists p'. split; [exact E|]. split; [split; [exact O|]; split; congruence|]. exact V.
Qed.

(** Loops that establish one equation per step. *)
Lemma fold_eqs {T A} (f : T -> A -> option T) (Inv : T -> Prop) (Eqn : nat -> T -> Prop) (l : list A) :
  (forall i a t, nth_error l i = Some a -> Inv t -> exists t', f t a = Some t' /\ Inv t' /\ Eqn i t' /\ forall j, (j < i)%nat -> Eqn j t -> Eqn j t') ->
  forall t, Inv t -> exists t', ofold f l t = Some t' /\ Inv t' /\ forall j, (j < length l)%nat -> Eqn j t'.
Proof.
  intros H.
  assert (G : forall l2 l1, l = l1 ++ l2 -> forall t, Inv t -> (forall j, (j < length l1)%nat -> Eqn j t) ->
            exists t', ofold f l2 t = Some t' /\ Inv t' /\ forall j, (j < length l)%nat -> Eqn j t').
  { induction l2 as [|a l2 IH]; intros l1 E t HI HE.
    - rewrite app_nil_r in E. subst l1. exists t. cbn. auto.
    - destruct (H (length l1) a t) as (t1 & E1 & I1 & Q1 & P1); [rewrite E, nth_error_app2, Nat.sub_diag by lia; reflexivity|exact HI|].
      cbn [ofold]. rewrite E1. cbn [obind]. apply (IH (l1 ++ [a])); [rewrite <- app_assoc; exact E|exact I1|].
      intros j Hj. rewrite app_length in Hj. cbn in Hj. destruct (Nat.eq_dec j (length l1)) as [->|]; [exact Q1|]. apply P1; [lia|]. apply HE. lia. }
  intros t HI. apply (G l [] eq_refl t HI). cbn. lia.
Qed.

Section macroblock.
  Variables (w h : Z).
  Hypothesis (Bw : w <= 2 ^ 30) (Bh : h <= 2 ^ 30).

  Definition msolve_local n column row f pred res : Prop := msolves w h n column row f pred res /\ plocal w h n column row pred.

  (** Prediction that reads only finished pixels, followed by a residue. *)
  Lemma finish n column row f pred res : 0 <= column -> 0 <= row -> n * column + n <= w -> n * row + n <= h -> 0 < n ->
    computes w h (n * column) (n * row) n f (fun p x y => clip (pred p x y + res (Z.to_nat (x - n * column)) (Z.to_nat (y - n * row)))) ->
    (forall p q, sized w h p -> sized w h q -> ReconProofs.agree (done n column row) p q -> forall x y, blk (n * column) (n * row) n x y -> pred p x y = pred q x y) ->
    msolve_local n column row f pred res.
  Proof.
    intros Hc Hr Hw Hh Hn F L. split.
    - apply computes_msolves; try assumption. intros p q Hp Hq O x y B. apply L; try assumption.
      apply (off_agree w h (n * column) (n * row) n); try assumption. intros x' y'. unfold done, blk. lia.
    - intros p q Hp Hq A x y B. apply L; try assumption. intros x' y' Hi D. apply A; [exact Hi|]. unfold done in *. lia.
  Qed.

  Lemma with_residue n x0 y0 f g V R nz : computes w h x0 y0 n f V -> computes w h x0 y0 n g (fun p x y => clip (at_px p x y + R x y)) ->
    (nz = false -> forall x y, blk x0 y0 n x y -> R x y = 0) ->
    computes w h x0 y0 n (fun p => let? p := f p in if nz : bool then g p else Some p) (fun p x y => clip (V p x y + R x y)).
  Proof. intros F G Z. destruct nz; [apply computes_add; assumption|apply computes_zero; [exact F|]; apply Z; reflexivity]. Qed.

  Lemma solves_intra_chroma q ref m nz bl column row : length bl = 4%nat -> Forall (fun b : block => length (fst b) = 16%nat) bl ->
    (nz = false -> forall k, zero_block (nth k bl fresh_block)) -> mb_inter m = false ->
    0 <= mb_uvmode m <= 3 -> 0 <= column -> 0 <= row -> 8 * (column + 1) <= w -> 8 * (row + 1) <= h ->
    msolve_local 8 column row (intra_chroma q m nz bl column row) (chroma_prediction ref m column row) (chroma_res q bl).
  Proof.
    intros HL HF HZ HI HU Hc Hr Hw Hh. apply finish; try lia.
    - unfold intra_chroma.
      apply (with_residue 8 (8 * column) (8 * row) (intra_predict 8 column row (mb_uvmode m)) (chroma_residue q bl (8 * column) (8 * row)) (chroma_prediction ref m column row)
               (fun x y => chroma_res q bl (Z.to_nat (x - 8 * column)) (Z.to_nat (y - 8 * row)))).
      + eapply computes_ext; [|apply computes_intra; try lia]; [|unfold block_mode, DC_PRED, V_PRED, H_PRED, TM_PRED; lia].
        intros p x y _ _ _. unfold chroma_prediction. rewrite HI. reflexivity.
      + apply computes_chroma_residue; try assumption; lia.
      + intros E x y _. apply chroma_res_zero. apply HZ, E.
    - intros p q' Hp Hq A x y B. unfold chroma_prediction. rewrite HI. unfold blk in B.
      apply (block_spec_agree w h 8 column row _ (done 8 column row)); try assumption; try lia.
      intros. unfold done. lia.
  Qed.

  Lemma solves_inter_plane n (ref : plane) f pred res column row V nz g :
    0 <= column -> 0 <= row -> n * column + n <= w -> n * row + n <= h -> 0 < n ->
    computes w h (n * column) (n * row) n f (fun _ x y => V x y) ->
    (forall p x y, blk (n * column) (n * row) n x y -> pred p x y = V x y) ->
    computes w h (n * column) (n * row) n g (fun p x y => clip (at_px p x y + res (Z.to_nat (x - n * column)) (Z.to_nat (y - n * row)))) ->
    (nz = false -> forall x y, res x y = 0) ->
    msolve_local n column row (fun p => let? p := f p in if nz : bool then g p else Some p) pred res.
  Proof.
    intros Hc Hr Hw Hh Hn F HV G Z. apply finish; try assumption.
    - eapply computes_ext; [|apply (with_residue n _ _ f g (fun _ x y => V x y) (fun x y => res (Z.to_nat (x - n * column)) (Z.to_nat (y - n * row))) nz F G)].
      + intros p x y _ B _. cbn beta. rewrite (HV p x y B). reflexivity.
      + intros E x y _. apply Z, E.
    - intros p q Hp Hq _ x y B. rewrite !HV by exact B. reflexivity.
  Qed.

  Lemma computes_split wc (x0 y0 column row : Z) (mvat : Z * Z -> mv) ref : sized w h ref -> 0 <= wc ->
    (forall c r, 0 <= c < wc -> 0 <= r < wc -> mv_int16 (mvat (c, r))) ->
    x0 = 4 * column -> y0 = 4 * row -> 0 <= column -> 0 <= row -> x0 + 4 * wc <= w -> y0 + 4 * wc <= h ->
    computes w h x0 y0 (4 * wc) (ofold (fun p '(sc, sr) => inter_predict 4 (column + sc) (row + sr) (mvat (sc, sr)) ref p) (cells wc))
      (fun _ x y => let v := mvat ((x - x0) / 4, (y - y0) / 4) in displaced ref (fst v) (snd v) x y).
  Proof.
    intros Href Hwc HM E1 E2 Hc Hr Hw Hh p Hp.
    destruct (cells_fold w h x0 y0 (fun p '(sc, sr) => inter_predict 4 (column + sc) (row + sr) (mvat (sc, sr)) ref p)
               (fun cr x y _ => displaced ref (fst (mvat cr)) (snd (mvat cr)) x y) (cells wc)) with (p := p) as (p' & E & S & A); [|apply cells_nodup|exact Hp|].
    { intros c r Hin. apply cells_in in Hin. replace (x0 + 4 * c) with (4 * (column + c)) by lia. replace (y0 + 4 * r) with (4 * (row + r)) by lia.
      apply computes_inter; try assumption; try lia; [unfold block_size; lia|apply HM; lia]. }
    exists p'. split; [exact E|]. split; [exact S|]. intros x y Hi. rewrite (A x y Hi), in_cells_block by exact Hwc. reflexivity.
  Qed.

  Lemma eighth_ok s : -32768 <= s <= 32767 -> s16 (if 0 <=? s then Z.shiftr (s + 4) 3 else - Z.shiftr (- s + 4) 3) = eighth s.
  Proof.
    intros H. rewrite !Z.shiftr_div_pow2 by lia. change (2 ^ 3) with 8. unfold eighth, s16. destruct (0 <=? s) eqn:E.
    - rewrite Z.abs_eq by lia. destruct (Z.eq_dec s 0) as [->|]; [reflexivity|]. rewrite Z.sgn_pos by lia. lia.
    - rewrite Z.abs_neq by lia. rewrite Z.sgn_neg by lia. lia.
  Qed.
  Lemma s16_range z : -32768 <= s16 z <= 32767.
  Proof. unfold s16. lia. Qed.
  Lemma chroma_mv_spec m sx sy : chroma_mv m sx sy = chroma_vector m sx sy.
  Proof.
    unfold chroma_mv, chroma_vector, luma_to_chroma. cbv zeta. unfold vector.
    rewrite !eighth_ok by apply s16_range. reflexivity.
  Qed.

  (** One vector for the macroblock, unless it is split. *)
  Definition uniform (m : mbinfo) : Prop := mb_ymode m <> SPLITMV -> exists v, mb_mvs m = repeat v 16.
  Lemma repeat_nth {A} (a d : A) n k : (k < n)%nat -> nth k (repeat a n) d = a.
  Proof. intros H. apply (repeat_spec n). apply nth_In. rewrite repeat_length. exact H. Qed.

  Lemma solves_inter_chroma q ref m nz bl column row : length bl = 4%nat -> Forall (fun b : block => length (fst b) = 16%nat) bl ->
    (nz = false -> forall k, zero_block (nth k bl fresh_block)) -> mb_inter m = true -> uniform m -> sized w h ref ->
    0 <= column -> 0 <= row -> 8 * (column + 1) <= w -> 8 * (row + 1) <= h ->
    msolve_local 8 column row (inter_chroma q m nz bl column row ref) (chroma_prediction ref m column row) (chroma_res q bl).
  Proof.
    intros HL HF HZ HI HUn Href Hc Hr Hw Hh. unfold inter_chroma.
    apply (solves_inter_plane 8 ref (fun p => if mb_ymode m =? SPLITMV then
               ofold (fun p '(sc, sr) => inter_predict 4 (2 * column + sc) (2 * row + sr) (chroma_mv m sc sr) ref p) (cells 2) p
             else inter_predict 8 column row (chroma_mv m 0 0) ref p) _ _ column row
            (fun x y => let v := chroma_vector m ((x - 8 * column) / 4) ((y - 8 * row) / 4) in displaced ref (fst v) (snd v) x y)); try lia.
    - destruct (mb_ymode m =? SPLITMV) eqn:ES.
      + pose proof (computes_split 2 (8 * column) (8 * row) (2 * column) (2 * row) (fun '(c, r) => chroma_mv m c r) ref Href ltac:(lia)
                     ltac:(intros; apply chroma_mv_ok) ltac:(lia) ltac:(lia) ltac:(lia) ltac:(lia) ltac:(lia) ltac:(lia)) as C.
        eapply computes_ext; [|exact C]. intros p x y _ _ _. cbv zeta. cbn beta iota. rewrite chroma_mv_spec. reflexivity.
      + eapply computes_ext; [|apply computes_inter; try assumption; try lia; [unfold block_size; lia|apply chroma_mv_ok]].
        intros p x y _ B _. cbv zeta. unfold blk in B. rewrite chroma_mv_spec.
        destruct (HUn ltac:(lia)) as (v & EV).
        assert (Q : forall sx sy, 0 <= sx < 2 -> 0 <= sy < 2 -> chroma_vector m sx sy = chroma_vector m 0 0).
        { intros sx sy Hx Hy. unfold chroma_vector, vector. cbv zeta. rewrite EV. rewrite !repeat_nth by lia. reflexivity. }
        rewrite (Q ((x - 8 * column) / 4) ((y - 8 * row) / 4)) by lia. reflexivity.
    - intros p x y B. unfold chroma_prediction. rewrite HI. reflexivity.
    - apply computes_chroma_residue; try assumption; lia.
    - intros E x y. apply chroma_res_zero, HZ, E.
  Qed.

  Lemma solves_inter_luma q ref m c column row : coef_ok m c -> mb_inter m = true -> uniform m -> sized w h ref ->
    Forall mv_ok (mb_mvs m) -> length (mb_mvs m) = 16%nat -> mb_ymode m <> B_PRED ->
    0 <= column -> 0 <= row -> 16 * (column + 1) <= w -> 16 * (row + 1) <= h ->
    msolve_local 16 column row (inter_luma q m c column row ref) (luma_prediction ref m column row) (luma_residue q m c).
  Proof.
    intros HC HI HUn Href HM HML HNB Hc Hr Hw Hh. pose proof (coef_ok_shape m c HC) as HS. unfold inter_luma.
    assert (MV : forall k, (k < 16)%nat -> mv_int16 (nth k (mb_mvs m) mv_zero)).
    { intros k Hk. apply (proj1 (Forall_forall _ _) HM). apply nth_In. lia. }
    assert (HZ : has_nonzero m c = false -> forall x y, luma_residue q m c x y = 0) by (intros; apply luma_residue_zero; assumption).
    assert (HP : forall p x y, luma_prediction ref m column row p x y =
              (let v := vector m ((x - 16 * column) / 4) ((y - 16 * row) / 4) in displaced ref (fst v) (snd v) x y)).
    { intros. unfold luma_prediction. rewrite HI. reflexivity. }
    destruct (mb_ymode m =? SPLITMV) eqn:ES.
    - assert (Y2 : y2_coded m = false) by (unfold y2_coded; rewrite ES; rewrite orb_true_r; reflexivity).
      apply (solves_inter_plane 16 ref _ _ _ column row (fun x y => let v := vector m ((x - 16 * column) / 4) ((y - 16 * row) / 4) in displaced ref (fst v) (snd v) x y)); try lia.
      + pose proof (computes_split 4 (16 * column) (16 * row) (4 * column) (4 * row) (fun '(c, r) => nth (Z.to_nat (4 * r + c)) (mb_mvs m) mv_zero) ref Href ltac:(lia)
                     ltac:(intros; apply MV; lia) ltac:(lia) ltac:(lia) ltac:(lia) ltac:(lia) ltac:(lia) ltac:(lia)) as C. exact C.
      + intros p x y _. apply HP.
      + apply computes_luma_plain; try assumption; lia.
      + exact HZ.
    - assert (Y2 : y2_coded m = true) by (unfold y2_coded; rewrite ES; destruct (mb_ymode m =? B_PRED) eqn:?; [lia|reflexivity]).
      apply (solves_inter_plane 16 ref _ _ _ column row (fun x y => let v := vector m ((x - 16 * column) / 4) ((y - 16 * row) / 4) in displaced ref (fst v) (snd v) x y)); try lia.
      + eapply computes_ext; [|apply computes_inter; try assumption; try lia; [unfold block_size; lia|apply MV; lia]].
        intros p x y _ B _. cbv zeta. unfold blk in B. unfold vector, base_mv. destruct (HUn ltac:(lia)) as (v & EV). rewrite EV.
        rewrite !repeat_nth by lia. reflexivity.
      + intros p x y _. apply HP.
      + apply computes_walsh; try assumption; lia.
      + exact HZ.
  Qed.

  (** *** Sub-block prediction *)
  Lemma cells4_inv c r : 0 <= c < 4 -> 0 <= r < 4 -> nth_error (cells 4) (Z.to_nat (4 * r + c)) = Some (c, r).
  Proof.
    intros Hc Hr. assert (c = 0 \/ c = 1 \/ c = 2 \/ c = 3) as [ -> | [ -> | [ -> | -> ]]] by lia;
    (assert (r = 0 \/ r = 1 \/ r = 2 \/ r = 3) as [ -> | [ -> | [ -> | -> ]]] by lia; reflexivity).
  Qed.

  Lemma computes_sub q ref m c column row sc sr : coef_ok m c -> mb_inter m = false -> w mod 16 = 0 ->
    length (mb_bmodes m) = 16%nat -> Forall bmode_ok (mb_bmodes m) -> mb_ymode m = B_PRED ->
    0 <= column -> 0 <= row -> 16 * (column + 1) <= w -> 16 * (row + 1) <= h -> 0 <= sc < 4 -> 0 <= sr < 4 ->
    computes w h (16 * column + 4 * sc) (16 * row + 4 * sr) 4 (intra_sub q m (has_nonzero m c) (co_y c) column row sc sr)
      (fun p x y => clip (luma_prediction ref m column row p x y + luma_residue q m c (Z.to_nat (x - 16 * column)) (Z.to_nat (y - 16 * row)))).
  Proof.
    intros HC HI H16 HBL HB HY Hc Hr Hw Hh Hsc Hsr. unfold intra_sub.
    assert (HK : (Z.to_nat (4 * sr + sc) < 16)%nat) by lia. pose proof (coef_ok_shape m c HC) as (_ & (L & F) & _).
    assert (L16 : length (fst (nth (Z.to_nat (4 * sr + sc)) (co_y c) fresh_block)) = 16%nat) by (apply (proj1 (Forall_forall _ _) F), nth_In; lia).
    apply (with_residue 4 (16 * column + 4 * sc) (16 * row + 4 * sr) (intra_predict 4 (4 * column + sc) (4 * row + sr) (nth (Z.to_nat (4 * sr + sc)) (mb_bmodes m) 0))
             (idct_add (16 * column + 4 * sc) (16 * row + 4 * sr) (dequant (y_factors q) (nth (Z.to_nat (4 * sr + sc)) (co_y c) fresh_block)))
             (luma_prediction ref m column row) (fun x y => luma_residue q m c (Z.to_nat (x - 16 * column)) (Z.to_nat (y - 16 * row)))).
    - replace (16 * column + 4 * sc) with (4 * (4 * column + sc)) by lia. replace (16 * row + 4 * sr) with (4 * (4 * row + sr)) by lia.
      eapply computes_ext; [|apply computes_intra_sub; try assumption; try lia].
      2:{ assert (bmode_ok (nth (Z.to_nat (4 * sr + sc)) (mb_bmodes m) 0)) as BM by (apply (proj1 (Forall_forall _ _) HB), nth_In; lia).
          unfold bmode_ok in BM. unfold sub_mode, B_DC_PRED, B_HU_PRED. lia. }
      intros p x y _ B _. unfold blk in B. unfold luma_prediction. cbv zeta. rewrite HI, HY. cbn [Z.eqb B_PRED Pos.eqb].
      assert (E : (x - 16 * column) / 4 = sc /\ (y - 16 * row) / 4 = sr /\ (x - 16 * column) mod 4 = x - 4 * (4 * column + sc) /\ (y - 16 * row) mod 4 = y - 4 * (4 * row + sr)) by lia.
      destruct E as (-> & -> & -> & ->). f_equal; lia.
    - eapply computes_ext; [|apply computes_idct; try lia; apply dequant_ok; exact L16].
      intros p x y _ B _. unfold blk in B. cbn beta. do 2 f_equal. unfold luma_residue. cbv zeta. rewrite HY. change (B_PRED =? B_PRED) with true. cbn [orb negb].
      do 2 f_equal.
      assert (E : (Z.to_nat (x - 16 * column) / 4)%nat = Z.to_nat sc /\ (Z.to_nat (y - 16 * row) / 4)%nat = Z.to_nat sr /\
                  (Z.to_nat (x - 16 * column) mod 4)%nat = Z.to_nat (x - (16 * column + 4 * sc)) /\ (Z.to_nat (y - 16 * row) mod 4)%nat = Z.to_nat (y - (16 * row + 4 * sr))) by lia.
      destruct E as (-> & -> & -> & ->). replace (4 * Z.to_nat sr + Z.to_nat sc)%nat with (Z.to_nat (4 * sr + sc)) by lia.
      apply both_ways_ext; [auto|]. intros i j Hi Hj. rewrite andb_false_r. apply coefs_scaled; assumption.
    - intros E x y _. apply luma_residue_zero; assumption.
  Qed.

  Lemma pred_sub_local ref m column row sc sr p q : w mod 16 = 0 -> mb_inter m = false -> mb_ymode m = B_PRED ->
    sized w h p -> sized w h q -> 0 <= column -> 0 <= row -> 16 * (column + 1) <= w -> 16 * (row + 1) <= h -> 0 <= sc < 4 -> 0 <= sr < 4 ->
    ReconProofs.agree (subdone column row (4 * sr + sc)) p q -> forall x y, blk (16 * column + 4 * sc) (16 * row + 4 * sr) 4 x y ->
    luma_prediction ref m column row p x y = luma_prediction ref m column row q x y.
  Proof.
    intros H16 HI HY Hp Hq Hc Hr Hw Hh Hsc Hsr A x y B. unfold blk in B. unfold luma_prediction. cbv zeta. rewrite HI, HY. cbn [Z.eqb B_PRED Pos.eqb].
    assert (E : (x - 16 * column) mod 4 = x - (16 * column + 4 * sc) /\ (y - 16 * row) mod 4 = y - (16 * row + 4 * sr)) by lia.
    destruct E as (-> & ->). replace (x - (x - (16 * column + 4 * sc))) with (16 * column + 4 * sc) by lia.
    replace (y - (y - (16 * row + 4 * sr))) with (16 * row + 4 * sr) by lia.
    apply (sub_reads w h); try assumption; lia.
  Qed.

  Lemma solves_intra_luma q ref m c column row : coef_ok m c -> mb_inter m = false -> w mod 16 = 0 ->
    intra_modes_ok (mb_ymode m) (mb_bmodes m) (mb_uvmode m) ->
    0 <= column -> 0 <= row -> 16 * (column + 1) <= w -> 16 * (row + 1) <= h ->
    msolve_local 16 column row (intra_luma q m c column row) (luma_prediction ref m column row) (luma_residue q m c).
  Proof.
    intros HC HI H16 (HY & HU & HB & HB1 & HB2) Hc Hr Hw Hh. pose proof (coef_ok_shape m c HC) as HS. unfold intra_luma.
    destruct (mb_ymode m =? B_PRED) eqn:EB.
    - assert (EB' : mb_ymode m = B_PRED) by lia. specialize (HB1 EB'). clear HB2.
      assert (PL : forall p q', sized w h p -> sized w h q' -> forall sc sr, 0 <= sc < 4 -> 0 <= sr < 4 ->
                ReconProofs.agree (subdone column row (4 * sr + sc)) p q' -> forall x y, blk (16 * column + 4 * sc) (16 * row + 4 * sr) 4 x y ->
                luma_prediction ref m column row p x y = luma_prediction ref m column row q' x y).
      { intros. eapply (pred_sub_local ref m column row sc sr); eauto. }
      split.
      + intros p Hp.
        destruct (fold_eqs (fun p '(sc, sr) => intra_sub q m (has_nonzero m c) (co_y c) column row sc sr p)
                   (fun t => sized w h t /\ forall x y, inside p x y = true -> in_block (16 * column) (16 * row) 16 x y = false -> at_px t x y = at_px p x y)
                   (fun i t => forall x y, blk (16 * column + 4 * (Z.of_nat i mod 4)) (16 * row + 4 * (Z.of_nat i / 4)) 4 x y ->
                      at_px t x y = clip (luma_prediction ref m column row t x y + luma_residue q m c (Z.to_nat (x - 16 * column)) (Z.to_nat (y - 16 * row))))
                   (cells 4)) with (t := p) as (p' & E & (S & A) & Q).
        * intros i [sc sr] t Hi [St At]. apply cells4_nth in Hi. destruct Hi as (Ei & Hsc & Hsr).
          destruct (computes_sub q ref m c column row sc sr HC HI H16 HB HB1 EB' Hc Hr Hw Hh Hsc Hsr t St) as (t' & E & St' & V).
          exists t'. split; [exact E|].
          assert (OFF : off_block (16 * column + 4 * sc) (16 * row + 4 * sr) 4 t t').
          { intros x y Hi B. rewrite (V x y Hi), B. reflexivity. }
          assert (AG : forall k, k <= Z.of_nat i -> 0 <= k -> ReconProofs.agree (subdone column row k) t t').
          { intros k Hk Hk0. apply (off_agree w h (16 * column + 4 * sc) (16 * row + 4 * sr) 4); try assumption.
            intros x y. unfold subdone, done, blk. lia. }
          split; [split; [exact St'|]|split].
          -- intros x y Hi B. rewrite V by (apply (inside_sized w h t); [exact St|]; apply (inside_sized w h p); assumption).
             assert (in_block (16 * column + 4 * sc) (16 * row + 4 * sr) 4 x y = false) as ->; [|apply At; assumption].
             apply Bool.not_true_iff_false. intros B'. apply Bool.not_true_iff_false in B. apply B. apply in_block_blk. apply in_block_blk in B'. unfold blk in *. lia.
          -- assert (D : Z.of_nat i mod 4 = sc /\ Z.of_nat i / 4 = sr) by lia. pose proof D as (-> & ->). intros x y B.
             rewrite V by (apply (inside_sized w h t); [exact St|]; unfold blk in B; lia). rewrite (proj2 (in_block_blk _ _ _ _ _) B).
             rewrite (PL t t' St St' sc sr Hsc Hsr) by (try exact B; apply AG; lia). reflexivity.
          -- intros j Hj Qj x y B.
             assert (BJ : 0 <= Z.of_nat j mod 4 < 4 /\ 0 <= Z.of_nat j / 4 < 4 /\ 4 * (Z.of_nat j / 4) + Z.of_nat j mod 4 = Z.of_nat j) by lia.
             destruct BJ as (B1 & B2 & B3).
             rewrite <- (PL t t' St St' (Z.of_nat j mod 4) (Z.of_nat j / 4) B1 B2) by (try exact B; rewrite B3; apply AG; lia).
             rewrite <- Qj by exact B. symmetry. apply OFF.
             ++ apply (inside_sized w h t); [exact St|]. unfold blk in B. lia.
             ++ apply Bool.not_true_iff_false. intros B'. apply in_block_blk in B'. unfold blk in *. lia.
        * split; [exact Hp|auto].
        * exists p'. split; [exact E|]. split; [exact S|]. split; [exact A|].
          intros x y Bx By. apply (Q (Z.to_nat (4 * ((y - 16 * row) / 4) + (x - 16 * column) / 4))); [change (length (cells 4)) with 16%nat; lia|].
          unfold blk. lia.
      + intros p q' Hp Hq A x y B. unfold blk in B.
        apply (PL p q' Hp Hq ((x - 16 * column) / 4) ((y - 16 * row) / 4)); try lia; [|unfold blk; lia].
        intros x' y' Hi D. apply A; [exact Hi|]. unfold subdone, done in *. lia.
    - assert (NB : mb_ymode m <> B_PRED) by lia. unfold B_PRED in NB.
      assert (Y2 : y2_coded m = true) by (unfold y2_coded, SPLITMV; rewrite EB; destruct (mb_ymode m =? 9) eqn:?; [lia|reflexivity]).
      assert (HP : forall p x y, luma_prediction ref m column row p x y = block_spec 16 (mb_ymode m) p (16 * column) (16 * row) (x - 16 * column) (y - 16 * row)).
      { intros. unfold luma_prediction. rewrite HI, EB. reflexivity. }
      apply finish; try lia.
      + apply (with_residue 16 (16 * column) (16 * row) (intra_predict 16 column row (mb_ymode m)) (apply_walsh q m c (16 * column) (16 * row)) (luma_prediction ref m column row)
               (fun x y => luma_residue q m c (Z.to_nat (x - 16 * column)) (Z.to_nat (y - 16 * row)))).
        * eapply computes_ext; [|apply computes_intra; try lia]; [|unfold block_mode, DC_PRED, V_PRED, H_PRED, TM_PRED; lia].
          intros p x y _ _ _. symmetry. apply HP.
        * apply computes_walsh; try assumption; lia.
        * intros E x y _. apply luma_residue_zero; assumption.
      + intros p q' Hp Hq A x y B. rewrite !HP. unfold blk in B.
        apply (block_spec_agree w h 16 column row _ (done 16 column row)); try assumption; try lia.
        intros. unfold done. lia.
  Qed.
End macroblock.

(** ** Macroblocks *)

Definition mb_good (m : mbinfo) (c : mbcoef) : Prop :=
  coef_ok m c /\
  if mb_inter m then mvs_ok m /\ length (mb_mvs m) = 16%nat /\ mb_ymode m <> B_PRED /\ uniform m
  else intra_modes_ok (mb_ymode m) (mb_bmodes m) (mb_uvmode m).

(** Two pictures that differ at most in one macroblock. *)
Definition off_mb (column row : Z) (r r' : raster) : Prop :=
  off_block (16 * column) (16 * row) 16 (ra_y r) (ra_y r') /\ off_block (8 * column) (8 * row) 8 (ra_u r) (ra_u r') /\
  off_block (8 * column) (8 * row) 8 (ra_v r) (ra_v r').

Definition local_mb (mw mh : Z) (refs : references) (m : mbinfo) (column row : Z) : Prop :=
  plocal (16 * mw) (16 * mh) 16 column row (luma_prediction (ra_y (named refs m)) m column row) /\
  plocal (8 * mw) (8 * mh) 8 column row (chroma_prediction (ra_u (named refs m)) m column row) /\
  plocal (8 * mw) (8 * mh) 8 column row (chroma_prediction (ra_v (named refs m)) m column row).

Lemma named_at mw mh refs m : refs_ok mw mh refs -> mb_inter m = true -> ref_at refs (mb_reference m) = Some (named refs m) /\ raster_ok mw mh (named refs m).
Proof.
  intros (A & B & C) HI. unfold mb_reference, reference, named. rewrite HI.
  destruct (mb_sel1 m) as [[|]|]; [destruct (mb_sel2 m) as [[|]|]| |]; (split; [reflexivity|assumption]).
Qed.

Lemma mb_solves mw mh key q refs m c column row : mw <= 2 ^ 24 -> mh <= 2 ^ 24 -> mb_good m c -> (mb_inter m = true -> refs_ok mw mh refs) ->
  (key = true -> mb_inter m = false) -> 0 <= column < mw -> 0 <= row < mh ->
  (forall r, raster_ok mw mh r -> exists r',
    (if negb key && mb_inter m then reconstruct_inter q refs m c column row r else reconstruct_intra q m c column row r) = Some r' /\
    raster_ok mw mh r' /\ off_mb column row r r' /\ solves q refs m c column row r') /\
  local_mb mw mh refs m column row.
Proof.
  intros Bw Bh [HC HM] HR HK Hc Hr. change (2 ^ 24) with 16777216 in *.
  pose proof (coef_ok_shape m c HC) as (_ & _ & (Lu & Fu) & (Lv & Fv)).
  assert (Z1 : has_nonzero m c = false -> forall k, zero_block (nth k (co_u c) fresh_block)) by (intros E; apply (no_residue m c HC E)).
  assert (Z2 : has_nonzero m c = false -> forall k, zero_block (nth k (co_v c) fresh_block)) by (intros E; apply (no_residue m c HC E)).
  assert (P16w : 16 * mw <= 2 ^ 30) by (change (2 ^ 30) with 1073741824; lia). assert (P16h : 16 * mh <= 2 ^ 30) by (change (2 ^ 30) with 1073741824; lia).
  assert (P8w : 8 * mw <= 2 ^ 30) by (change (2 ^ 30) with 1073741824; lia). assert (P8h : 8 * mh <= 2 ^ 30) by (change (2 ^ 30) with 1073741824; lia).
  destruct (mb_inter m) eqn:EI.
  - destruct HM as (M1 & M2 & M3 & M4). destruct (named_at mw mh refs m (HR eq_refl) EI) as [ER OR].
    assert (key = false) as -> by (destruct key; [discriminate (HK eq_refl)|reflexivity]). cbn [negb andb].
    apply raster_sized in OR. destruct OR as (RY & RU & RV).
    destruct (solves_inter_luma (16 * mw) (16 * mh) P16w P16h q (ra_y (named refs m)) m c column row HC EI M4 RY M1 M2 M3 ltac:(lia) ltac:(lia) ltac:(lia) ltac:(lia)) as [Y1 Y2].
    destruct (solves_inter_chroma (8 * mw) (8 * mh) P8w P8h q (ra_u (named refs m)) m (has_nonzero m c) (co_u c) column row Lu Fu Z1 EI M4 RU ltac:(lia) ltac:(lia) ltac:(lia) ltac:(lia)) as [U1 U2].
    destruct (solves_inter_chroma (8 * mw) (8 * mh) P8w P8h q (ra_v (named refs m)) m (has_nonzero m c) (co_v c) column row Lv Fv Z2 EI M4 RV ltac:(lia) ltac:(lia) ltac:(lia) ltac:(lia)) as [V1 V2].
    split; [|exact (conj Y2 (conj U2 V2))].
    intros r Hrr. apply raster_sized in Hrr. destruct Hrr as (SY & SU & SV).
    destruct (Y1 _ SY) as (y & EY & SY' & AY & QY). destruct (U1 _ SU) as (u & EU & SU' & AU & QU). destruct (V1 _ SV) as (v & EV & SV' & AV & QV).
    unfold reconstruct_inter. rewrite ER. cbn [obind]. rewrite EY, EU, EV. cbn [obind]. eexists. split; [reflexivity|].
    split; [apply raster_sized; cbn; auto|].
    split; [split; [|split]; intros x' y' Hi' B'; symmetry; [apply AY|apply AU|apply AV]; assumption|].
    split; [exact QY|]. split; [exact QU|exact QV].
  - pose proof HM as (_ & HU & _).
    destruct (solves_intra_luma (16 * mw) (16 * mh) q (ra_y (named refs m)) m c column row HC EI ltac:(lia) HM ltac:(lia) ltac:(lia) ltac:(lia) ltac:(lia)) as [Y1 Y2].
    destruct (solves_intra_chroma (8 * mw) (8 * mh) q (ra_u (named refs m)) m (has_nonzero m c) (co_u c) column row Lu Fu Z1 EI HU ltac:(lia) ltac:(lia) ltac:(lia) ltac:(lia)) as [U1 U2].
    destruct (solves_intra_chroma (8 * mw) (8 * mh) q (ra_v (named refs m)) m (has_nonzero m c) (co_v c) column row Lv Fv Z2 EI HU ltac:(lia) ltac:(lia) ltac:(lia) ltac:(lia)) as [V1 V2].
    split; [|exact (conj Y2 (conj U2 V2))].
    intros r Hrr. apply raster_sized in Hrr. destruct Hrr as (SY & SU & SV). rewrite andb_false_r.
    destruct (Y1 _ SY) as (y & EY & SY' & AY & QY). destruct (U1 _ SU) as (u & EU & SU' & AU & QU). destruct (V1 _ SV) as (v & EV & SV' & AV & QV).
    unfold reconstruct_intra. cbv zeta. rewrite EU, EV, EY. cbn [obind]. eexists. split; [reflexivity|].
    split; [apply raster_sized; cbn; auto|].
    split; [split; [|split]; intros x' y' Hi' B'; symmetry; [apply AY|apply AU|apply AV]; assumption|].
    split; [exact QY|]. split; [exact QU|exact QV].
Qed.

(** ** Frames *)

(** The quantiser indices that apply to a macroblock with segment [id]. *)
Definition indices_for (seg : option Segmentation) (qi : QuantIndices) (id : Z) : QuantIndices :=
  match seg with
  | Some s => segment_indices (sg_absolute s) (nth (Z.to_nat id) (sg_quant s) 0) qi
  | None => qi
  end.

Definition picture_good (mw mh : Z) (refs : references) (pc : picture) : Prop :=
  Z.of_nat (pc_W pc) = mw /\ Z.of_nat (length (pc_mbs pc)) = mw * mh /\ 0 < mw <= 2 ^ 24 /\ 0 < mh <= 2 ^ 24 /\ qi_ok (pc_qi pc) /\
  forall i m c id, nth_error (pc_mbs pc) i = Some (m, c, id) ->
    mb_good m c /\ 0 <= id <= 3 /\ (pc_key pc = true -> mb_inter m = false) /\ (mb_inter m = true -> refs_ok mw mh refs).

Lemma omap_nth {A B} (f : A -> option B) l l' : omap f l = Some l' -> forall k a b, nth_error l k = Some a -> nth_error l' k = Some b -> f a = Some b.
Proof.
  revert l'. induction l as [|x l IH]; intros l' E k a b Ha Hb; [destruct k; discriminate|]. cbn [omap] in E.
  destruct (f x) as [y|] eqn:EF; [|discriminate]. cbn [obind] in E. destruct (omap f l) as [t|]; [|discriminate]. cbn [obind] in E. injection E as <-.
  destruct k as [|k]; cbn in *; [congruence|]. eapply IH; eauto.
Qed.
Lemma omap_length {A B} (f : A -> option B) l l' : omap f l = Some l' -> length l' = length l.
Proof.
  revert l'. induction l as [|x l IH]; intros l' E; cbn [omap] in E; [injection E as <-; reflexivity|].
  destruct (f x); [|discriminate]. cbn [obind] in E. destruct (omap f l) as [t|]; [|discriminate]. cbn [obind] in E. injection E as <-. cbn. f_equal. auto.
Qed.

Lemma quantizer_for seg qi : qi_ok qi -> (forall s, seg = Some s -> segmentation_ok s) ->
  exists fq sq, make_quantizer qi = Some fq /\ segment_quantizers seg qi = Some sq /\
    forall id, 0 <= id <= 3 -> exists q, (match seg with Some _ => nth_error sq (Z.to_nat id) | None => Some fq end) = Some q /\
      make_quantizer (indices_for seg qi id) = Some q.
Proof.
  intros HQ HS. destruct (quantizers_exist seg qi HQ HS) as (fq & sq & E1 & E2 & E3). exists fq, sq. split; [exact E1|]. split; [exact E2|].
  intros id Hid. destruct (E3 id Hid) as (q & E). exists q. split; [exact E|]. unfold segment_quantizers in E2. destruct seg as [s|]; cbn [indices_for]; [|congruence].
  destruct (HS s eq_refl) as (L & _ & _).
  apply (omap_nth _ _ _ E2 (Z.to_nat id)); [|exact E]. apply nth_error_nth'. lia.
Qed.

(** What the equations of macroblock j say survives the reconstruction of any
    later macroblock. *)
Lemma plane_keeps w h n ci ri cj rj pred res p p' : 0 < n -> plocal w h n cj rj pred -> sized w h p -> sized w h p' -> off_block (n * ci) (n * ri) n p p' ->
  0 <= cj -> 0 <= rj -> n * (cj + 1) <= w -> n * (rj + 1) <= h -> 0 <= ci -> rj < ri \/ (rj = ri /\ cj < ci) ->
  plane_solves n cj rj pred res p -> plane_solves n cj rj pred res p'.
Proof.
  intros Hn L Sp Sp' O Hcj Hrj Hw Hh Hci Hlt Q x y Bx By. assert (B : blk (n * cj) (n * rj) n x y) by (split; assumption).
  rewrite <- (L p p' Sp Sp') by (try exact B; apply (off_agree w h (n * ci) (n * ri) n); try assumption; intros a b; unfold done, blk; nia).
  rewrite <- (Q x y Bx By). symmetry. apply O.
  - apply (inside_sized w h p); [exact Sp|]. nia.
  - apply Bool.not_true_iff_false. intros B'. apply in_block_blk in B'. unfold blk in B'. nia.
Qed.

Lemma earlier W i j : (0 < W)%nat -> (j < i)%nat -> row_of W j < row_of W i \/ (row_of W j = row_of W i /\ column_of W j < column_of W i).
Proof.
  intros HW Hj. unfold row_of, column_of. pose proof (Nat.div_mod i W ltac:(lia)) as Di. pose proof (Nat.div_mod j W ltac:(lia)) as Dj.
  pose proof (Nat.mod_upper_bound i W ltac:(lia)). pose proof (Nat.mod_upper_bound j W ltac:(lia)).
  generalize dependent (i mod W)%nat. generalize dependent (j mod W)%nat. generalize dependent (i / W)%nat. generalize dependent (j / W)%nat.
  intros a b c Ej Hc d Ei Hd. destruct (Nat.lt_trichotomy a b) as [|[|]]; [lia|subst; lia|exfalso; nia].
Qed.

(** The picture before loop filtering solves the equations of all of its
    macroblocks, whatever the buffer held before. *)
Theorem C55_reconstruction :
  forall seg refs pc mw mh r,
  picture_good mw mh refs pc -> (forall s, seg = Some s -> segmentation_ok s) -> raster_ok mw mh r ->
  exists r', picture_decode seg refs pc r = Some r' /\ raster_ok mw mh r' /\
    forall i m c id, nth_error (pc_mbs pc) i = Some (m, c, id) ->
      exists q, make_quantizer (indices_for seg (pc_qi pc) id) = Some q /\
        solves q refs m c (column_of (pc_W pc) i) (row_of (pc_W pc) i) r'.
Proof.
  intros seg refs pc mw mh r (EW & EL & Bw & Bh & HQ & HM) HS Hr.
  destruct (quantizer_for seg (pc_qi pc) HQ HS) as (fq & sq & E1 & E2 & Eq). unfold picture_decode. rewrite E1, E2. cbn [obind].
  assert (PW : (0 < pc_W pc)%nat) by lia.
  set (step := fun r '(i, (m, c, id)) => _).
  destruct (fold_eqs step (raster_ok mw mh)
    (fun i r' => forall m c id, nth_error (pc_mbs pc) i = Some (m, c, id) ->
       exists q, make_quantizer (indices_for seg (pc_qi pc) id) = Some q /\ solves q refs m c (column_of (pc_W pc) i) (row_of (pc_W pc) i) r')
    (indexed (pc_mbs pc))) with (t := r) as (r' & E & O & Q).
  - intros i [i' [[m c] id]] t Hi Ht. apply indexed_nth in Hi. destruct Hi as [-> Hi].
    destruct (HM i m c id Hi) as (HG & Hid & HK & HR).
    assert (PO : forall j a, nth_error (pc_mbs pc) j = Some a -> 0 <= column_of (pc_W pc) j < mw /\ 0 <= row_of (pc_W pc) j < mh).
    { intros j a Ha. assert (Li : (j < length (pc_mbs pc))%nat) by (apply nth_error_Some; congruence). exact (position_ok mw mh (pc_W pc) _ j EW ltac:(lia) EL Li). }
    destruct (PO i _ Hi) as [Hc Hrow]. destruct (Eq id Hid) as (q & Eq1 & Eq2).
    destruct (mb_solves mw mh (pc_key pc) q refs m c (column_of (pc_W pc) i) (row_of (pc_W pc) i) ltac:(lia) ltac:(lia) HG HR HK Hc Hrow) as [ST _].
    destruct (ST t Ht) as (t' & ET & OT & OFF & SV). exists t'. unfold step. rewrite Eq1. cbn [obind]. split; [exact ET|]. split; [exact OT|]. split.
    + intros m' c' id' Hi'. rewrite Hi in Hi'. injection Hi' as <- <- <-. eauto.
    + intros j Hj Qj m' c' id' Hj'. destruct (Qj m' c' id' Hj') as (q' & Eq' & SJ). exists q'. split; [exact Eq'|].
      destruct (HM j m' c' id' Hj') as (HGj & Hidj & HKj & HRj). destruct (PO j _ Hj') as [Hcj Hrj].
      destruct (mb_solves mw mh (pc_key pc) q' refs m' c' (column_of (pc_W pc) j) (row_of (pc_W pc) j) ltac:(lia) ltac:(lia) HGj HRj HKj Hcj Hrj) as [_ (LY & LU & LV)].
      pose proof (earlier (pc_W pc) i j PW Hj) as LT.
      apply raster_sized in Ht. apply raster_sized in OT. destruct Ht as (SY & SU & SV1). destruct OT as (SY' & SU' & SV').
      destruct OFF as (OY & OU & OV). destruct SJ as (JY & JU & JV).
      split; [|split].
      * apply (plane_keeps (16 * mw) (16 * mh) 16 (column_of (pc_W pc) i) (row_of (pc_W pc) i) _ _ _ _ (ra_y t)); try assumption; lia.
      * apply (plane_keeps (8 * mw) (8 * mh) 8 (column_of (pc_W pc) i) (row_of (pc_W pc) i) _ _ _ _ (ra_u t)); try assumption; lia.
      * apply (plane_keeps (8 * mw) (8 * mh) 8 (column_of (pc_W pc) i) (row_of (pc_W pc) i) _ _ _ _ (ra_v t)); try assumption; lia.
  - exact Hr.
  - exists r'. split; [exact E|]. split; [exact O|]. intros i m c id Hi. apply (Q i); [|exact Hi].
    unfold indexed. rewrite combine_length, seq_length, Nat.min_id. apply nth_error_Some. congruence.
Qed.

Lemma combine3_nth {A B C} (ms : list A) (cs : list B) (ids : list C) i m c id : nth_error (combine (combine ms cs) ids) i = Some (m, c, id) ->
  nth_error ms i = Some m /\ nth_error cs i = Some c /\ nth_error ids i = Some id.
Proof. intros H. apply combine_nth_error in H. destruct H as [H H3]. apply combine_nth_error in H. tauto. Qed.

Lemma combine3_nth' {A B C} (ms : list A) (cs : list B) (ids : list C) i m c id :
  nth_error ms i = Some m -> nth_error cs i = Some c -> nth_error ids i = Some id -> nth_error (combine (combine ms cs) ids) i = Some (m, c, id).
Proof. revert cs ids i. induction ms as [|a ms IH]; intros [|b cs] [|d ids] [|i] H1 H2 H3; cbn in *; try discriminate; [congruence|]. apply IH; assumption. Qed.

Theorem C55_key_frame :
  forall w h u hd ms cs ids seg refs r,
  0 < w <= 16383 -> 0 < h <= 16383 ->
  key_frame_parse w h u = Ok (hd, ms, cs) -> length ids = length ms -> ids_ok ids ->
  (forall s, seg = Some s -> segmentation_ok s) -> raster_ok (Z.of_nat (mb_dim w)) (Z.of_nat (mb_dim h)) r ->
  exists r', picture_decode seg refs (key_picture (mb_dim w) hd ms cs ids) r = Some r' /\ raster_ok (Z.of_nat (mb_dim w)) (Z.of_nat (mb_dim h)) r' /\
    forall i m c id, nth_error ms i = Some m -> nth_error cs i = Some c -> nth_error ids i = Some id ->
      exists q, make_quantizer (indices_for seg (kf_quant_indices hd) id) = Some q /\
        solves q refs m c (column_of (mb_dim w) i) (row_of (mb_dim w) i) r'.
Proof.
  intros w h u hd ms cs ids seg refs r Hw Hh HP HL HI HS Hr.
  destruct (C11_parsed_key_frame_is_serialisable w h u hd ms cs ltac:(lia) HP) as (K & SU & LM & FM & (LC & FC)).
  destruct (C55_reconstruction seg refs (key_picture (mb_dim w) hd ms cs ids) (Z.of_nat (mb_dim w)) (Z.of_nat (mb_dim h)) r) as (r' & E & O & Q); try assumption.
  - unfold picture_good. cbn [pc_W pc_mbs pc_qi pc_key key_picture].
    split; [reflexivity|]. split; [rewrite !combine_length, LC, HL, LM; lia|]. split; [apply dims_ok, Hw|]. split; [apply dims_ok, Hh|].
    split; [apply (kfo_qi hd K)|]. intros i m c id Hi. apply combine3_nth in Hi. destruct Hi as (Hm & Hc & Hid).
    pose proof (proj1 (Forall_forall _ _) FM m (nth_error_In _ _ Hm)) as (_ & _ & EI & _ & _ & _ & _ & _ & IM).
    split; [split; [exact (FC i m c Hm Hc)|rewrite EI; exact IM]|]. split; [exact (proj1 (Forall_forall _ _) HI id (nth_error_In _ _ Hid))|].
    split; [intros; exact EI|]. congruence.
  - exists r'. split; [exact E|]. split; [exact O|]. intros i m c id Hm Hc Hid. exact (Q i m c id (combine3_nth' _ _ _ _ _ _ _ Hm Hc Hid)).
Qed.

Theorem C55_inter_frame :
  forall pt w h u hd ms cs ids seg refs r,
  0 < w <= 16383 -> 0 < h <= 16383 ->
  inter_frame_parse pt w h u = Ok (hd, ms, cs) -> length ids = length ms -> ids_ok ids ->
  (forall s, seg = Some s -> segmentation_ok s) -> refs_ok (Z.of_nat (mb_dim w)) (Z.of_nat (mb_dim h)) refs ->
  raster_ok (Z.of_nat (mb_dim w)) (Z.of_nat (mb_dim h)) r ->
  exists r', picture_decode seg refs (inter_picture (mb_dim w) hd ms cs ids) r = Some r' /\ raster_ok (Z.of_nat (mb_dim w)) (Z.of_nat (mb_dim h)) r' /\
    forall i m c id, nth_error ms i = Some m -> nth_error cs i = Some c -> nth_error ids i = Some id ->
      exists q, make_quantizer (indices_for seg (if_quant_indices hd) id) = Some q /\
        solves q refs m c (column_of (mb_dim w) i) (row_of (mb_dim w) i) r'.
Proof.
  intros pt w h u hd ms cs ids seg refs r Hw Hh HP HL HI HS HR Hr.
  destruct (C11_parsed_inter_frame_is_serialisable pt w h u hd ms cs ltac:(lia) HP) as (K & SU & LM & FM & (LC & FC)).
  destruct (C55_reconstruction seg refs (inter_picture (mb_dim w) hd ms cs ids) (Z.of_nat (mb_dim w)) (Z.of_nat (mb_dim h)) r) as (r' & E & O & Q); try assumption.
  - unfold picture_good. cbn [pc_W pc_mbs pc_qi pc_key inter_picture].
    split; [reflexivity|]. split; [rewrite !combine_length, LC, HL, LM; lia|]. split; [apply dims_ok, Hw|]. split; [apply dims_ok, Hh|].
    split; [apply (ifo_qi hd K)|]. intros i m c id Hi. apply combine3_nth in Hi. destruct Hi as (Hm & Hc & Hid).
    split; [|split; [exact (proj1 (Forall_forall _ _) HI id (nth_error_In _ _ Hid))|split; [discriminate|intros _; exact HR]]].
    split; [exact (FC i m c Hm Hc)|]. destruct (FM i m Hm) as (_ & _ & _ & HMB).
    destruct (mb_inter m) eqn:EI; [|apply HMB].
    destruct (parsed_mvs_ok hd (mb_dim w) (mb_dim h) ms ltac:(unfold mb_dim; lia) FM i m Hm) as [M1 M2].
    split; [exact M1|]. split; [exact M2|]. destruct HMB as [_ HMB]. unfold inter_modes_ok in HMB. cbv zeta in HMB.
    destruct HMB as [[E (_ & _ & EV)]|[[E (_ & _ & EV)]|[[E (_ & _ & EV)]|[[E (v & (_ & _ & EV) & _)]|[E _]]]]];
      (split; [rewrite E; discriminate|]); unfold uniform; intros NS; [eexists; exact EV|eexists; exact EV|eexists; exact EV|eexists; exact EV|congruence].
  - exists r'. split; [exact E|]. split; [exact O|]. intros i m c id Hm Hc Hid. exact (Q i m c id (combine3_nth' _ _ _ _ _ _ _ Hm Hc Hid)).
Qed.

(** The sum of the four luma vectors is exact for vectors of up to 8191
    quarter pixels; beyond that it overflows 16 bits and the chroma prediction
    reads from the wrong side (macroblock.cc l.289-299). *)
Definition small_vectors (m : mbinfo) : Prop := forall sx sy, -8191 <= fst (vector m sx sy) <= 8191 /\ -8191 <= snd (vector m sx sy) <= 8191.
Definition exact_chroma_vector (m : mbinfo) (sx sy : Z) : mv :=
  let sum f := f (vector m (2 * sx) (2 * sy)) + f (vector m (2 * sx + 1) (2 * sy)) + f (vector m (2 * sx) (2 * sy + 1)) + f (vector m (2 * sx + 1) (2 * sy + 1)) in
  (eighth (sum fst), eighth (sum snd)).
Theorem C55_chroma_vector_exact : forall m sx sy, small_vectors m -> chroma_vector m sx sy = exact_chroma_vector m sx sy.
Proof.
  intros m sx sy H. unfold chroma_vector, exact_chroma_vector. cbv zeta.
  pose proof (H (2 * sx) (2 * sy)). pose proof (H (2 * sx + 1) (2 * sy)). pose proof (H (2 * sx) (2 * sy + 1)). pose proof (H (2 * sx + 1) (2 * sy + 1)).
  f_equal; f_equal; unfold s16; lia.
Qed.
Definition far_mb : mbinfo := mkMB None None true (Some false) None false None NEWMV (repeat 0 16) (repeat (9000, 0) 16) 0.
Theorem C55_chroma_vector_exact_refuted : ~ (forall m sx sy, mvs_ok m -> chroma_vector m sx sy = exact_chroma_vector m sx sy).
Proof.
  intros H. assert (mvs_ok far_mb) as V by (apply Forall_repeat; unfold mv_ok; cbn; lia).
  specialize (H far_mb 0 0 V). vm_compute in H. discriminate H.
Qed.

(** ** Examples: the frames of PropFrame.v *)
Definition parsed_of (bytes : option (list Z)) : option uchunk :=
  match bytes with
  | Some b => match uncompressed_chunk (chunk_of b) 40 20 false with Ok u => Some u | Err _ => None end
  | None => None
  end.
Definition example_refs : references := mkRefs (noise_raster 1) (noise_raster 2) (noise_raster 3).

Definition plane_solvesb (n column row : Z) (pred : plane -> Z -> Z -> Z) (res : nat -> nat -> Z) (p : plane) : bool :=
  forallb (fun x => forallb (fun y => at_px p (n * column + Z.of_nat x) (n * row + Z.of_nat y) =?
    clip (pred p (n * column + Z.of_nat x) (n * row + Z.of_nat y) + res x y)) (seq 0 (Z.to_nat n))) (seq 0 (Z.to_nat n)).
Definition solvesb (q : Quantizer) (refs : references) (m : mbinfo) (c : mbcoef) (column row : Z) (r : raster) : bool :=
  plane_solvesb 16 column row (luma_prediction (ra_y (named refs m)) m column row) (luma_residue q m c) (ra_y r) &&
  plane_solvesb 8 column row (chroma_prediction (ra_u (named refs m)) m column row) (chroma_res q (co_u c)) (ra_u r) &&
  plane_solvesb 8 column row (chroma_prediction (ra_v (named refs m)) m column row) (chroma_res q (co_v c)) (ra_v r).
Definition solved (pc : picture) (r : raster) : list bool :=
  map (fun '(i, (m, c, id)) => match make_quantizer (indices_for (Some example_seg) (pc_qi pc) id) with
                               | Some q => solvesb q example_refs m c (column_of (pc_W pc) i) (row_of (pc_W pc) i) r
                               | None => false
                               end) (indexed (pc_mbs pc)).
Definition example_decoded (pc : picture) : raster :=
  match picture_decode (Some example_seg) example_refs pc (noise_raster 7) with Some r => r | None => noise_raster 7 end.
Definition example_key_pc : picture := key_picture 3 example_kf_hd example_kf_ms example_kf_cs example_ids.
Definition example_inter_pc : picture := inter_picture 3 example_if_hd example_if_ms example_if_cs example_ids.

(** The equations hold on the decoded pictures, in which all kinds of
    macroblock occur, and fail on the buffer that was there before. *)
Example C55_key_example :
  (exists u, parsed_of (key_frame_serialize default_pt true 40 20 example_kf_hd example_kf_ms example_kf_cs) = Some u /\
     (let! (hd, ms, cs) := key_frame_parse 40 20 u in Ok (hd, ms, cs)) = Ok (example_kf_hd, example_kf_ms, example_kf_cs)) /\
  solved example_key_pc (example_decoded example_key_pc) = repeat true 6 /\
  solved example_key_pc (noise_raster 7) = repeat false 6.
Proof.
  split; [|split; vm_compute; reflexivity].
  eexists. split; [vm_compute; reflexivity|]. vm_compute. reflexivity.
Qed.
Example C55_inter_example :
  solved example_inter_pc (example_decoded example_inter_pc) = repeat true 6 /\
  solved example_inter_pc (noise_raster 7) = repeat false 6 /\
  map (fun m => (mb_inter m, mb_ymode m)) example_if_ms =
    [(true, SPLITMV); (true, ZEROMV); (true, ZEROMV); (false, V_PRED); (true, ZEROMV); (false, DC_PRED)].
Proof. split; [vm_compute; reflexivity|]. split; [vm_compute; reflexivity|]. vm_compute. reflexivity. Qed.

Print Assumptions C55_reconstruction.
Print Assumptions C55_key_frame.
Print Assumptions C55_inter_frame.
Print Assumptions C55_chroma_vector_exact.
Print Assumptions C55_chroma_vector_exact_refuted.
