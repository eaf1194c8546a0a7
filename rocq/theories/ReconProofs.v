(** Reconstruction: every step is defined, keeps planes well formed and gives
    results that depend only on pixels that have been decoded. *)
From Verif Require Import Base TreeModel HeaderModel HeaderProofs MVModel MBModel MBProofs MBDecoded FrameModel FrameProofs QuantModel RasterModel TransformModel PredictModel LoopFilterModel ReconModel.
From Verif Require Import TokenModel TokenProofs RasterProofs PropQuant PropTransform PredictProofs PropInter PropIntra PropLoopFilter.

(** Two planes agree on a set of pixels. *)
Definition pixels : Type := Z -> Z -> Prop.
Definition agree (S : pixels) (p q : plane) : Prop :=
  forall x y, inside p x y = true -> S x y -> at_px p x y = at_px q x y.

Definition sized (w h : Z) (p : plane) : Prop := plane_ok p /\ pl_w p = w /\ pl_h p = h.
Lemma sized_dims w h p q : sized w h p -> sized w h q -> same_dims p q.
Proof. intros (_ & A & B) (_ & C & D). split; congruence. Qed.

(** Planes that agree on S become planes that agree on S'. *)
Definition det (w h : Z) (S S' : pixels) (f : plane -> option plane) : Prop :=
  forall p q, sized w h p -> sized w h q -> agree S p q ->
  exists p' q', f p = Some p' /\ f q = Some q' /\ sized w h p' /\ sized w h q' /\ agree S' p' q'.

Lemma det_bind w h S1 S2 S3 f g : det w h S1 S2 f -> det w h S2 S3 g -> det w h S1 S3 (fun p => let? p' := f p in g p').
Proof.
  intros F G p q Hp Hq A. destruct (F p q Hp Hq A) as (p1 & q1 & E1 & E2 & P1 & Q1 & A1). rewrite E1, E2. cbn [obind]. exact (G p1 q1 P1 Q1 A1).
Qed.
Lemma det_ret w h S : det w h S S Some.
Proof. intros p q Hp Hq A. exists p, q. auto. Qed.
Lemma agree_impl w h (S T : pixels) p q : sized w h p -> (forall x y, 0 <= x < w -> 0 <= y < h -> T x y -> S x y) -> agree S p q -> agree T p q.
Proof. intros (_ & Dw & Dh) H A x y Hi Ht. apply A; [exact Hi|]. apply inside_iff in Hi. apply H; [lia|lia|exact Ht]. Qed.
Lemma det_weaken w h (S S' T T' : pixels) f : (forall x y, 0 <= x < w -> 0 <= y < h -> S x y -> T x y) -> (forall x y, 0 <= x < w -> 0 <= y < h -> T' x y -> S' x y) ->
  det w h S S' f -> det w h T T' f.
Proof.
  intros H1 H2 F p q Hp Hq A. destruct (F p q Hp Hq (agree_impl w h T S p q Hp H1 A)) as (p' & q' & E1 & E2 & P & Q & A').
  exists p', q'. repeat (split; [assumption|]). exact (agree_impl w h S' T' p' q' P H2 A').
Qed.
Lemma det_ext w h S S' f g : (forall p, f p = g p) -> det w h S S' f -> det w h S S' g.
Proof. intros E F p q Hp Hq A. rewrite <- !E. exact (F p q Hp Hq A). Qed.

(** Loops. *)
Lemma det_ofold {A} w h (f : plane -> A -> option plane) (S : nat -> pixels) (l : list A) : forall k,
  (forall i a, nth_error l i = Some a -> det w h (S (k + i)%nat) (S (k + i + 1)%nat) (fun p => f p a)) ->
  det w h (S k) (S (k + length l)%nat) (fun p => ofold f l p).
Proof.
  induction l as [|a l IH]; intros k H.
  - cbn [ofold length]. rewrite Nat.add_0_r. apply det_ret.
  - cbn [ofold length]. apply (det_bind w h _ (S (k + 1)%nat)).
    + specialize (H 0%nat a eq_refl). rewrite Nat.add_0_r in H. exact H.
    + replace (k + Datatypes.S (length l))%nat with ((k + 1) + length l)%nat by lia. apply IH.
      intros i b Hb. specialize (H (Datatypes.S i) b Hb). replace (k + 1 + i)%nat with (k + Datatypes.S i)%nat by lia. exact H.
Qed.

Definition blk (x0 y0 n : Z) : pixels := fun x y => x0 <= x < x0 + n /\ y0 <= y < y0 + n.
Definition both (S T : pixels) : pixels := fun x y => S x y \/ T x y.

Lemma in_block_blk x0 y0 n x y : in_block x0 y0 n x y = true <-> blk x0 y0 n x y.
Proof. unfold in_block, blk. lia. Qed.

(** A step whose result is given by a formula for a block. *)
Lemma det_block w h x0 y0 n (S : pixels) f (G : plane -> Z -> Z -> Z) :
  (forall p, sized w h p -> exists p', f p = Some p' /\ plane_ok p' /\ same_dims p' p /\
     forall x y, inside p x y = true -> at_px p' x y = if in_block x0 y0 n x y then G p x y else at_px p x y) ->
  (forall p q x y, sized w h p -> sized w h q -> agree S p q -> inside p x y = true -> blk x0 y0 n x y -> G p x y = G q x y) ->
  det w h S (both S (blk x0 y0 n)) f.
Proof.
  intros F HG p q Hp Hq A. destruct (F p Hp) as (p' & E1 & O1 & D1 & V1). destruct (F q Hq) as (q' & E2 & O2 & D2 & V2).
  exists p', q'. split; [exact E1|]. split; [exact E2|].
  assert (Sp : sized w h p') by (destruct Hp as (_ & ? & ?), D1; split; [exact O1|]; split; congruence).
  assert (Sq : sized w h q') by (destruct Hq as (_ & ? & ?), D2; split; [exact O2|]; split; congruence).
  split; [exact Sp|]. split; [exact Sq|].
  intros x y Hi HS. rewrite (inside_dims p' p x y D1) in Hi. rewrite V1 by exact Hi.
  rewrite V2 by (rewrite (inside_dims q p x y (sized_dims w h q p Hq Hp)); exact Hi).
  destruct (in_block x0 y0 n x y) eqn:B.
  - apply HG; try assumption. apply in_block_blk, B.
  - apply A; [exact Hi|]. destruct HS as [HS|HS]; [exact HS|]. apply in_block_blk in HS. congruence.
Qed.

(** ** Inter prediction *)
Lemma det_inter w h size column row m ref S : block_size size -> sized w h ref -> mv_int16 m ->
  0 <= column -> 0 <= row -> size * (column + 1) <= w -> size * (row + 1) <= h -> w <= 2 ^ 30 -> h <= 2 ^ 30 ->
  det w h S (both S (blk (size * column) (size * row) size)) (inter_predict size column row m ref).
Proof.
  intros Hs Hr Hm Hc Hrow Hw Hh Bw Bh. apply (det_block w h _ _ _ S _ (fun _ x y => displaced ref (fst m) (snd m) x y)).
  - intros p Hp. pose proof (sized_dims w h ref p Hr Hp) as D. destruct Hp as (Op & Dw & Dh). destruct Hr as (Or & Rw & Rh).
    apply C32_inter_predict; try assumption; lia.
  - reflexivity.
Qed.

(** ** Residue *)
Lemma det_idct w h x0 y0 c (S : pixels) : length c = 16%nat -> Forall int16_ok c ->
  0 <= x0 -> 0 <= y0 -> x0 + 4 <= w -> y0 + 4 <= h -> (forall x y, blk x0 y0 4 x y -> S x y) ->
  det w h S S (idct_add x0 y0 c).
Proof.
  intros Hl Hc Hx Hy Hw Hh HS.
  apply (det_weaken w h S (both S (blk x0 y0 4))); [auto|unfold both; auto|].
  apply (det_block w h x0 y0 4 S _ (fun p x y => Z.max 0 (Z.min 255 (at_px p x y + (both_ways cosine (coef c) (Z.to_nat (y - y0)) (Z.to_nat (x - x0)) + 4) / 8)))).
  - intros p (Op & Dw & Dh). destruct (C31_idct_add p x0 y0 c Op Hl Hc Hx Hy ltac:(lia) ltac:(lia)) as (p' & E & O' & D' & V).
    exists p'. split; [exact E|]. split; [exact O'|]. split; [exact D'|]. intros x y Hi. rewrite (V x y Hi). unfold in_block. reflexivity.
  - intros p q x y Hp Hq A Hi B. rewrite (A x y Hi (HS x y B)). reflexivity.
Qed.

Definition coefs16 (c : list Z) : Prop := length c = 16%nat /\ Forall int16_ok c.

Lemma cells_nth w i c r : nth_error (cells w) i = Some (c, r) -> 0 <= c < w /\ 0 <= r < w.
Proof. intros H. apply nth_error_In in H. apply cells_in in H. exact H. Qed.

Lemma det_add_blocks W H w x0 y0 bl (S : pixels) : 0 <= w -> (forall k, (k < Z.to_nat (w * w))%nat -> coefs16 (nth k bl [])) ->
  0 <= x0 -> 0 <= y0 -> x0 + 4 * w <= W -> y0 + 4 * w <= H -> (forall x y, blk x0 y0 (4 * w) x y -> S x y) ->
  det W H S S (add_blocks w x0 y0 bl).
Proof.
  intros Hw Hbl Hx Hy HW HH HS. unfold add_blocks.
  apply (det_ofold W H (fun p '(c, r) => idct_add (x0 + 4 * c) (y0 + 4 * r) (nth (Z.to_nat (w * r + c)) bl []) p) (fun _ => S) (cells w) 0).
  intros i [c r] Hi. apply cells_nth in Hi. destruct Hi as [Hc Hr].
  assert (w * r + c < w * w) by nia.
  destruct (Hbl (Z.to_nat (w * r + c))) as [L F]; [lia|].
  apply det_idct; try assumption; try lia. intros x y B. apply HS. unfold blk in *. lia.
Qed.

Lemma dequant_ok f b : length (fst b) = 16%nat -> coefs16 (dequant f b).
Proof.
  intros H. unfold dequant, coefs16. split.
  - destruct (fst b); [discriminate|]. cbn [dequantize length] in *. rewrite map_length. exact H.
  - destruct (C30_dequantize (fst f) (snd f) (fst b) H) as [F _]. exact F.
Qed.

(** What reconstruction needs of the coefficients. *)
Definition shape_ok (c : mbcoef) : Prop :=
  length (fst (co_y2 c)) = 16%nat /\
  (length (co_y c) = 16%nat /\ Forall (fun b : block => length (fst b) = 16%nat) (co_y c)) /\
  (length (co_u c) = 4%nat /\ Forall (fun b : block => length (fst b) = 16%nat) (co_u c)) /\
  (length (co_v c) = 4%nat /\ Forall (fun b : block => length (fst b) = 16%nat) (co_v c)).

Lemma coef_ok_shape m c : coef_ok m c -> shape_ok c.
Proof.
  unfold coef_ok, shape_ok. assert (B : forall t l, Forall (block_ok t) l -> Forall (fun b : block => length (fst b) = 16%nat) l).
  { intros t l. apply Forall_impl. intros b Hb. apply Hb. }
  destruct (skipped m).
  - intros ->. cbn. repeat split; repeat constructor.
  - intros (A & L1 & F1 & L2 & F2 & L3 & F3). split; [destruct (y2_coded m); [apply A|rewrite A; reflexivity]|].
    repeat split; eauto.
Qed.

Lemma nth_map_dequant f (l : list block) k : (k < length l)%nat -> Forall (fun b : block => length (fst b) = 16%nat) l ->
  coefs16 (nth k (map (dequant f) l) []).
Proof.
  intros Hk F. rewrite (nth_indep _ [] (dequant f fresh_block)) by (rewrite map_length; exact Hk). rewrite map_nth.
  apply dequant_ok. apply (proj1 (Forall_forall _ _) F), nth_In, Hk.
Qed.

Lemma nth_map_pair (f : block * Z -> list Z) (l : list block) (l' : list Z) k : (k < length l)%nat -> length l = length l' ->
  nth k (map f (combine l l')) [] = f (nth k l fresh_block, nth k l' 0).
Proof.
  intros Hk E. rewrite (nth_indep _ [] (f (fresh_block, 0))) by (rewrite map_length, combine_length; lia).
  rewrite map_nth, combine_nth by exact E. reflexivity.
Qed.

Lemma det_walsh W H q m c x0 y0 (S : pixels) : shape_ok c -> y2_coded m = true ->
  0 <= x0 -> 0 <= y0 -> x0 + 16 <= W -> y0 + 16 <= H -> (forall x y, blk x0 y0 16 x y -> S x y) ->
  det W H S S (apply_walsh q m c x0 y0).
Proof.
  intros (L2 & (Ly & Fy) & _) Hc Hx Hy HW HH HS. unfold apply_walsh. rewrite Hc. cbn [negb].
  destruct (dequant_ok (y2_factors q) (co_y2 c) L2) as [D1 D2].
  destruct (C31_iwht _ D1 D2) as (dcs & E & Ld & Fd & _). rewrite E. cbn [obind].
  apply det_add_blocks; try assumption; try lia.
  intros k Hk. change (Z.to_nat (4 * 4)) with 16%nat in Hk.
  rewrite (nth_map_pair _ (co_y c) dcs k) by lia.
  destruct (dequant_ok (y_factors q) (nth k (co_y c) fresh_block)) as [E1 E2].
  { apply (proj1 (Forall_forall _ _) Fy), nth_In. lia. }
  assert (I : int16_ok (nth k dcs 0)) by (apply (proj1 (Forall_forall _ _) Fd), nth_In; lia).
  destruct (dequant (y_factors q) (nth k (co_y c) fresh_block)) as [|d0 rest]; [discriminate|]. cbn [set_dc].
  split; [exact E1|]. constructor; [exact I|]. inversion E2; assumption.
Qed.

Lemma det_chroma_residue W H q bl x0 y0 (S : pixels) : length bl = 4%nat -> Forall (fun b : block => length (fst b) = 16%nat) bl ->
  0 <= x0 -> 0 <= y0 -> x0 + 8 <= W -> y0 + 8 <= H -> (forall x y, blk x0 y0 8 x y -> S x y) ->
  det W H S S (chroma_residue q bl x0 y0).
Proof.
  intros L F Hx Hy HW HH HS. apply det_add_blocks; try assumption; try lia.
  intros k Hk. change (Z.to_nat (2 * 2)) with 4%nat in Hk. apply nth_map_dequant; [lia|exact F].
Qed.

(** ** Intra prediction *)

Lemma fold_add_ext f g (l : list Z) : forall a, (forall i, In i l -> f i = g i) -> fold_left Z.add (map f l) a = fold_left Z.add (map g l) a.
Proof. induction l as [|x l IH]; intros a H; [reflexivity|]. cbn [map fold_left]. rewrite (H x (or_introl eq_refl)). apply IH. intros i Hi. apply H. right. exact Hi. Qed.
Lemma total_ext n f g : (forall i, 0 <= i < n -> f i = g i) -> total n f = total n g.
Proof. intros H. unfold total. apply fold_add_ext. intros i Hi. apply H, zseq_in, Hi. Qed.

Lemma block_spec_ext n mode p q x0 y0 c r :
  (forall i, 0 <= i < n -> row_above p x0 y0 i = row_above q x0 y0 i) ->
  (forall i, 0 <= i < n -> col_left p x0 y0 i = col_left q x0 y0 i) ->
  bordered p (x0 - 1) (y0 - 1) = bordered q (x0 - 1) (y0 - 1) -> 0 <= c < n -> 0 <= r < n ->
  block_spec n mode p x0 y0 c r = block_spec n mode q x0 y0 c r.
Proof.
  intros HA HL HC Hc Hr. unfold block_spec. cbv zeta.
  rewrite (total_ext n _ _ HA), (total_ext n _ _ HL), (HA c Hc), (HL r Hr), HC. reflexivity.
Qed.

(** [sub_spec] with its three arguments abstracted. *)
Definition sub_gen (mode : Z) (A L E : Z -> Z) (c r : Z) : Z :=
  if mode =? B_DC_PRED then (total 4 A + total 4 L + 4) / 8
  else if mode =? B_TM_PRED then Z.max 0 (Z.min 255 (L r + A c - E 0))
  else if mode =? B_VE_PRED then mean3 (E c) (E (c + 1)) (E (c + 2))
  else if mode =? B_HE_PRED then mean3 (E (- r)) (E (- r - 1)) (L (r + 1))
  else if mode =? B_LD_PRED then mean3 (A (c + r)) (A (c + r + 1)) (A (Z.min 7 (c + r + 2)))
  else if mode =? B_RD_PRED then mean3 (E (c - r - 1)) (E (c - r)) (E (c - r + 1))
  else if mode =? B_VR_PRED then
    let j := c - r / 2 in
    if 2 * c - r <? -1 then mean3 (E (- r)) (E (1 - r)) (E (2 - r))
    else if r mod 2 =? 0 then mean2 (E j) (E (j + 1))
    else mean3 (E (j - 1)) (E j) (E (j + 1))
  else if mode =? B_VL_PRED then
    let j := c + r / 2 in
    if (c =? 3) && (2 <=? r) then mean3 (A (c + r - 1)) (A (c + r)) (A (c + r + 1))
    else if r mod 2 =? 0 then mean2 (A j) (A (j + 1))
    else mean3 (A j) (A (j + 1)) (A (j + 2))
  else if mode =? B_HD_PRED then
    let j := c / 2 - r in
    if 2 * r - c <? -1 then mean3 (E (c - 2)) (E (c - 1)) (E c)
    else if c mod 2 =? 0 then mean2 (E (j - 1)) (E j)
    else mean3 (E (j - 1)) (E j) (E (j + 1))
  else
    let j := r + c / 2 in
    if c mod 2 =? 0 then mean2 (L j) (L (j + 1))
    else mean3 (L j) (L (j + 1)) (L (j + 2)).

Definition edge_px (p : plane) (x0 y0 j : Z) : Z :=
  if j =? 0 then bordered p (x0 - 1) (y0 - 1) else if 0 <? j then row_above8 p x0 y0 (j - 1) else col_left p x0 y0 (Z.min 3 (- j - 1)).
Lemma sub_spec_gen mode p x0 y0 c r :
  sub_spec mode p x0 y0 c r = sub_gen mode (row_above8 p x0 y0) (fun i => col_left p x0 y0 (Z.min 3 i)) (edge_px p x0 y0) c r.
Proof. reflexivity. Qed.

Lemma sub_gen_ext mode A L E A' L' E' c r :
  (forall i, 0 <= i < 8 -> A i = A' i) -> (forall i, 0 <= i -> L i = L' i) -> (forall j, j <= 8 -> E j = E' j) ->
  0 <= c < 4 -> 0 <= r < 4 -> sub_gen mode A L E c r = sub_gen mode A' L' E' c r.
Proof.
  intros HA HL HE Hc Hr. unfold sub_gen. cbv zeta.
  rewrite (total_ext 4 A A') by (intros; apply HA; lia). rewrite (total_ext 4 L L') by (intros; apply HL; lia).
  repeat match goal with
  | |- (if ?b then _ else _) = (if ?b then _ else _) => destruct b eqn:?
  end; unfold mean3, mean2; try reflexivity;
  repeat match goal with
  | |- context [E ?j] => rewrite (HE j) by lia
  | |- context [A ?j] => rewrite (HA j) by lia
  | |- context [L ?j] => rewrite (HL j) by lia
  end; reflexivity.
Qed.

Lemma sub_spec_ext mode p q x0 y0 c r :
  (forall i, 0 <= i < 8 -> row_above8 p x0 y0 i = row_above8 q x0 y0 i) ->
  (forall i, 0 <= i < 4 -> col_left p x0 y0 i = col_left q x0 y0 i) ->
  bordered p (x0 - 1) (y0 - 1) = bordered q (x0 - 1) (y0 - 1) -> 0 <= c < 4 -> 0 <= r < 4 ->
  sub_spec mode p x0 y0 c r = sub_spec mode q x0 y0 c r.
Proof.
  intros HA HL HC Hc Hr. rewrite !sub_spec_gen. apply sub_gen_ext; try assumption.
  - intros i Hi. apply HL. lia.
  - intros j Hj. unfold edge_px. destruct (j =? 0) eqn:?; [exact HC|]. destruct (0 <? j) eqn:?; [apply HA; lia|apply HL; lia].
Qed.

(** Pixels around a block that exist. *)
Lemma bordered_agree w h (S : pixels) p q x y : sized w h p -> agree S p q -> x < w -> y < h -> (0 <= x -> 0 <= y -> S x y) ->
  bordered p x y = bordered q x y.
Proof.
  intros (_ & Dw & Dh) A Hx Hy HS. unfold bordered. destruct (y <? 0) eqn:?; [reflexivity|]. destruct (x <? 0) eqn:?; [reflexivity|].
  apply A; [apply inside_iff; lia|apply HS; lia].
Qed.

Lemma det_intra_block w h n column row mode (S : pixels) : n = 8 \/ n = 16 -> block_mode mode ->
  0 <= column -> 0 <= row -> n * (column + 1) <= w -> n * (row + 1) <= h ->
  (forall x y, 0 <= x -> 0 <= y -> (y = n * row - 1 /\ n * column - 1 <= x < n * column + n) \/ (x = n * column - 1 /\ n * row <= y < n * row + n) -> S x y) ->
  det w h S (both S (blk (n * column) (n * row) n)) (intra_predict n column row mode).
Proof.
  intros Hn Hm Hc Hr Hw Hh HS.
  apply (det_block w h _ _ _ S _ (fun p x y => block_spec n mode p (n * column) (n * row) (x - n * column) (y - n * row))).
  - intros p (Op & Dw & Dh). apply C53_block; try assumption; lia.
  - intros p q x y Hp Hq A Hi B. unfold blk in B.
    apply block_spec_ext; try lia.
    + intros i Hi'. unfold row_above. apply (bordered_agree w h S); try assumption; try lia. intros. apply HS; try assumption. lia.
    + intros i Hi'. unfold col_left. apply (bordered_agree w h S); try assumption; try lia. intros. apply HS; try assumption. lia.
    + apply (bordered_agree w h S); try assumption; try lia. intros. apply HS; try assumption. lia.
Qed.

Lemma det_intra_sub w h column row mode (S : pixels) : sub_mode mode -> w mod 16 = 0 ->
  0 <= column -> 0 <= row -> 4 * (column + 1) <= w -> 4 * (row + 1) <= h ->
  (forall x y, 0 <= x -> 0 <= y -> (y = 4 * row - 1 /\ 4 * column - 1 <= x < 4 * column + 4) \/ (x = 4 * column - 1 /\ 4 * row <= y < 4 * row + 4) \/
     (4 * column + 4 <= x < 4 * column + 8 /\ y = (if column mod 4 =? 3 then row / 4 * 16 else 4 * row) - 1) \/
     (column mod 4 = 3 /\ x = 4 * column + 3 /\ y = row / 4 * 16 - 1) -> S x y) ->
  det w h S (both S (blk (4 * column) (4 * row) 4)) (intra_predict 4 column row mode).
Proof.
  intros Hm Hw16 Hc Hr Hw Hh HS.
  apply (det_block w h _ _ _ S _ (fun p x y => sub_spec mode p (4 * column) (4 * row) (x - 4 * column) (y - 4 * row))).
  - intros p (Op & Dw & Dh). apply C53_subblock; try assumption; lia.
  - intros p q x y Hp Hq A Hi B. unfold blk in B. pose proof Hp as (Op & Dw & Dh). pose proof Hq as (Oq & Dw' & Dh').
    apply sub_spec_ext; try lia.
    + intros i Hi'. unfold row_above8. destruct (i <? 4) eqn:?.
      * unfold row_above. apply (bordered_agree w h S); try assumption; try lia. intros. apply HS; try assumption. lia.
      * rewrite Dw, Dw'.
        assert (T : (4 * column mod 16 =? 12) = (column mod 4 =? 3)) by lia. rewrite T.
        assert (R : 4 * row / 16 * 16 = row / 4 * 16) by lia. rewrite R.
        apply (bordered_agree w h S); try assumption; try lia.
        -- destruct (column mod 4 =? 3); lia.
        -- intros. apply HS; try assumption. destruct (Z.le_gt_cases (4 * column + i) (w - 1)) as [Hle|Hgt].
           ++ rewrite Z.min_l by lia. right. right. left. lia.
           ++ rewrite Z.min_r by lia. assert (column mod 4 = 3 /\ w - 1 = 4 * column + 3) as [E1 E2] by lia.
              right. right. right. rewrite E1. cbn [Z.eqb Pos.eqb]. lia.
    + intros i Hi'. unfold col_left. apply (bordered_agree w h S); try assumption; try lia. intros. apply HS; try assumption. lia.
    + apply (bordered_agree w h S); try assumption; try lia. intros. apply HS; try assumption. lia.
Qed.

(** ** Macroblocks *)

(** The pixels of the macroblocks before (column, row) in raster order; the
    macroblocks of this plane have n x n pixels. *)
Definition done (n column row : Z) : pixels := fun x y => y < n * row \/ (y < n * (row + 1) /\ x < n * column).

Lemma det_done w h n column row f : 0 <= row -> 0 < n -> 
  det w h (done n column row) (both (done n column row) (blk (n * column) (n * row) n)) f ->
  det w h (done n column row) (done n (column + 1) row) f.
Proof.
  intros Hr Hn. apply det_weaken; [auto|]. intros x y Hx Hy HS. unfold done, both, blk in *. lia.
Qed.

(** Luma of a macroblock coded sub-block by sub-block. *)
Definition subdone (column row k : Z) : pixels := fun x y =>
  done 16 column row x y \/
  (16 * column <= x < 16 * column + 16 /\ 16 * row <= y /\
   (y < 16 * row + 4 * (k / 4) \/ (y < 16 * row + 4 * (k / 4) + 4 /\ x < 16 * column + 4 * (k mod 4)))).

Lemma cells4_nth i c r : nth_error (cells 4) i = Some (c, r) -> Z.of_nat i = 4 * r + c /\ 0 <= c < 4 /\ 0 <= r < 4.
Proof.
  change (cells 4) with [(0,0);(1,0);(2,0);(3,0);(0,1);(1,1);(2,1);(3,1);(0,2);(1,2);(2,2);(3,2);(0,3);(1,3);(2,3);(3,3)].
  intros H. do 16 (destruct i as [|i]; [injection H as <- <-; lia|]). destruct i; discriminate H.
Qed.

Section macroblock.
  Variables (w h : Z).
  Hypothesis (Bw : w <= 2 ^ 30) (Bh : h <= 2 ^ 30).

  Lemma det_if (nz : bool) S f : det w h S S f -> det w h S S (fun p => if nz then f p else Some p).
  Proof. intros H. destruct nz; [exact H|apply det_ret]. Qed.

  Lemma det_intra_luma q m c column row : shape_ok c -> mb_inter m = false -> w mod 16 = 0 ->
    intra_modes_ok (mb_ymode m) (mb_bmodes m) (mb_uvmode m) ->
    0 <= column -> 0 <= row -> 16 * (column + 1) <= w -> 16 * (row + 1) <= h ->
    det w h (done 16 column row) (done 16 (column + 1) row) (intra_luma q m c column row).
  Proof.
    intros Hs Hint Hw16 (HY & HU & HB & HB1 & HB2) Hc Hr Hw Hh. unfold intra_luma. set (nz := has_nonzero m c). clearbody nz.
    destruct (mb_ymode m =? B_PRED) eqn:EB.
    - assert (EB' : mb_ymode m = B_PRED) by lia. specialize (HB1 EB'). clear HB2.
      apply (det_weaken w h (subdone column row 0) (subdone column row 16)).
      { intros x y Hx Hy. unfold subdone, done. lia. }
      { intros x y Hx Hy. unfold subdone, done. lia. }
      apply (det_ofold w h (fun p '(sc, sr) => intra_sub q m nz (co_y c) column row sc sr p) (fun k => subdone column row (Z.of_nat k)) (cells 4) 0).
      intros i [sc sr] Hi. apply cells4_nth in Hi. destruct Hi as (Ei & Hsc & Hsr). unfold intra_sub.
      replace (0 + i)%nat with i by lia.
      assert (Dv : Z.of_nat i / 4 = sr) by lia. assert (Md : Z.of_nat i mod 4 = sc) by lia.
      apply (det_weaken w h (subdone column row (Z.of_nat i)) (both (subdone column row (Z.of_nat i)) (blk (4 * (4 * column + sc)) (4 * (4 * row + sr)) 4))).
      { auto. }
      { intros x y Hx Hy. unfold both, subdone, done, blk. rewrite Dv, Md. replace (Z.of_nat (i + 1)) with (4 * sr + sc + 1) by lia.
        assert ((sc < 3 /\ (4 * sr + sc + 1) / 4 = sr /\ (4 * sr + sc + 1) mod 4 = sc + 1) \/ (sc = 3 /\ (4 * sr + sc + 1) / 4 = sr + 1 /\ (4 * sr + sc + 1) mod 4 = 0)) as [(A1 & A2 & A3)|(A1 & A2 & A3)] by lia;
        rewrite A2, A3; clear A2 A3 Ei Dv Md; lia. }
      apply (det_bind w h _ (both (subdone column row (Z.of_nat i)) (blk (4 * (4 * column + sc)) (4 * (4 * row + sr)) 4))).
      + apply det_intra_sub; try assumption; try lia.
        * assert (bmode_ok (nth (Z.to_nat (4 * sr + sc)) (mb_bmodes m) 0)) as BM by (apply (proj1 (Forall_forall _ _) HB1), nth_In; lia).
          unfold bmode_ok in BM. unfold sub_mode, B_DC_PRED, B_HU_PRED. lia.
        * intros x y Hx Hy H. unfold subdone, done. rewrite Dv, Md. clear Dv Md Ei.
          assert (T1 : (4 * column + sc) mod 4 = sc) by lia. assert (T2 : (4 * row + sr) / 4 = row) by lia. rewrite T1, T2 in H. clear T1 T2.
          destruct (sc =? 3) eqn:?; lia.
      + apply (det_if nz). apply det_idct; try lia.
        * apply dequant_ok. destruct Hs as (_ & (L & F) & _). apply (proj1 (Forall_forall _ _) F), nth_In. lia.
        * apply dequant_ok. destruct Hs as (_ & (L & F) & _). apply (proj1 (Forall_forall _ _) F), nth_In. lia.
        * intros x y B. right. unfold blk in *. lia.
    - assert (NB : mb_ymode m <> B_PRED) by lia. unfold B_PRED in NB.
      apply det_done; [exact Hr|lia|].
      apply (det_bind w h _ (both (done 16 column row) (blk (16 * column) (16 * row) 16))).
      + apply det_intra_block; try assumption; try lia.
        * unfold block_mode, DC_PRED, V_PRED, H_PRED, TM_PRED. lia.
        * intros x y Hx Hy H. unfold done. lia.
      + apply (det_if nz). apply det_walsh; try assumption; try lia.
        * unfold y2_coded, SPLITMV. rewrite EB. destruct (mb_ymode m =? 9) eqn:?; [lia|reflexivity].
        * intros x y B. right. exact B.
  Qed.

  Lemma det_intra_chroma q m nz bl column row : length bl = 4%nat -> Forall (fun b : block => length (fst b) = 16%nat) bl ->
    0 <= mb_uvmode m <= 3 -> 0 <= column -> 0 <= row -> 8 * (column + 1) <= w -> 8 * (row + 1) <= h ->
    det w h (done 8 column row) (done 8 (column + 1) row) (intra_chroma q m nz bl column row).
  Proof.
    intros HL HF HU Hc Hr Hw Hh. unfold intra_chroma. apply det_done; [exact Hr|lia|].
    apply (det_bind w h _ (both (done 8 column row) (blk (8 * column) (8 * row) 8))).
    - apply det_intra_block; try assumption; try lia.
      + unfold block_mode, DC_PRED, V_PRED, H_PRED, TM_PRED. lia.
      + intros x y Hx Hy H. unfold done. lia.
    - apply (det_if nz). apply det_chroma_residue; try assumption; try lia. intros x y B. right. exact B.
  Qed.

  Lemma det_inter_luma q m c column row ref : shape_ok c -> sized w h ref -> Forall mv_ok (mb_mvs m) -> length (mb_mvs m) = 16%nat ->
    mb_ymode m <> B_PRED -> 0 <= column -> 0 <= row -> 16 * (column + 1) <= w -> 16 * (row + 1) <= h ->
    det w h (done 16 column row) (done 16 (column + 1) row) (inter_luma q m c column row ref).
  Proof.
    intros Hs Href HM HML HY Hc Hr Hw Hh. unfold inter_luma. set (nz := has_nonzero m c). clearbody nz.
    assert (MV : forall k, (k < 16)%nat -> mv_int16 (nth k (mb_mvs m) mv_zero)).
    { intros k Hk. apply (proj1 (Forall_forall _ _) HM). apply nth_In. lia. }
    destruct (mb_ymode m =? SPLITMV) eqn:ES.
    - apply (det_weaken w h (subdone column row 0) (subdone column row 16)).
      { intros x y Hx Hy. unfold subdone, done. lia. }
      { intros x y Hx Hy. unfold subdone, done. lia. }
      apply (det_bind w h _ (subdone column row 16)).
      + apply (det_ofold w h (fun p '(sc, sr) => inter_predict 4 (4 * column + sc) (4 * row + sr) (nth (Z.to_nat (4 * sr + sc)) (mb_mvs m) mv_zero) ref p)
                 (fun k => subdone column row (Z.of_nat k)) (cells 4) 0).
        intros i [sc sr] Hi. apply cells4_nth in Hi. destruct Hi as (Ei & Hsc & Hsr).
        replace (0 + i)%nat with i by lia.
        assert (Dv : Z.of_nat i / 4 = sr) by lia. assert (Md : Z.of_nat i mod 4 = sc) by lia.
        apply (det_weaken w h (subdone column row (Z.of_nat i)) (both (subdone column row (Z.of_nat i)) (blk (4 * (4 * column + sc)) (4 * (4 * row + sr)) 4))).
        { auto. }
        { intros x y Hx Hy. unfold both, subdone, done, blk. rewrite Dv, Md. replace (Z.of_nat (i + 1)) with (4 * sr + sc + 1) by lia.
          assert ((sc < 3 /\ (4 * sr + sc + 1) / 4 = sr /\ (4 * sr + sc + 1) mod 4 = sc + 1) \/ (sc = 3 /\ (4 * sr + sc + 1) / 4 = sr + 1 /\ (4 * sr + sc + 1) mod 4 = 0)) as [(A1 & A2 & A3)|(A1 & A2 & A3)] by lia;
          rewrite A2, A3; clear A2 A3 Ei Dv Md; lia. }
        apply det_inter; try assumption; try lia; [unfold block_size; lia|apply MV; lia].
      + apply (det_if nz). apply det_add_blocks; try lia.
        * intros k Hk. change (Z.to_nat (4 * 4)) with 16%nat in Hk. destruct Hs as (_ & (L & F) & _). apply nth_map_dequant; [lia|exact F].
        * intros x y B. unfold subdone, blk in *. lia.
    - apply det_done; [exact Hr|lia|].
      apply (det_bind w h _ (both (done 16 column row) (blk (16 * column) (16 * row) 16))).
      + apply det_inter; try assumption; try lia; [unfold block_size; lia|apply MV; lia].
      + apply (det_if nz). apply det_walsh; try assumption; try lia.
        * unfold y2_coded. rewrite ES. destruct (mb_ymode m =? B_PRED) eqn:?; [lia|reflexivity].
        * intros x y B. right. exact B.
  Qed.

  Lemma chroma_mv_ok m c r : mv_int16 (chroma_mv m c r).
  Proof. unfold chroma_mv, luma_to_chroma, mv_int16. cbn [fst snd]. unfold s16. lia. Qed.

  Definition subdone2 (column row k : Z) : pixels := fun x y =>
    done 8 column row x y \/
    (8 * column <= x < 8 * column + 8 /\ 8 * row <= y /\
     (y < 8 * row + 4 * (k / 2) \/ (y < 8 * row + 4 * (k / 2) + 4 /\ x < 8 * column + 4 * (k mod 2)))).

  Lemma cells2_nth i c r : nth_error (cells 2) i = Some (c, r) -> Z.of_nat i = 2 * r + c /\ 0 <= c < 2 /\ 0 <= r < 2.
  Proof.
    change (cells 2) with [(0,0);(1,0);(0,1);(1,1)].
    intros H. do 4 (destruct i as [|i]; [injection H as <- <-; lia|]). destruct i; discriminate H.
  Qed.

  Lemma det_inter_chroma q m nz bl column row ref : length bl = 4%nat -> Forall (fun b : block => length (fst b) = 16%nat) bl -> sized w h ref ->
    0 <= column -> 0 <= row -> 8 * (column + 1) <= w -> 8 * (row + 1) <= h ->
    det w h (done 8 column row) (done 8 (column + 1) row) (inter_chroma q m nz bl column row ref).
  Proof.
    intros HL HF Href Hc Hr Hw Hh. unfold inter_chroma.
    apply (det_bind w h _ (done 8 (column + 1) row)).
    - destruct (mb_ymode m =? SPLITMV).
      + apply (det_weaken w h (subdone2 column row 0) (subdone2 column row 4)).
        { intros x y Hx Hy. unfold subdone2, done. lia. }
        { intros x y Hx Hy. unfold subdone2, done. lia. }
        apply (det_ofold w h (fun p '(sc, sr) => inter_predict 4 (2 * column + sc) (2 * row + sr) (chroma_mv m sc sr) ref p)
                 (fun k => subdone2 column row (Z.of_nat k)) (cells 2) 0).
        intros i [sc sr] Hi. apply cells2_nth in Hi. destruct Hi as (Ei & Hsc & Hsr).
        replace (0 + i)%nat with i by lia.
        assert (Dv : Z.of_nat i / 2 = sr) by lia. assert (Md : Z.of_nat i mod 2 = sc) by lia.
        apply (det_weaken w h (subdone2 column row (Z.of_nat i)) (both (subdone2 column row (Z.of_nat i)) (blk (4 * (2 * column + sc)) (4 * (2 * row + sr)) 4))).
        { auto. }
        { intros x y Hx Hy. unfold both, subdone2, done, blk. rewrite Dv, Md. replace (Z.of_nat (i + 1)) with (2 * sr + sc + 1) by lia.
          assert ((sc < 1 /\ (2 * sr + sc + 1) / 2 = sr /\ (2 * sr + sc + 1) mod 2 = sc + 1) \/ (sc = 1 /\ (2 * sr + sc + 1) / 2 = sr + 1 /\ (2 * sr + sc + 1) mod 2 = 0)) as [(A1 & A2 & A3)|(A1 & A2 & A3)] by lia;
          rewrite A2, A3; clear A2 A3 Ei Dv Md; lia. }
        apply det_inter; try assumption; try lia; [unfold block_size; lia|apply chroma_mv_ok].
      + apply det_done; [exact Hr|lia|]. apply det_inter; try assumption; try lia; [unfold block_size; lia|apply chroma_mv_ok].
    - apply (det_if nz). apply det_chroma_residue; try assumption; try lia. intros x y B. unfold blk, done in *. lia.
  Qed.
End macroblock.

(** ** Vectors of parsed frames fit in 16 bits *)

Lemma Forall_set_nth {A} (P : A -> Prop) l i v : Forall P l -> P v -> Forall P (set_nth l i v).
Proof. intros H Hv. revert i. induction H as [|a l Ha Hl IH]; intros [|i]; cbn; constructor; auto. Qed.
Lemma Forall_nth_d {A} (P : A -> Prop) l i d : Forall P l -> P d -> P (nth i l d).
Proof. intros H Hd. revert i. induction H; intros [|i]; cbn; auto. Qed.
Lemma mv_ok_zero : mv_ok mv_zero.
Proof. unfold mv_ok, mv_zero. cbn. lia. Qed.

Definition mvs_ok (m : mbinfo) : Prop := Forall mv_ok (mb_mvs m).

Lemma scorer_add_ok s k nb : Forall mv_ok (sc_mvs s) -> (forall n, nb = Some n -> mv_ok (nb_mv n)) -> Forall mv_ok (sc_mvs (scorer_add s k nb)).
Proof.
  intros H Hn. unfold scorer_add. destruct nb as [n|]; [|exact H]. specialize (Hn n eq_refl). destruct (nb_inter n); [|exact H].
  set (v := if Bool.eqb _ _ then _ else _). cbv zeta.
  assert (V : mv_ok v).
  { subst v. destruct (Bool.eqb _ _); [exact Hn|]. unfold mv_neg, mv_ok. cbn [fst snd]. unfold s16. lia. }
  assert (A : Forall mv_ok (sc_mvs (scorer_add_mv s k v))).
  { unfold scorer_add_mv. destruct (mv_empty v); [exact H|]. destruct (mv_eqb _ _); cbn [sc_mvs]; [exact H|]. apply Forall_set_nth; assumption. }
  destruct (nb_split n); exact A.
Qed.

Lemma scorer_calculate_ok s : Forall mv_ok (sc_mvs s) -> Forall mv_ok (sc_mvs (scorer_calculate s)).
Proof.
  intros H. unfold scorer_calculate. cbv zeta.
  assert (N : forall i l, Forall mv_ok l -> mv_ok (nth i l mv_zero)) by (intros; apply Forall_nth_d; [assumption|exact mv_ok_zero]).
  generalize (if negb (nth 3 (sc_scores s) 0 =? 0) && mv_eqb (nth (sc_index s) (sc_mvs s) mv_zero) (nth 1 (sc_mvs s) mv_zero)
              then set_nth (sc_scores s) 1 (nth 1 (sc_scores s) 0 + nth 3 (sc_scores s) 0) else sc_scores s). intros sc.
  destruct (nth 1 sc 0 <? nth 2 sc 0); cbn [sc_mvs];
    match goal with |- context [if ?b then _ else _] => destruct b end; cbn [sc_mvs]; repeat apply Forall_set_nth; try apply N; repeat apply Forall_set_nth; try apply N; assumption.
Qed.

Lemma census_ok W f l i : (forall j m, (j < i)%nat -> nth_error l j = Some m -> mvs_ok m) -> (0 < W)%nat -> Forall mv_ok (sc_mvs (census_at W f l i)).
Proof.
  intros H HW. unfold census_at, mv_census.
  assert (B : forall j m, (j < i)%nat -> nth_error l j = Some m -> mv_ok (nb_mv (as_neighbour m))).
  { intros j m Hj E. unfold as_neighbour, base_mv. cbn [nb_mv]. apply Forall_nth_d; [exact (H j m Hj E)|exact mv_ok_zero]. }
  apply scorer_calculate_ok. repeat apply scorer_add_ok.
  - repeat constructor; cbn; lia.
  - intros n E. unfold above_of in E. destruct (i <? W)%nat eqn:?; [discriminate|]. destruct (nth_error l (i - W)) eqn:EN; [|discriminate].
    injection E as <-. apply (B (i - W)%nat); [lia|exact EN].
  - intros n E. unfold left_of in E. destruct (i mod W =? 0)%nat eqn:EM; [discriminate|]. destruct (nth_error l (i - 1)) eqn:EN; [|discriminate].
    injection E as <-. apply (B (i - 1)%nat); [|exact EN]. destruct i; [rewrite Nat.mod_0_l in EM by lia; discriminate|lia].
  - intros n E. unfold above_left_of in E. destruct (_ || _)%bool eqn:EM; [discriminate|]. destruct (nth_error l (i - W - 1)) eqn:EN; [|discriminate].
    injection E as <-. apply (B (i - W - 1)%nat); [|exact EN]. apply orb_false_iff in EM. lia.
Qed.

Lemma clamp_ok W H i v : mv_ok v -> mv_ok (clamp_at W H i v).
Proof.
  unfold clamp_at, mv_clamp, mv_ok. cbn [fst snd]. intros [A B].
  assert (T : forall z, 0 <= Z.min (wrap 32 z) 32767 <= 32767) by (intros; unfold wrap; change (2 ^ 32) with 4294967296; lia).
  pose proof (T (wrap 32 (Z.shiftl (wrap 32 (wrap 32 (Z.of_nat W - 1 - Z.of_nat (i mod W)) * 16)) 3) + 128)) as T1.
  pose proof (T (wrap 32 (Z.shiftl (wrap 32 (wrap 32 (Z.of_nat H - 1 - Z.of_nat (i / W)) * 16)) 3) + 128)) as T2.
  split.
  - revert T1. generalize (Z.min (wrap 32 (wrap 32 (Z.shiftl (wrap 32 (wrap 32 (Z.of_nat W - 1 - Z.of_nat (i mod W)) * 16)) 3) + 128)) 32767).
    generalize (- Z.shiftl (Z.of_nat (i mod W) * 16) 3 - 128). intros a b Hb.
    assert (a < 0 \/ 0 <= a) by lia. clear T2. 
    assert (a <= 32767 -> -32768 <= Z.min (Z.max (fst v) (Z.max a (-32768))) b <= 32767) by lia. lia.
  - revert T2. generalize (Z.min (wrap 32 (wrap 32 (Z.shiftl (wrap 32 (wrap 32 (Z.of_nat H - 1 - Z.of_nat (i / W)) * 16)) 3) + 128)) 32767).
    generalize (- Z.shiftl (Z.of_nat (i / W) * 16) 3 - 128). intros a b Hb. lia.
Qed.

Lemma combine_fst_snd {A B} (l : list A) (l' : list B) : length l = length l' -> map snd (combine l l') = l'.
Proof. revert l'. induction l; intros [|b l'] H; cbn in *; try discriminate; [reflexivity|]. f_equal. apply IHl. lia. Qed.

(** Every vector of a split macroblock, in the order in which they are set. *)
Lemma split_mvs_ok best above left t : forall parts done,
  mv_ok best -> (forall l, above = Some l -> Forall mv_ok l) -> (forall l, left = Some l -> Forall mv_ok l) ->
  scheme_ok parts done = true -> split_ok best above left parts t ->
  (forall k, In k done -> mv_ok (snd (nth k t (0, mv_zero)))) ->
  forall k, (k < 16)%nat -> mv_ok (snd (nth k t (0, mv_zero))).
Proof.
  induction parts as [|p parts IH]; intros done HB HA HL HS [HT1 HT2] HD k Hk.
  - cbn [scheme_ok] in HS. apply HD. apply inb_In. apply (proj1 (forallb_forall _ _) HS). apply in_seq. lia.
  - cbn [scheme_ok] in HS. apply andb_true_iff in HS. destruct HS as [HS S4]. apply andb_true_iff in HS. destruct HS as [HS S3].
    apply andb_true_iff in HS. destruct HS as [S1 S2].
    apply (IH (p ++ done) HB HA HL S4); [split; [exact HT1|intros q Hq; apply HT2; right; exact Hq]| |exact Hk].
    intros j Hj. apply in_app_or in Hj. destruct Hj as [Hj|Hj]; [|apply HD; exact Hj].
    destruct (HT2 p (or_introl eq_refl)) as [P1 P2]. rewrite (P2 j Hj). unfold sub_ok in P1.
    set (h := hd 0%nat p) in *. unfold needs in S3. rewrite forallb_app in S3. apply andb_true_iff in S3. destruct S3 as [N1 N2].
    destruct (nth h t (0, mv_zero)) as [mo v] eqn:EN. cbn [snd].
    destruct P1 as [(_ & ->)|[(_ & ->)|[(_ & ->)|(_ & Hn)]]].
    + unfold sub_left. destruct (h mod 4 =? 0)%nat.
      * destruct left as [l|]; [|exact mv_ok_zero]. apply Forall_nth_d; [apply HL; reflexivity|exact mv_ok_zero].
      * rewrite map_snd_nth. apply HD. cbn in N2. rewrite andb_true_r in N2. apply inb_In, N2.
    + unfold sub_above. destruct (h <? 4)%nat.
      * destruct above as [l|]; [|exact mv_ok_zero]. apply Forall_nth_d; [apply HA; reflexivity|exact mv_ok_zero].
      * rewrite map_snd_nth. apply HD. cbn in N1. rewrite andb_true_r in N1. apply inb_In, N1.
    + exact mv_ok_zero.
    + apply Hn.
Qed.

Lemma Forall_repeat {A} (P : A -> Prop) a n : P a -> Forall P (repeat a n).
Proof. intros H. induction n; cbn; constructor; auto. Qed.

Lemma parsed_mvs_ok h W H l : (0 < W)%nat -> (forall i m, nth_error l i = Some m -> if_mb_ok h W H l i m) ->
  forall i m, nth_error l i = Some m -> mvs_ok m /\ length (mb_mvs m) = 16%nat.
Proof.
  intros HW HM i. induction i as [i IH] using lt_wf_ind. intros m E.
  destruct (HM i m E) as (_ & _ & _ & HI). destruct (mb_inter m).
  2:{ destruct HI as (_ & E2 & _). unfold mvs_ok. rewrite E2. split; [apply Forall_repeat, mv_ok_zero|reflexivity]. }
  destruct HI as [_ HI]. unfold inter_modes_ok in HI. cbv zeta in HI.
  assert (C : Forall mv_ok (sc_mvs (census_at W (mb_flipped m) l i))).
  { apply census_ok; [|exact HW]. intros j mj Hj Ej. exact (proj1 (IH j Hj mj Ej)). }
  assert (N : forall k, mv_ok (nth k (sc_mvs (census_at W (mb_flipped m) l i)) mv_zero)) by (intros; apply Forall_nth_d; [exact C|exact mv_ok_zero]).
  assert (HN : forall j mj, (j < i)%nat -> nth_error l j = Some mj -> Forall mv_ok (mb_mvs mj)) by (intros j mj Hj Ej; exact (proj1 (IH j Hj mj Ej))).
  unfold mvs_ok.
  destruct HI as [(_ & _ & _ & ->)|[(_ & _ & _ & ->)|[(_ & _ & _ & ->)|[(_ & v & (_ & _ & ->) & Hv)|(_ & p & _ & Hp & L1 & L2 & HS)]]]].
  - split; [|reflexivity]. apply Forall_repeat, clamp_ok, N.
  - split; [|reflexivity]. apply Forall_repeat, clamp_ok, N.
  - split; [|reflexivity]. apply Forall_repeat, mv_ok_zero.
  - split; [|reflexivity]. apply Forall_repeat, Hv.
  - split; [|exact L2].
    assert (K : forall k, (k < 16)%nat -> mv_ok (snd (nth k (combine (mb_bmodes m) (mb_mvs m)) (0, mv_zero)))).
    { eapply split_mvs_ok; [| | |apply schemes_ok, Hp|exact HS|intros k []].
      - apply clamp_ok, N.
      - intros a Ea. unfold above_of in Ea. destruct (i <? W)%nat eqn:?; [discriminate|]. destruct (nth_error l (i - W)) as [x|] eqn:EN; [|discriminate].
        injection Ea as <-. apply (HN (i - W)%nat x); [lia|exact EN].
      - intros a Ea. unfold left_of in Ea. destruct (i mod W =? 0)%nat eqn:EM; [discriminate|]. destruct (nth_error l (i - 1)) as [x|] eqn:EN; [|discriminate].
        injection Ea as <-. apply (HN (i - 1)%nat x); [|exact EN]. destruct i; [rewrite Nat.mod_0_l in EM by lia; discriminate|lia]. }
    apply Forall_forall. intros v Hv. apply (In_nth _ _ mv_zero) in Hv. destruct Hv as (k & Hk & <-).
    rewrite L2 in Hk. specialize (K k Hk). rewrite combine_nth in K by congruence. exact K.
Qed.

(** ** Rasters *)

Lemma raster_sized mw mh r : raster_ok mw mh r <-> sized (16 * mw) (16 * mh) (ra_y r) /\ sized (8 * mw) (8 * mh) (ra_u r) /\ sized (8 * mw) (8 * mh) (ra_v r).
Proof. unfold raster_ok, sized. tauto. Qed.

(** Rasters with the same display size that agree on the macroblocks before
    (column, row). *)
Definition ragree (column row : Z) (r r' : raster) : Prop :=
  ra_dw r = ra_dw r' /\ ra_dh r = ra_dh r' /\
  ReconProofs.agree (done 16 column row) (ra_y r) (ra_y r') /\
  ReconProofs.agree (done 8 column row) (ra_u r) (ra_u r') /\ ReconProofs.agree (done 8 column row) (ra_v r) (ra_v r').

Definition refs_ok (mw mh : Z) (refs : references) : Prop :=
  raster_ok mw mh (rf_last refs) /\ raster_ok mw mh (rf_golden refs) /\ raster_ok mw mh (rf_alt refs).

(** What a macroblock needs in order to be reconstructed. *)
Definition mb_ready (m : mbinfo) (c : mbcoef) : Prop :=
  shape_ok c /\
  if mb_inter m then mvs_ok m /\ length (mb_mvs m) = 16%nat /\ mb_ymode m <> B_PRED
  else intra_modes_ok (mb_ymode m) (mb_bmodes m) (mb_uvmode m).

Definition rstep (f : raster -> option raster) (mw mh : Z) (S S' : raster -> raster -> Prop) : Prop :=
  forall r r', raster_ok mw mh r -> raster_ok mw mh r' -> S r r' ->
  exists s s', f r = Some s /\ f r' = Some s' /\ raster_ok mw mh s /\ raster_ok mw mh s' /\ S' s s'.

Lemma step_intra mw mh q m c column row : mw <= 2 ^ 24 -> mh <= 2 ^ 24 -> mb_ready m c -> mb_inter m = false ->
  0 <= column < mw -> 0 <= row < mh ->
  rstep (reconstruct_intra q m c column row) mw mh (ragree column row) (ragree (column + 1) row).
Proof.
  intros Bw Bh [HS HM] HI Hc Hr r r' Hr1 Hr2 (D1 & D2 & AY & AU & AV). rewrite HI in HM.
  apply raster_sized in Hr1. apply raster_sized in Hr2. destruct Hr1 as (Y1 & U1 & V1). destruct Hr2 as (Y2 & U2 & V2).
  pose proof HS as (_ & _ & (Lu & Fu) & (Lv & Fv)). pose proof HM as (_ & HU & _).
  unfold reconstruct_intra.
  destruct (det_intra_chroma (8 * mw) (8 * mh) q m (has_nonzero m c) (co_u c) column row Lu Fu HU ltac:(lia) ltac:(lia) ltac:(lia) ltac:(lia) _ _ U1 U2 AU) as (u & u' & E1 & E2 & U1' & U2' & AU').
  destruct (det_intra_chroma (8 * mw) (8 * mh) q m (has_nonzero m c) (co_v c) column row Lv Fv HU ltac:(lia) ltac:(lia) ltac:(lia) ltac:(lia) _ _ V1 V2 AV) as (v & v' & E3 & E4 & V1' & V2' & AV').
  destruct (det_intra_luma (16 * mw) (16 * mh) q m c column row HS HI ltac:(lia) HM ltac:(lia) ltac:(lia) ltac:(lia) ltac:(lia) _ _ Y1 Y2 AY) as (y & y' & E5 & E6 & Y1' & Y2' & AY').
  rewrite E1, E2, E3, E4, E5, E6. cbn [obind]. eexists _, _. split; [reflexivity|]. split; [reflexivity|].
  split; [apply raster_sized; cbn; auto|]. split; [apply raster_sized; cbn; auto|].
  unfold ragree. cbn. auto.
Qed.

Lemma step_inter mw mh q refs m c column row : mw <= 2 ^ 24 -> mh <= 2 ^ 24 -> mb_ready m c -> mb_inter m = true -> refs_ok mw mh refs ->
  0 <= column < mw -> 0 <= row < mh ->
  rstep (reconstruct_inter q refs m c column row) mw mh (ragree column row) (ragree (column + 1) row).
Proof.
  intros Bw Bh [HS HM] HI HR Hc Hr r r' Hr1 Hr2 (D1 & D2 & AY & AU & AV). rewrite HI in HM. destruct HM as (M1 & M2 & M3).
  change (2 ^ 24) with 16777216 in *.
  apply raster_sized in Hr1. apply raster_sized in Hr2. destruct Hr1 as (Y1 & U1 & V1). destruct Hr2 as (Y2 & U2 & V2).
  pose proof HS as (_ & _ & (Lu & Fu) & (Lv & Fv)).
  unfold reconstruct_inter.
  assert (exists ref, ref_at refs (mb_reference m) = Some ref /\ raster_ok mw mh ref) as (ref & ER & OR).
  { unfold mb_reference, reference. rewrite HI. destruct HR as (A & B & C).
    destruct (mb_sel1 m) as [[|]|]; [destruct (mb_sel2 m) as [[|]|]| |]; eexists; split; try reflexivity; assumption. }
  rewrite ER. cbn [obind]. apply raster_sized in OR. destruct OR as (RY & RU & RV).
  destruct (det_inter_luma (16 * mw) (16 * mh) ltac:(change (2 ^ 30) with 1073741824; lia) ltac:(change (2 ^ 30) with 1073741824; lia) q m c column row (ra_y ref) HS RY M1 M2 M3 ltac:(lia) ltac:(lia) ltac:(lia) ltac:(lia) _ _ Y1 Y2 AY) as (y & y' & E5 & E6 & Y1' & Y2' & AY').
  destruct (det_inter_chroma (8 * mw) (8 * mh) ltac:(change (2 ^ 30) with 1073741824; lia) ltac:(change (2 ^ 30) with 1073741824; lia) q m (has_nonzero m c) (co_u c) column row (ra_u ref) Lu Fu RU ltac:(lia) ltac:(lia) ltac:(lia) ltac:(lia) _ _ U1 U2 AU) as (u & u' & E1 & E2 & U1' & U2' & AU').
  destruct (det_inter_chroma (8 * mw) (8 * mh) ltac:(change (2 ^ 30) with 1073741824; lia) ltac:(change (2 ^ 30) with 1073741824; lia) q m (has_nonzero m c) (co_v c) column row (ra_v ref) Lv Fv RV ltac:(lia) ltac:(lia) ltac:(lia) ltac:(lia) _ _ V1 V2 AV) as (v & v' & E3 & E4 & V1' & V2' & AV').
  rewrite E1, E2, E3, E4, E5, E6. cbn [obind]. eexists _, _. split; [reflexivity|]. split; [reflexivity|].
  split; [apply raster_sized; cbn; auto|]. split; [apply raster_sized; cbn; auto|].
  unfold ragree. cbn. auto.
Qed.
