(** C32: motion-compensated prediction and picture edges. *)
From Verif Require Import Base TreeModel MVModel FrameModel RasterModel RasterProofs PredictModel PredictProofs.

(** ** Independent description *)

(** The picture continued without end: beyond an edge, the nearest pixel. *)
Definition edge (p : plane) (x y : Z) : Z :=
  at_px p (Z.max 0 (Z.min (pl_w p - 1) x)) (Z.max 0 (Z.min (pl_h p - 1) y)).

(** Taps for a displacement of [e] eighths of a pixel (RFC 6386, section 18.3). *)
Definition taps (e : Z) : list Z :=
  if e =? 0 then [0; 0; 128; 0; 0; 0]
  else if e =? 1 then [0; -6; 123; 12; -1; 0]
  else if e =? 2 then [2; -11; 108; 36; -8; 1]
  else if e =? 3 then [0; -9; 93; 50; -6; 0]
  else if e =? 4 then [3; -16; 77; 77; -16; 3]
  else if e =? 5 then [0; -6; 50; 93; -9; 0]
  else if e =? 6 then [1; -8; 36; 108; -11; 2]
  else [0; -1; 12; 123; -6; 0].
Fixpoint weighted (ts : list Z) (k : Z) (v : Z -> Z) : Z :=
  match ts with [] => 0 | t :: r => t * v k + weighted r (k + 1) v end.
Definition rounded (x : Z) : Z := Z.max 0 (Z.min 255 ((x + 64) / 128)).
(** The value at (x, y) displaced by (mx, my) eighths: rows first. *)
Definition displaced (p : plane) (mx my x y : Z) : Z :=
  rounded (weighted (taps (my mod 8)) (-2) (fun j =>
    rounded (weighted (taps (mx mod 8)) (-2) (fun i => edge p (x + mx / 8 + i) (y + my / 8 + j))))).

Definition block_size (n : Z) : Prop := n = 4 \/ n = 8 \/ n = 16.
Definition mv_int16 (m : mv) : Prop := -32768 <= fst m <= 32767 /\ -32768 <= snd m <= 32767.

(** ** Proof *)
Lemma bounded_edge n x : 0 < n -> bounded n x = Z.max 0 (Z.min (n - 1) x).
Proof. intros H. unfold bounded. destruct (x <? 0) eqn:?, (n - 1 <? _) eqn:?; lia. Qed.
Lemma extended_some p x y : shaped p -> extended_at p x y = Some (edge p x y).
Proof.
  intros Hp. unfold extended_at, edge. destruct Hp as (Hw & Hh & Hl). rewrite !bounded_edge by assumption.
  apply pget_some; [repeat split; assumption|apply inside_iff; lia].
Qed.
Lemma edge_inside p x y : inside p x y = true -> edge p x y = at_px p x y.
Proof. intros H. apply inside_iff in H. unfold edge. f_equal; lia. Qed.
Lemma edge_byte p x y : plane_ok p -> byte_ok (edge p x y).
Proof. intros Hp. unfold edge. apply at_px_byte; [exact Hp|]. destruct Hp as [(Hw & Hh & _) _]. apply inside_iff. lia. Qed.

Lemma clamp255_spec x : clamp255 x = Z.max 0 (Z.min 255 x).
Proof. unfold clamp255. destruct (x <? 0) eqn:?, (255 <? x) eqn:?; lia. Qed.
Lemma tapped_rounded f v : length f = 6%nat -> tapped f v = rounded (weighted f (-2) (fun i => v (i + 2))).
Proof.
  intros Hl. destruct f as [|f0 [|f1 [|f2 [|f3 [|f4 [|f5 [|]]]]]]]; try discriminate Hl.
  unfold tapped, rounded. rewrite clamp255_spec. do 5 f_equal. unfold tap_sum, nthz.
  change (Z.to_nat 0) with 0%nat. change (Z.to_nat 1) with 1%nat. change (Z.to_nat 2) with 2%nat. change (Z.to_nat 3) with 3%nat.
  change (Z.to_nat 4) with 4%nat. change (Z.to_nat 5) with 5%nat. cbn [nth weighted Z.add]. cbn. ring.
Qed.
Lemma weighted_ext ts v w : (forall k, v k = w k) -> forall k, weighted ts k v = weighted ts k w.
Proof. intros H. induction ts; intros; cbn; [reflexivity|]. rewrite H, IHts. reflexivity. Qed.
Lemma filter_taps m : filter_for m = Some (taps (m mod 8)) /\ length (taps (m mod 8)) = 6%nat.
Proof.
  destruct (filter_for_some m) as (f & -> & Hl & H). assert (0 <= m mod 8 < 8) as B by lia.
  generalize dependent (m mod 8). intros k H B.
  assert (k = 0 \/ k = 1 \/ k = 2 \/ k = 3 \/ k = 4 \/ k = 5 \/ k = 6 \/ k = 7) as C by lia.
  repeat destruct C as [-> |C]; try (subst k); cbn in H; injection H as <-; split; reflexivity.
Qed.
Lemma no_taps v : byte_ok (v 0) -> rounded (weighted (taps 0) (-2) v) = v 0.
Proof. unfold byte_ok. intros H. unfold rounded, taps. cbn [Z.eqb weighted].
  change (-2 + 1) with (-1). change (-1 + 1) with 0. change (0 + 1) with 1. change (1 + 1) with 2. change (2 + 1) with 3.
  rewrite !Z.mul_0_l. lia. Qed.
Lemma rounded_byte x : byte_ok (rounded x).
Proof. unfold byte_ok, rounded. lia. Qed.
Lemma displaced_byte p mx my x y : byte_ok (displaced p mx my x y).
Proof. apply rounded_byte. Qed.
Lemma displaced_whole p mx my x y : plane_ok p -> mx mod 8 = 0 -> my mod 8 = 0 -> displaced p mx my x y = edge p (x + mx / 8) (y + my / 8).
Proof.
  intros Hp Hx Hy. unfold displaced. rewrite Hx, Hy. rewrite no_taps by apply rounded_byte. rewrite no_taps by (apply edge_byte; exact Hp). f_equal; lia.
Qed.

Lemma land7 m : Z.land m 7 = m mod 8.
Proof. change 7 with (Z.ones 3). rewrite Z.land_ones by lia. reflexivity. Qed.

Lemma omap_ext {A B} (f g : A -> option B) l : (forall x, f x = g x) -> omap f l = omap g l.
Proof. intros H. induction l as [|a l IH]; cbn; [reflexivity|]. rewrite H, IH. reflexivity. Qed.
Lemma grid_ext w h f g : (forall c r, f c r = g c r) -> grid w h f = grid w h g.
Proof. intros H. apply omap_ext. intros r. apply omap_ext. intros c. apply H. Qed.

(** The two-pass filter over any way of reading the reference. *)
Lemma two_pass size mx my (f : Z -> Z -> option Z) (e : Z -> Z -> Z) : 
  0 < size ->
  (forall x y, 0 <= x < size + 5 -> 0 <= y < size + 5 -> f x y = Some (e x y)) ->
  exists mid, grid size (size + 5) (fun c r => six_tap (taps (mx mod 8)) (fun k => f (c + k) r)) = Some mid /\
   (forall c r, 0 <= c < size -> 0 <= r < size ->
     six_tap (taps (my mod 8)) (fun k => grid_at mid c (r + k)) =
       Some (rounded (weighted (taps (my mod 8)) (-2) (fun j => rounded (weighted (taps (mx mod 8)) (-2) (fun i => e (c + (i + 2)) (r + (j + 2)))))))) /\
   (forall c r, 0 <= c < size -> 0 <= r < size ->
     six_tap (taps (my mod 8)) (fun k => nth_error (concat mid) (Z.to_nat (size * r + c + size * k))) =
       Some (rounded (weighted (taps (my mod 8)) (-2) (fun j => rounded (weighted (taps (mx mod 8)) (-2) (fun i => e (c + (i + 2)) (r + (j + 2)))))))).
Proof.
  intros Hs H. destruct (filter_taps mx) as [_ Lx]. destruct (filter_taps my) as [_ Ly].
  set (g := fun c r => tapped (taps (mx mod 8)) (fun k => e (c + k) r)).
  exists (map (fun r => map (fun c => g c r) (zseq size)) (zseq (size + 5))).
  split; [apply grid_some; intros c r Hc Hr; apply six_tap_some; [exact Lx|]; intros k Hk; apply H; lia|].
  assert (R : forall c r, 0 <= c < size -> 0 <= r < size -> tapped (taps (my mod 8)) (fun k => g c (r + k)) =
     rounded (weighted (taps (my mod 8)) (-2) (fun j => rounded (weighted (taps (mx mod 8)) (-2) (fun i => e (c + (i + 2)) (r + (j + 2))))))).
  { intros c r _ _. rewrite tapped_rounded by exact Ly. f_equal. apply weighted_ext. intros j. unfold g.
    apply (tapped_rounded (taps (mx mod 8)) (fun k => e (c + k) (r + (j + 2)))). exact Lx. }
  split; intros c r Hc Hr; rewrite <- R by assumption; apply six_tap_some; try exact Ly; intros k Hk.
  - apply grid_at_some; lia.
  - replace (size * r + c + size * k) with (size * (r + k) + c) by lia. apply concat_grid_some; lia.
Qed.

Lemma safe_spec size m ref sc sr x0 y0 out : 0 < size -> plane_ok ref ->
  safe_inter_predict size m ref sc sr x0 y0 out =
  assign_block x0 y0 (fill_cells size (fun c r => displaced ref (fst m mod 8) (snd m mod 8) (sc + c) (sr + r))) out.
Proof.
  intros Hs Hr. unfold safe_inter_predict. rewrite !land7.
  destruct ((fst m mod 8 =? 0) && (snd m mod 8 =? 0)) eqn:E.
  - apply predict_cells_assign. intros c r _ _. rewrite extended_some by apply Hr. f_equal.
    rewrite displaced_whole by (try exact Hr; lia). f_equal; lia.
  - rewrite (proj1 (filter_taps (fst m))), (proj1 (filter_taps (snd m))). cbn [obind].
    destruct (two_pass size (fst m) (snd m) (fun x y => extended_at ref (sc + x - 2) (sr + y - 2)) (fun x y => edge ref (sc + x - 2) (sr + y - 2)) Hs)
      as (mid & G & P & _); [intros; apply extended_some, Hr|].
    assert (G' : grid size (size + 5) (fun c r => six_tap (taps (fst m mod 8)) (fun k => extended_at ref (sc + c + (k - 2)) (sr + r - 2))) = Some mid).
    { rewrite <- G. apply grid_ext. intros c r. unfold six_tap. rewrite !(Z.add_assoc sc c), !Z.add_sub_assoc. reflexivity. }
    rewrite G'. cbn [obind]. apply predict_cells_assign. intros c r Hc Hr2. rewrite P by assumption. f_equal.
    unfold displaced. rewrite !Zmod_mod. f_equal. apply weighted_ext. intros j. f_equal. apply weighted_ext. intros i. f_equal; lia.
Qed.

Lemma unsafe_spec size m ref sc sr x0 y0 out : 0 < size -> plane_ok ref -> pl_w out = pl_w ref ->
  0 <= sc - 2 -> sc + size + 3 <= pl_w ref -> 0 <= sr - 2 -> sr + size + 3 <= pl_h ref ->
  unsafe_inter_predict size m ref sc sr x0 y0 out =
  assign_block x0 y0 (fill_cells size (fun c r => displaced ref (fst m mod 8) (snd m mod 8) (sc + c) (sr + r))) out.
Proof.
  intros Hs Hr Ew H1 H2 H3 H4. unfold unsafe_inter_predict. rewrite Ew, Z.eqb_refl. cbn [negb]. rewrite !land7.
  destruct ((fst m mod 8 =? 0) && (snd m mod 8 =? 0)) eqn:E.
  - replace (inside ref sc sr) with true by (symmetry; apply inside_iff; lia). cbn [negb].
    apply predict_cells_assign. intros c r Hc Hr2.
    replace (sr * pl_w ref + sc + pl_w ref * r + c) with ((sr + r) * pl_w ref + (sc + c)) by ring.
    assert (I : inside ref (sc + c) (sr + r) = true) by (apply inside_iff; lia).
    rewrite praw_at by (try apply Hr; exact I). f_equal.
    rewrite displaced_whole by (try exact Hr; lia). rewrite edge_inside; [f_equal; lia|apply inside_iff; lia].
  - rewrite (proj1 (filter_taps (fst m))), (proj1 (filter_taps (snd m))). cbn [obind].
    replace (inside ref (sc - 2) (sr - 2)) with true by (symmetry; apply inside_iff; lia). cbn [negb].
    destruct (two_pass size (fst m) (snd m) (fun x y => praw ref ((sr - 2) * pl_w ref + (sc - 2) + pl_w ref * y + x)) (fun x y => edge ref (sc + x - 2) (sr + y - 2)) Hs)
      as (mid & G & _ & P).
    { intros x y Hx Hy. assert (I : inside ref (sc + x - 2) (sr + y - 2) = true) by (apply inside_iff; lia).
      replace ((sr - 2) * pl_w ref + (sc - 2) + pl_w ref * y + x) with ((sr + y - 2) * pl_w ref + (sc + x - 2)) by ring.
      rewrite praw_at by (try apply Hr; exact I). rewrite edge_inside by exact I. reflexivity. }
    assert (G' : grid size (size + 5) (fun c r => six_tap (taps (fst m mod 8)) (fun k => praw ref ((sr - 2) * pl_w ref + (sc - 2) + pl_w ref * r + c + k))) = Some mid).
    { rewrite <- G. apply grid_ext. intros c r. unfold six_tap. rewrite !Z.add_assoc. reflexivity. }
    rewrite G'. cbn [obind]. apply predict_cells_assign. intros c r Hc Hr2. rewrite P by assumption. f_equal.
    unfold displaced. rewrite !Zmod_mod. f_equal. apply weighted_ext. intros j. f_equal. apply weighted_ext. intros i. f_equal; lia.
Qed.

(** ** Theorems *)

(** For every motion vector the prediction is that of the endlessly continued
    reference picture, and nothing but the block changes. *)
Theorem C32_inter_predict :
  forall size column row m ref out,
  block_size size -> plane_ok ref -> plane_ok out -> same_dims ref out -> mv_int16 m ->
  0 <= column -> 0 <= row -> size * (column + 1) <= pl_w out -> size * (row + 1) <= pl_h out ->
  pl_w out <= 2 ^ 30 -> pl_h out <= 2 ^ 30 ->
  exists out', inter_predict size column row m ref out = Some out' /\ plane_ok out' /\ same_dims out' out /\
    forall x y, inside out x y = true ->
      at_px out' x y =
      if in_block (size * column) (size * row) size x y then displaced ref (fst m) (snd m) x y else at_px out x y.
Proof.
  intros size column row m ref out Hs Hr Ho [Dw Dh] [M1 M2] Hc Hrow Hw Hh Bw Bh.
  change (2 ^ 30) with 1073741824 in *.
  assert (0 < size) by (unfold block_size in Hs; lia). assert (S16 : size <= 16) by (unfold block_size in Hs; lia).
  assert (E : inter_predict size column row m ref out =
    assign_block (size * column) (size * row) (fill_cells size (fun c r => displaced ref (fst m mod 8) (snd m mod 8) (column * size + fst m / 8 + c) (row * size + snd m / 8 + r))) out).
  { unfold inter_predict. rewrite !Z.shiftr_div_pow2 by lia. change (2 ^ 3) with 8.
    set (sc := column * size + fst m / 8). set (sr := row * size + snd m / 8).
    destruct ((sc - 2 <? 0) || (pl_w ref <? wrap 32 (sc + size + 3)) || (sr - 2 <? 0) || (pl_h ref <? wrap 32 (sr + size + 3))) eqn:G.
    - apply safe_spec; assumption.
    - assert (sc < 2147483648 /\ sr < 2147483648) as [Bc Br].
      { subst sc sr. assert (size * column + size <= 1073741824) by lia. assert (size * row + size <= 1073741824) by lia. lia. }
      clearbody sc sr. clear - G H S16 Hr Dw Dh Bc Br.
      unfold wrap in G. change (2 ^ 32) with 4294967296 in G.
      rewrite !orb_false_iff in G. destruct G as [[[G1 G2] G3] G4].
      rewrite Z.mod_small in G2, G4 by lia. apply unsafe_spec; try assumption; lia. }
  rewrite E.
  destruct (assign_covers size (fill_cells size (fun c r => displaced ref (fst m mod 8) (snd m mod 8) (column * size + fst m / 8 + c) (row * size + snd m / 8 + r))) _
     (size * column) (size * row) out (covers_fill _ _) Ho) as (p' & A1 & A2 & A3 & A4);
    [apply Z.mul_nonneg_nonneg; lia|apply Z.mul_nonneg_nonneg; lia|lia|lia|intros; apply displaced_byte|].
  exists p'. repeat (split; [assumption|]). intros x y Hi. rewrite A4 by exact Hi.
  destruct (in_block _ _ _ x y); [|reflexivity]. unfold displaced. rewrite !Zmod_mod. f_equal. apply weighted_ext. intros j. f_equal. apply weighted_ext. intros i.
  rewrite !(Z.div_small (_ mod 8)) by lia. f_equal; lia.
Qed.

(** The test that selects the unchecked path makes it read only inside of the
    picture ([Some]), and both paths agree. *)
Theorem C32_unchecked_equals_checked :
  forall size m ref sc sr x0 y0 out,
  block_size size -> plane_ok ref -> plane_ok out -> same_dims ref out ->
  0 <= x0 -> 0 <= y0 -> x0 + size <= pl_w out -> y0 + size <= pl_h out ->
  0 <= sc - 2 -> sc + size + 3 <= pl_w ref -> 0 <= sr - 2 -> sr + size + 3 <= pl_h ref ->
  exists out', unsafe_inter_predict size m ref sc sr x0 y0 out = Some out' /\
               safe_inter_predict size m ref sc sr x0 y0 out = Some out'.
Proof.
  intros size m ref sc sr x0 y0 out Hs Hr Ho [Dw Dh] Hx Hy Hw Hh H1 H2 H3 H4.
  assert (0 < size) by (unfold block_size in Hs; lia).
  rewrite unsafe_spec, safe_spec by (try assumption; congruence).
  destruct (assign_covers size _ _ x0 y0 out (covers_fill size (fun c r => displaced ref (fst m mod 8) (snd m mod 8) (sc + c) (sr + r))) Ho) as (p' & A1 & _); try assumption.
  - intros. apply displaced_byte.
  - exists p'. split; exact A1.
Qed.

(** One pixel less of margin and the unchecked path leaves the picture. *)
Theorem C32_margin_needed_refuted :
  ~ (forall size m ref sc sr x0 y0 out,
     block_size size -> plane_ok ref -> plane_ok out -> same_dims ref out ->
     0 <= x0 -> 0 <= y0 -> x0 + size <= pl_w out -> y0 + size <= pl_h out ->
     0 <= sc - 2 -> sc + size + 3 <= pl_w ref -> 0 <= sr - 2 -> sr + size + 2 <= pl_h ref ->
     unsafe_inter_predict size m ref sc sr x0 y0 out <> None).
Proof.
  intros H. set (p := blank_plane 16 16).
  assert (Hp : plane_ok p).
  { split; [apply shaped_blank; lia|]. apply Forall_forall. intros x Hx. apply repeat_spec in Hx. subst. unfold byte_ok. lia. }
  apply (H 4 (1, 0) p 9 10 0 0 p); try lia; try exact Hp; try (cbn; lia); try (vm_compute; reflexivity).
  - left. reflexivity.
  - split; reflexivity.
Qed.

(** If a component of the vector is a whole number of pixels, its pass may be
    left out (as the SSE2 code does). *)
Theorem C32_one_pass :
  forall p mx my x y, plane_ok p ->
  (mx mod 8 = 0 -> displaced p mx my x y = rounded (weighted (taps (my mod 8)) (-2) (fun j => edge p (x + mx / 8) (y + my / 8 + j)))) /\
  (my mod 8 = 0 -> displaced p mx my x y = rounded (weighted (taps (mx mod 8)) (-2) (fun i => edge p (x + mx / 8 + i) (y + my / 8)))).
Proof.
  intros p mx my x y Hp. split; intros E; unfold displaced; rewrite E.
  - f_equal. apply weighted_ext. intros j. rewrite no_taps by (apply edge_byte, Hp). f_equal; lia.
  - rewrite no_taps by apply rounded_byte. f_equal. apply weighted_ext. intros i. f_equal; lia.
Qed.

(** A picture of one colour predicts that colour. *)
Theorem C32_flat_reference :
  forall p v mx my x y, 0 <= v <= 255 -> (forall x y, edge p x y = v) -> displaced p mx my x y = v.
Proof.
  intros p v mx my x y Hv H. unfold displaced.
  assert (T : forall e w, (forall k, w k = v) -> rounded (weighted (taps (e mod 8)) (-2) w) = v).
  { intros e w Hw. assert (0 <= e mod 8 < 8) as B by lia. generalize dependent (e mod 8). intros k B.
    assert (k = 0 \/ k = 1 \/ k = 2 \/ k = 3 \/ k = 4 \/ k = 5 \/ k = 6 \/ k = 7) as C by lia.
    repeat destruct C as [-> |C]; try (subst k); unfold taps; cbn [Z.eqb Pos.eqb weighted]; rewrite !Hw; unfold rounded;
      match goal with |- context [(?s + 64) / 128] => replace (s + 64) with (128 * v + 64) by lia end; lia. }
  apply T. intros j. apply T. intros i. apply H.
Qed.

(** A gradient picture, a block at the corner with a vector that points
    outside, and one inside: both paths. *)
Definition ramp (w h : Z) : plane := mkPlane w h (map (fun '(x, y) => (7 * x + 13 * y) mod 256) (flat_map (fun y => map (fun x => (x, y)) (zseq w)) (zseq h))).
Example C32_example :
  option_map (fun p => firstn 4 (pl_px p)) (inter_predict 4 0 0 (-20, 13) (ramp 32 32) (blank_plane 32 32)) = Some [21; 21; 20; 24] /\
  option_map (fun p => at_px p 16 16) (inter_predict 4 4 4 (-20, 13) (ramp 32 32) (blank_plane 32 32)) = Some (displaced (ramp 32 32) (-20) 13 16 16).
Proof. split; vm_compute; reflexivity. Qed.

Print Assumptions C32_inter_predict.
Print Assumptions C32_unchecked_equals_checked.
Print Assumptions C32_margin_needed_refuted.
Print Assumptions C32_one_pass.
Print Assumptions C32_flat_reference.
