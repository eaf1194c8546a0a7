(** Lemmas about prediction. *)
From Verif Require Import Base TreeModel MVModel FrameModel RasterModel RasterProofs PredictModel.

Lemma omap_some {A B} (f : A -> option B) (g : A -> B) l : (forall x, In x l -> f x = Some (g x)) -> omap f l = Some (map g l).
Proof.
  induction l as [|a l IH]; cbn; intros H; [reflexivity|].
  rewrite H by auto. rewrite IH by auto. reflexivity.
Qed.
Lemma omap_zseq {B} (f : Z -> option B) (g : Z -> B) n : (forall i, 0 <= i < n -> f i = Some (g i)) ->
  omap f (zseq n) = Some (map g (zseq n)).
Proof. intros H. apply omap_some. intros x Hx. apply H, zseq_in, Hx. Qed.

Lemma nth_zseq {B} (g : Z -> B) n i d : 0 <= i < n -> nth_error (map g (zseq n)) (Z.to_nat i) = Some (g i) /\ nth (Z.to_nat i) (map g (zseq n)) d = g i.
Proof.
  intros H. assert (E : nth_error (map g (zseq n)) (Z.to_nat i) = Some (g i)).
  { unfold zseq. rewrite map_map, nth_error_map, nth_error_nth' with (d := 0%nat) by (rewrite seq_length; lia).
    cbn. rewrite seq_nth by lia. f_equal. f_equal. lia. }
  split; [exact E|]. apply nth_error_nth, E.
Qed.
Lemma nthz_zseq g n i : 0 <= i < n -> nthz (map g (zseq n)) i = g i.
Proof. intros H. apply nth_zseq, H. Qed.

Lemma praw_at p x y : shaped p -> inside p x y = true -> praw p (y * pl_w p + x) = Some (at_px p x y).
Proof.
  intros Hp H. pose proof (pget_some p x y Hp H) as G. unfold pget in G. rewrite H in G.
  unfold praw. apply inside_iff in H. destruct Hp as (Hw & Hh & _).
  replace (y * pl_w p + x <? 0) with false by nia. exact G.
Qed.

Lemma read_run_some p x y n : shaped p -> 0 <= x -> x + n <= pl_w p -> 0 <= y < pl_h p -> 0 < n ->
  read_run p x y n = Some (map (fun i => at_px p (x + i) y) (zseq n)).
Proof.
  intros Hp Hx Hw Hy Hn. unfold read_run.
  replace (inside p x y) with true by (symmetry; apply inside_iff; lia).
  apply omap_zseq. intros i Hi. rewrite <- Z.add_assoc. apply praw_at; [exact Hp|apply inside_iff; lia].
Qed.

(** ** Writing a block *)
Definition in_block (x0 y0 n x y : Z) : bool := (x0 <=? x) && (x <? x0 + n) && (y0 <=? y) && (y <? y0 + n).

Lemma assigned_fill g l c r : assigned (map (fun '(c, r) => (c, r, g c r)) l) c r = if existsb (fun '(c', r') => (c' =? c) && (r' =? r)) l then Some (g c r) else None.
Proof.
  induction l as [|[c' r'] l IH]; [reflexivity|]. cbn [map existsb]. rewrite assigned_cons, IH.
  destruct (existsb _ l); [rewrite orb_true_r; reflexivity|]. rewrite orb_false_r.
  destruct ((c' =? c) && (r' =? r)) eqn:E; [|reflexivity]. assert (c' = c /\ r' = r) as [-> ->] by lia. reflexivity.
Qed.
Lemma assigned_cells n g c r : assigned (fill_cells n g) c r = if (0 <=? c) && (c <? n) && (0 <=? r) && (r <? n) then Some (g c r) else None.
Proof.
  unfold fill_cells. rewrite assigned_fill.
  destruct (existsb _ (cells n)) eqn:E.
  - apply existsb_exists in E. destruct E as ([c' r'] & Hi & E). apply cells_in in Hi.
    replace (_ && _) with true by lia. reflexivity.
  - destruct ((0 <=? c) && (c <? n) && (0 <=? r) && (r <? n)) eqn:F; [|reflexivity].
    assert (existsb (fun '(c', r') => (c' =? c) && (r' =? r)) (cells n) = true); [|congruence].
    apply existsb_exists. exists (c, r). split; [apply cells_in; lia|lia].
Qed.

(** An assignment list that covers the block exactly. *)
Definition covers (n : Z) (l : list (Z * Z * Z)) (g : Z -> Z -> Z) : Prop :=
  (forall c r v, In (c, r, v) l -> 0 <= c < n /\ 0 <= r < n) /\
  (forall c r, 0 <= c < n -> 0 <= r < n -> assigned l c r = Some (g c r)).

Lemma covers_fill n g : covers n (fill_cells n g) g.
Proof.
  split.
  - intros c r v H. apply in_map_iff in H. destruct H as ([c' r'] & E & H). injection E as -> -> _. apply cells_in, H.
  - intros c r Hc Hr. rewrite assigned_cells. replace (_ && _) with true by lia. reflexivity.
Qed.

Lemma assign_covers n l g x0 y0 p : covers n l g -> plane_ok p -> 0 <= x0 -> 0 <= y0 -> x0 + n <= pl_w p -> y0 + n <= pl_h p ->
  (forall c r, 0 <= c < n -> 0 <= r < n -> byte_ok (g c r)) ->
  exists p', assign_block x0 y0 l p = Some p' /\ plane_ok p' /\ same_dims p' p /\
    forall x y, inside p x y = true ->
      at_px p' x y = if in_block x0 y0 n x y then g (x - x0) (y - y0) else at_px p x y.
Proof.
  intros [H1 H2] Hp Hx Hy Hw Hh Hg.
  destruct (assign_block_spec x0 y0 l p (proj1 Hp)) as (p' & E & Hs & Hd & Ha).
  { intros c r v H. apply H1 in H. apply inside_iff. lia. }
  assert (A : forall x y, inside p x y = true ->
      at_px p' x y = if in_block x0 y0 n x y then g (x - x0) (y - y0) else at_px p x y).
  { intros x y Hi. rewrite Ha by exact Hi. unfold in_block.
    destruct ((x0 <=? x) && (x <? x0 + n) && (y0 <=? y) && (y <? y0 + n)) eqn:B.
    - rewrite H2 by lia. reflexivity.
    - destruct (assigned l (x - x0) (y - y0)) as [v|] eqn:F; [|reflexivity].
      apply assigned_in, H1 in F. lia. }
  exists p'. split; [exact E|]. split; [|split; [exact Hd|exact A]].
  apply plane_ok_at; [exact Hs|]. intros x y Hi. rewrite (inside_dims p' p x y Hd) in Hi. rewrite A by exact Hi.
  destruct (in_block x0 y0 n x y) eqn:B; [|apply at_px_byte; assumption]. unfold in_block in B. apply Hg; lia.
Qed.

Lemma predict_cells_assign n x0 y0 f g p : (forall c r, 0 <= c < n -> 0 <= r < n -> f c r = Some (g c r)) ->
  predict_cells n x0 y0 f p = assign_block x0 y0 (fill_cells n g) p.
Proof.
  intros H. unfold predict_cells, assign_block, fill_cells.
  assert (G : forall c r, In (c, r) (cells n) -> f c r = Some (g c r)) by (intros c r Hi; apply cells_in in Hi; apply H; lia).
  revert p G. generalize (cells n). induction l as [|[c r] l IH]; intros p G; cbn; [reflexivity|].
  rewrite (G c r (or_introl eq_refl)). cbn. destruct (pset _ _ _ _); cbn; [|reflexivity]. apply IH. intros; apply G; right; assumption.
Qed.

(** ** Six-tap filter *)
Definition tap_sum (f : list Z) (v : Z -> Z) : Z :=
  nthz f 0 * v 0 + nthz f 1 * v 1 + nthz f 2 * v 2 + nthz f 3 * v 3 + nthz f 4 * v 4 + nthz f 5 * v 5.
Definition tapped (f : list Z) (v : Z -> Z) : Z := clamp255 ((tap_sum f v + 64) / 128).

Lemma six_tap_some f v w : length f = 6%nat -> (forall k, 0 <= k < 6 -> v k = Some (w k)) -> six_tap f v = Some (tapped f w).
Proof.
  intros Hl H. destruct f as [|f0 [|f1 [|f2 [|f3 [|f4 [|f5 [|]]]]]]]; try discriminate Hl.
  unfold six_tap. cbn [nth_error obind]. rewrite !H by lia. cbn [obind]. unfold tapped, tap_sum, nthz.
  rewrite Z.shiftr_div_pow2 by lia. change (2 ^ 7) with 128. cbn [Z.to_nat Pos.to_nat Pos.iter_op nth].
  change (Pos.to_nat 1) with 1%nat. change (Pos.to_nat 2) with 2%nat. change (Pos.to_nat 3) with 3%nat.
  change (Pos.to_nat 4) with 4%nat. change (Pos.to_nat 5) with 5%nat. cbn [nth]. do 4 f_equal. ring.
Qed.
Lemma clamp255_byte x : byte_ok (clamp255 x).
Proof. unfold byte_ok, clamp255. destruct (x <? 0) eqn:?, (255 <? x) eqn:?; lia. Qed.

Lemma tapped_ext f v w : (forall k, 0 <= k < 6 -> v k = w k) -> tapped f v = tapped f w.
Proof. intros H. unfold tapped, tap_sum. rewrite !H by lia. reflexivity. Qed.

Lemma filter_for_some m : exists f, filter_for m = Some f /\ length f = 6%nat /\ nth_error sixtap_filters (Z.to_nat (m mod 8)) = Some f.
Proof.
  unfold filter_for. change 7 with (Z.ones 3). rewrite Z.land_ones by lia. change (2 ^ 3) with 8.
  assert (0 <= m mod 8 < 8) as B by lia. generalize dependent (m mod 8). intros k B.
  assert (k = 0 \/ k = 1 \/ k = 2 \/ k = 3 \/ k = 4 \/ k = 5 \/ k = 6 \/ k = 7) as C by lia.
  repeat destruct C as [-> |C]; try (subst k); eexists; repeat split; reflexivity.
Qed.

(** ** Grids *)
Lemma grid_some w h f g : (forall c r, 0 <= c < w -> 0 <= r < h -> f c r = Some (g c r)) ->
  grid w h f = Some (map (fun r => map (fun c => g c r) (zseq w)) (zseq h)).
Proof. intros H. unfold grid. apply omap_zseq. intros r Hr. apply omap_zseq. intros c Hc. auto. Qed.
Lemma grid_at_some w h (g : Z -> Z -> Z) c r : 0 <= c < w -> 0 <= r < h ->
  grid_at (map (fun r => map (fun c => g c r) (zseq w)) (zseq h)) c r = Some (g c r).
Proof.
  intros Hc Hr. unfold grid_at. replace ((c <? 0) || (r <? 0)) with false by lia.
  rewrite (proj1 (nth_zseq (fun r => map (fun c => g c r) (zseq w)) h r [] Hr)).
  apply (nth_zseq (fun c => g c r) w c 0 Hc).
Qed.
Lemma nth_error_concat {A} (ls : list (list A)) (n r c : nat) : Forall (fun l => length l = n) ls -> (c < n)%nat ->
  nth_error (concat ls) (n * r + c) = match nth_error ls r with Some l => nth_error l c | None => None end.
Proof.
  intros H Hc. revert r. induction H as [|l ls Hl H IH]; intros r; cbn.
  - destruct r; destruct (_ + _)%nat; reflexivity.
  - destruct r as [|r].
    + rewrite Nat.mul_0_r. cbn. rewrite nth_error_app1 by lia. reflexivity.
    + rewrite nth_error_app2 by nia. cbn. rewrite <- IH. f_equal. nia.
Qed.
Lemma concat_grid_some w h (g : Z -> Z -> Z) c r : 0 <= c < w -> 0 <= r < h ->
  nth_error (concat (map (fun r => map (fun c => g c r) (zseq w)) (zseq h))) (Z.to_nat (w * r + c)) = Some (g c r).
Proof.
  intros Hc Hr. replace (Z.to_nat (w * r + c)) with (Z.to_nat w * Z.to_nat r + Z.to_nat c)%nat by nia.
  rewrite nth_error_concat; [|apply Forall_forall; intros l Hl; apply in_map_iff in Hl; destruct Hl as (? & <- & _); unfold zseq; rewrite !map_length, seq_length; reflexivity|lia].
  rewrite (proj1 (nth_zseq (fun r => map (fun c => g c r) (zseq w)) h r [] Hr)).
  apply (nth_zseq (fun c => g c r) w c 0 Hc).
Qed.
