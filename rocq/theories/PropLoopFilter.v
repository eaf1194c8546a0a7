(** C33, C34: the loop filter. *)
From Verif Require Import Base TreeModel MVModel MBModel FrameModel RasterModel RasterProofs LoopFilterModel PredictModel PredictProofs.

(** ** Independent description (RFC 6386, section 15) *)

Definition c8 (t : Z) : Z := Z.max (-128) (Z.min 127 t).
(** Signed value of a pixel, and back. *)
Definition u2s (x : Z) : Z := x - 128.
Definition s2u (v : Z) : Z := c8 v + 128.

(** Is the edge smooth enough to be filtered? *)
Definition smooth (I E p3 p2 p1 p0 q0 q1 q2 q3 : Z) : Prop :=
  Z.abs (p3 - p2) <= I /\ Z.abs (p2 - p1) <= I /\ Z.abs (p1 - p0) <= I /\
  Z.abs (q1 - q0) <= I /\ Z.abs (q2 - q1) <= I /\ Z.abs (q3 - q2) <= I /\
  Z.abs (p0 - q0) * 2 + Z.abs (p1 - q1) / 2 <= E.
(** High edge variance. *)
Definition variance (T p1 p0 q0 q1 : Z) : bool := (T <? Z.abs (p1 - p0)) || (T <? Z.abs (q1 - q0)).

(** common_adjust: the adjustments to q0 and p0. *)
Definition common (outer : bool) (p1 p0 q0 q1 : Z) : Z * Z :=
  let a := c8 ((if outer then c8 (u2s p1 - u2s q1) else 0) + 3 * (u2s q0 - u2s p0)) in
  (c8 (a + 4) / 8, c8 (a + 3) / 8).

(** Edges inside of a macroblock. *)
Definition sub_edge (h : bool) (p1 p0 q0 q1 : Z) : Z * Z * Z * Z :=
  let '(f, b) := common h p1 p0 q0 q1 in
  let a := if h then 0 else (f + 1) / 2 in
  (s2u (u2s p1 + a), s2u (u2s p0 + b), s2u (u2s q0 - f), s2u (u2s q1 - a)).

(** Edges between macroblocks. *)
Definition mb_edge (h : bool) (p2 p1 p0 q0 q1 q2 : Z) : Z * Z * Z * Z * Z * Z :=
  if h then
    let '(f, b) := common true p1 p0 q0 q1 in
    (p2, p1, s2u (u2s p0 + b), s2u (u2s q0 - f), q1, q2)
  else
    let w := c8 (c8 (u2s p1 - u2s q1) + 3 * (u2s q0 - u2s p0)) in
    let a k := c8 ((k * w + 63) / 128) in
    (s2u (u2s p2 + a 9), s2u (u2s p1 + a 18), s2u (u2s p0 + a 27), s2u (u2s q0 - a 27), s2u (u2s q1 - a 18), s2u (u2s q2 - a 9)).

(** ** Bytes *)
Lemma sclamp_c8 t : sclamp t = c8 t.
Proof. unfold sclamp, c8. destruct (t <? -128) eqn:?, (127 <? _) eqn:?; lia. Qed.
Lemma c8_range t : -128 <= c8 t <= 127.
Proof. unfold c8. lia. Qed.
Lemma c8_id t : -128 <= t <= 127 -> c8 t = t.
Proof. unfold c8. lia. Qed.

Definition range (a : Z) (n : nat) : list Z := map (fun k => a + Z.of_nat k) (seq 0 n).
Lemma range_in a n x : a <= x < a + Z.of_nat n -> In x (range a n).
Proof. intros H. apply in_map_iff. exists (Z.to_nat (x - a)). split; [lia|]. apply in_seq. lia. Qed.
Lemma sweep (P : Z -> bool) a n x : forallb P (range a n) = true -> a <= x < a + Z.of_nat n -> P x = true.
Proof. intros F H. apply (proj1 (forallb_forall P _) F), range_in, H. Qed.

Lemma to_signed_u2s x : byte_ok x -> to_signed x = u2s x.
Proof.
  unfold byte_ok. intros H. apply Z.eqb_eq. apply (sweep (fun x => to_signed x =? u2s x) 0 256); [vm_compute; reflexivity|lia].
Qed.
Lemma to_pixel_add u : -128 <= u <= 127 -> to_pixel u = u + 128.
Proof.
  intros H. apply Z.eqb_eq. apply (sweep (fun x => to_pixel x =? x + 128) (-128) 256); [vm_compute; reflexivity|lia].
Qed.
Lemma to_pixel_s2u t : to_pixel (sclamp t) = s2u t.
Proof. rewrite sclamp_c8. apply to_pixel_add, c8_range. Qed.
Lemma s8_id x : -128 <= x <= 127 -> s8 x = x.
Proof. unfold s8. intros. rewrite Z.mod_small; lia. Qed.
Lemma land_ff x : -128 <= x <= 127 -> s8 (Z.land x 255) = x.
Proof. intros H. apply Z.eqb_eq. apply (sweep (fun x => s8 (Z.land x 255) =? x) (-128) 256); [vm_compute; reflexivity|lia]. Qed.
Lemma land_not_ff x : -128 <= x <= 127 -> s8 (Z.land x (Z.lnot 255)) = 0.
Proof. intros H. apply Z.eqb_eq. apply (sweep (fun x => s8 (Z.land x (Z.lnot 255)) =? 0) (-128) 256); [vm_compute; reflexivity|lia]. Qed.
Lemma sr1 x : Z.shiftr x 1 = x / 2. Proof. apply (Z.shiftr_div_pow2 x 1). lia. Qed.
Lemma sr3 x : Z.shiftr x 3 = x / 8. Proof. apply (Z.shiftr_div_pow2 x 3). lia. Qed.
Lemma sr7 x : Z.shiftr x 7 = x / 128. Proof. apply (Z.shiftr_div_pow2 x 7). lia. Qed.

Lemma filter_mask_cases I E p3 p2 p1 p0 q0 q1 q2 q3 :
  (smooth I E p3 p2 p1 p0 q0 q1 q2 q3 /\ filter_mask I E p3 p2 p1 p0 q0 q1 q2 q3 = -1) \/
  (~ smooth I E p3 p2 p1 p0 q0 q1 q2 q3 /\ filter_mask I E p3 p2 p1 p0 q0 q1 q2 q3 = 0).
Proof.
  unfold filter_mask, smooth.
  generalize (Z.abs (p0 - q0) * 2 + Z.abs (p1 - q1) / 2). intros e.
  generalize (Z.abs (p3 - p2)), (Z.abs (p2 - p1)), (Z.abs (p1 - p0)), (Z.abs (q1 - q0)), (Z.abs (q2 - q1)), (Z.abs (q3 - q2)). intros.
  destruct (_ || _) eqn:B; [right|left]; (split; [|reflexivity]); lia.
Qed.
Lemma hev_mask_variance T p1 p0 q0 q1 : hev_mask T p1 p0 q0 q1 = if variance T p1 p0 q0 q1 then -1 else 0.
Proof. reflexivity. Qed.

Lemma s2u_u2s x : byte_ok x -> s2u (u2s x) = x.
Proof. unfold byte_ok, s2u, u2s, c8. lia. Qed.
Lemma s2u_byte t : byte_ok (s2u t).
Proof. unfold byte_ok, s2u, c8. lia. Qed.

(** ** One position of an edge *)

(** Inside of a macroblock. *)
Theorem C33_subblock_edge :
  forall (h : bool) p1 p0 q0 q1, byte_ok p1 -> byte_ok p0 -> byte_ok q0 -> byte_ok q1 ->
  vp8_filter (-1) (if h then -1 else 0) p1 p0 q0 q1 = sub_edge h p1 p0 q0 q1 /\
  vp8_filter 0 (if h then -1 else 0) p1 p0 q0 q1 = (p1, p0, q0, q1).
Proof.
  intros h p1 p0 q0 q1 H1 H2 H3 H4. unfold vp8_filter, sub_edge, common. rewrite !to_signed_u2s by assumption.
  rewrite !to_pixel_s2u, !sr1, !sr3, !sclamp_c8, !Z.land_m1_r, !Z.land_0_r.
  split.
  - assert (B : forall x, s8 (c8 (c8 x + 4) / 8 + 1) = c8 (c8 x + 4) / 8 + 1).
    { intros x. apply s8_id. pose proof (c8_range (c8 x + 4)). lia. }
    assert (B2 : forall x, -128 <= (c8 (x + 4) / 8 + 1) / 2 <= 127).
    { intros x. pose proof (c8_range (x + 4)). lia. }
    destruct h.
    + change (wrap 8 (-1)) with 255. rewrite !land_ff by apply c8_range. rewrite (s8_id (c8 (c8 (u2s p1 - u2s q1) + 3 * (u2s q0 - u2s p0)))) by apply c8_range.
      rewrite !B. rewrite !land_not_ff by apply B2. reflexivity.
    + change (wrap 8 0) with 0. change (Z.lnot 0) with (-1). rewrite !Z.land_0_r, !Z.land_m1_r. change (s8 0) with 0.
      rewrite (s8_id (c8 (0 + 3 * (u2s q0 - u2s p0)))) by apply c8_range.
      rewrite !B. rewrite !(s8_id ((c8 (_ + 4) / 8 + 1) / 2)) by apply B2. reflexivity.
  - change (s8 0) with 0. change (c8 (0 + 4) / 8) with 0. change (c8 (0 + 3) / 8) with 0. change (s8 (0 + 1)) with 1. change (1 / 2) with 0.
    rewrite Z.land_0_l. change (s8 0) with 0. rewrite !Z.add_0_r, !Z.sub_0_r, !s2u_u2s by assumption. reflexivity.
Qed.

(** Between macroblocks. *)
Theorem C33_macroblock_edge :
  forall (h : bool) p2 p1 p0 q0 q1 q2, byte_ok p2 -> byte_ok p1 -> byte_ok p0 -> byte_ok q0 -> byte_ok q1 -> byte_ok q2 ->
  vp8_mbfilter (-1) (if h then -1 else 0) p2 p1 p0 q0 q1 q2 = mb_edge h p2 p1 p0 q0 q1 q2 /\
  vp8_mbfilter 0 (if h then -1 else 0) p2 p1 p0 q0 q1 q2 = (p2, p1, p0, q0, q1, q2).
Proof.
  intros h p2 p1 p0 q0 q1 q2 H1 H2 H3 H4 H5 H6. unfold vp8_mbfilter, mb_edge, common. rewrite !to_signed_u2s by assumption.
  rewrite !to_pixel_s2u, !sr3, !sr7, !sclamp_c8, !Z.land_m1_r, !Z.land_0_r.
  assert (R0 : forall x, byte_ok x -> c8 (u2s x) = u2s x) by (unfold byte_ok, u2s, c8; intros; lia).
  assert (R1 : forall t, s2u (c8 t) = s2u t) by (intros; unfold s2u, c8; lia).
  split.
  - rewrite (s8_id (c8 (c8 (u2s p1 - u2s q1) + 3 * (u2s q0 - u2s p0)))) by apply c8_range.
    destruct h.
    + change (wrap 8 (-1)) with 255. rewrite !land_ff, !land_not_ff by apply c8_range.
      change (c8 ((63 + 0 * 27) / 128)) with 0. change (c8 ((63 + 0 * 18) / 128)) with 0. change (c8 ((63 + 0 * 9) / 128)) with 0.
      rewrite !Z.add_0_r, !Z.sub_0_r, !R1, !s2u_u2s by assumption. reflexivity.
    + change (wrap 8 0) with 0. change (Z.lnot 0) with (-1). rewrite !Z.land_0_r, !Z.land_m1_r. change (s8 0) with 0.
      change (c8 (0 + 4) / 8) with 0. change (c8 (0 + 3) / 8) with 0. rewrite !Z.add_0_r, !Z.sub_0_r, !R0 by assumption.
      rewrite (s8_id (c8 (c8 (u2s p1 - u2s q1) + 3 * (u2s q0 - u2s p0)))) by apply c8_range.
      generalize (c8 (c8 (u2s p1 - u2s q1) + 3 * (u2s q0 - u2s p0))). intros w.
      rewrite !(Z.mul_comm w), !(Z.add_comm 63). reflexivity.
  - change (s8 0) with 0. rewrite !Z.land_0_l. change (s8 0) with 0. change (c8 (0 + 4) / 8) with 0. change (c8 (0 + 3) / 8) with 0.
    change (c8 ((63 + 0 * 27) / 128)) with 0. change (c8 ((63 + 0 * 18) / 128)) with 0. change (c8 ((63 + 0 * 9) / 128)) with 0.
    rewrite !Z.add_0_r, !Z.sub_0_r, !R1, !s2u_u2s by assumption. reflexivity.
Qed.

(** Equal pixels across the edge stay as they are. *)
Theorem C33_flat_edge :
  forall (h : bool) v, byte_ok v -> sub_edge h v v v v = (v, v, v, v) /\ mb_edge h v v v v v v = (v, v, v, v, v, v).
Proof.
  intros h v H. unfold sub_edge, mb_edge, common. rewrite !Z.sub_diag.
  destruct h; cbn [fst snd]; change (c8 (c8 0 + 3 * 0)) with 0; change (c8 (0 + 3 * 0)) with 0;
    change (c8 (0 + 4) / 8) with 0; change (c8 (0 + 3) / 8) with 0; change ((0 + 1) / 2) with 0; change (c8 ((9 * 0 + 63) / 128)) with 0;
    change (c8 ((18 * 0 + 63) / 128)) with 0; change (c8 ((27 * 0 + 63) / 128)) with 0;
    rewrite ?Z.add_0_r, ?Z.sub_0_r, !s2u_u2s by exact H; split; reflexivity.
Qed.

(** ** C34: strength *)
Theorem C34_limits :
  forall key f, 0 <= fp_sharpness f <= 7 ->
  let lm := make_limits key f in
  lm_level lm = Z.max 0 (Z.min 63 (fp_level f)) /\
  1 <= lm_interior lm <= 63 /\
  (0 < fp_sharpness f -> lm_interior lm <= 9 - fp_sharpness f) /\
  lm_interior lm = Z.max 1 (if fp_sharpness f =? 0 then lm_level lm
                            else Z.min (9 - fp_sharpness f) (lm_level lm / (if fp_sharpness f <=? 4 then 2 else 4))) /\
  lm_mb lm = 2 * (lm_level lm + 2) + lm_interior lm /\ lm_mb lm <= 193 /\
  lm_sb lm = 2 * lm_level lm + lm_interior lm /\ lm_sb lm <= 189 /\
  lm_hev lm = (if key then (if 40 <=? lm_level lm then 2 else if 15 <=? lm_level lm then 1 else 0)
               else (if 40 <=? lm_level lm then 3 else if 20 <=? lm_level lm then 2 else if 15 <=? lm_level lm then 1 else 0)).
Proof.
  intros key f Hs lm. subst lm. unfold make_limits. cbn [lm_level lm_interior lm_mb lm_sb lm_hev].
  assert (L : clamp63 (fp_level f) = Z.max 0 (Z.min 63 (fp_level f))) by (unfold clamp63; destruct (63 <? fp_level f) eqn:?, (fp_level f <? 0) eqn:?; lia).
  rewrite L. assert (B : 0 <= Z.max 0 (Z.min 63 (fp_level f)) <= 63) by lia.
  generalize dependent (Z.max 0 (Z.min 63 (fp_level f))). intros l _ B. generalize dependent (fp_sharpness f). intros s Hs.
  assert (S : Z.shiftr l (if 4 <? s then 2 else 1) = l / (if s <=? 4 then 2 else 4)).
  { destruct (4 <? s) eqn:?, (s <=? 4) eqn:?; try lia; [apply (Z.shiftr_div_pow2 l 2); lia|apply (Z.shiftr_div_pow2 l 1); lia]. }
  rewrite S.
  assert (W : wrap 8 (9 - s) = 9 - s) by (unfold wrap; change (2 ^ 8) with 256; apply Z.mod_small; lia). rewrite W.
  set (i := if (if negb (s =? 0) then if 9 - s <? l / (if s <=? 4 then 2 else 4) then 9 - s else l / (if s <=? 4 then 2 else 4) else l) <? 1
            then 1 else if negb (s =? 0) then if 9 - s <? l / (if s <=? 4 then 2 else 4) then 9 - s else l / (if s <=? 4 then 2 else 4) else l).
  assert (I : i = Z.max 1 (if s =? 0 then l else Z.min (9 - s) (l / (if s <=? 4 then 2 else 4)))).
  { subst i. destruct (s =? 0) eqn:?; cbn [negb]; [destruct (l <? 1) eqn:?; lia|].
    generalize dependent (l / (if s <=? 4 then 2 else 4)). intros q _. destruct (9 - s <? q) eqn:?; [destruct (9 - s <? 1) eqn:?; lia|destruct (q <? 1) eqn:?; lia]. }
  assert (Ib : 1 <= i <= 63 /\ (0 < s -> i <= 9 - s)).
  { rewrite I. destruct (s =? 0) eqn:?; [lia|]. generalize (l / (if s <=? 4 then 2 else 4)). intros q. lia. }
  clearbody i. clear S W.
  assert (W1 : wrap 8 ((l + 2) * 2 + i) = 2 * (l + 2) + i) by (unfold wrap; change (2 ^ 8) with 256; rewrite Z.mod_small; lia).
  assert (W2 : wrap 8 (l * 2 + i) = 2 * l + i) by (unfold wrap; change (2 ^ 8) with 256; rewrite Z.mod_small; lia).
  rewrite W1, W2. repeat split; try lia; try exact I.
  unfold b2z. destruct key; cbn [negb]; rewrite ?andb_true_r, ?andb_false_r; destruct (15 <=? l) eqn:?, (20 <=? l) eqn:?, (40 <=? l) eqn:?; lia.
Qed.

(** The level of a macroblock: frame or segment level plus the two deltas. *)
Theorem C34_level :
  forall key f ra ma ref y_mode,
  lm_level (make_limits key (fp_adjust ra ma ref y_mode f)) =
  Z.max 0 (Z.min 63 (fp_level f + nth (Z.to_nat ref) ra 0 +
    (if ref =? CURRENT_FRAME then (if y_mode =? B_PRED then nth 0 ma 0 else 0)
     else if y_mode =? ZEROMV then nth 1 ma 0 else if y_mode =? SPLITMV then nth 3 ma 0 else nth 2 ma 0))).
Proof.
  intros key f ra ma ref y_mode. unfold make_limits, fp_adjust, mode_adjustment. cbn [lm_level fp_level]. rewrite Z.add_assoc.
  unfold clamp63. match goal with |- (if 63 <? ?t then _ else _) = _ => destruct (63 <? t) eqn:?, (t <? 0) eqn:?; lia end.
Qed.

(** RFC 6386 (section 9.6 and its decoder) limits the segment's level to 0..63
    before the deltas are added; the code only limits the sum. *)
Theorem C34_segment_level_limited_first_refuted :
  ~ (forall f ra ma ref y_mode,
     lm_level (make_limits false (fp_adjust ra ma ref y_mode f)) =
     Z.max 0 (Z.min 63 (Z.max 0 (Z.min 63 (fp_level f)) + nth (Z.to_nat ref) ra 0 +
       (if ref =? CURRENT_FRAME then (if y_mode =? B_PRED then nth 0 ma 0 else 0)
        else if y_mode =? ZEROMV then nth 1 ma 0 else if y_mode =? SPLITMV then nth 3 ma 0 else nth 2 ma 0)))).
Proof.
  intros H. specialize (H (mkFP false 100 0) [0; -10; 0; 0] [0; 0; 0; 0] LAST_FRAME ZEROMV). vm_compute in H. discriminate H.
Qed.

(** ** Planes *)

(** The pixels along the line through (x, y) in direction (dx, dy). *)
Definition along (p : plane) (x y dx dy k : Z) : Z := at_px p (x + k * dx) (y + k * dy).

Section line.
  Variables (p : plane) (x y dx dy step : Z).
  Hypothesis Hp : shaped p.
  Hypothesis Hstep : step = dy * pl_w p + dx.
  Lemma line_get k : inside p (x + k * dx) (y + k * dy) = true ->
    praw p (y * pl_w p + x + k * step) = Some (along p x y dx dy k).
  Proof.
    intros H. replace (y * pl_w p + x + k * step) with ((y + k * dy) * pl_w p + (x + k * dx)) by (subst step; ring).
    apply praw_at; assumption.
  Qed.
End line.

Lemma praw_set_pset p q x y dx dy step k v : shaped q -> same_dims q p -> step = dy * pl_w p + dx ->
  inside p (x + k * dx) (y + k * dy) = true ->
  praw_set q (y * pl_w p + x + k * step) v = pset q (x + k * dx) (y + k * dy) v.
Proof.
  intros Hq [D1 D2] Hst H. assert (I : inside q (x + k * dx) (y + k * dy) = true) by (rewrite (inside_dims q p); [exact H|split; assumption]).
  rewrite pset_some by exact I. unfold praw_set, put_px, pix_index.
  replace (y * pl_w p + x + k * step) with ((y + k * dy) * pl_w q + (x + k * dx)) by (subst step; rewrite D1; ring).
  pose proof (pix_index_lt q _ _ Hq I) as B. unfold pix_index in B. apply inside_iff in I. destruct Hq as (Hw & Hh & Hl).
  assert (0 <= (y + k * dy) * pl_w q) by (apply Z.mul_nonneg_nonneg; lia).
  unfold zlen in *. replace (_ || _) with false by lia. reflexivity.
Qed.

(** Lists of assignments along a line. *)
Definition line_list (dx dy : Z) (l : list (Z * Z)) : list (Z * Z * Z) := map (fun '(k, v) => (k * dx, k * dy, v)) l.

Lemma line_writes p x y dx dy step l : step = dy * pl_w p + dx -> 
  (forall k v, In (k, v) l -> inside p (x + k * dx) (y + k * dy) = true) -> forall q, shaped q -> same_dims q p ->
  ofold (fun q '(k, v) => praw_set q (y * pl_w p + x + k * step) v) l q = assign_block x y (line_list dx dy l) q.
Proof.
  intros Hst. induction l as [|[k v] l IH]; intros Hi q Hq Hd; [reflexivity|]. cbn [ofold line_list map].
  unfold assign_block; cbn [ofold]. rewrite (praw_set_pset p q x y dx dy step k v) by (try assumption; apply (Hi k v); left; reflexivity).
  assert (I : inside q (x + k * dx) (y + k * dy) = true) by (rewrite (inside_dims q p) by assumption; apply (Hi k v); left; reflexivity).
  rewrite !pset_some by exact I. cbn [obind]. apply IH.
  - intros k' v' H'. apply (Hi k' v'). right. exact H'.
  - apply shaped_put, Hq.
  - apply (same_dims_trans _ q); [apply same_dims_put|exact Hd].
Qed.

Definition direction (dx dy : Z) : Prop := (dx = 1 /\ dy = 0) \/ (dx = 0 /\ dy = 1).

(** New values of the line: [f k] at distance k, for the k of a list. *)
Definition changes (x y dx dy : Z) (ks : list Z) (f : Z -> Z) (p p' : plane) : Prop :=
  plane_ok p' /\ same_dims p' p /\
  (forall k, In k ks -> at_px p' (x + k * dx) (y + k * dy) = f k) /\
  (forall x' y', inside p x' y' = true -> (forall k, In k ks -> ~ (x' = x + k * dx /\ y' = y + k * dy)) -> at_px p' x' y' = at_px p x' y').

Lemma line_changes p x y dx dy l f : plane_ok p -> direction dx dy ->
  (forall k v, In (k, v) l -> inside p (x + k * dx) (y + k * dy) = true /\ v = f k /\ byte_ok v) ->
  exists p', assign_block x y (line_list dx dy l) p = Some p' /\ changes x y dx dy (map fst l) f p p'.
Proof.
  intros Hp D H. destruct (assign_block_spec x y (line_list dx dy l) p (proj1 Hp)) as (p' & E & Hs & Hd & Ha).
  { intros c r v Hi. apply in_map_iff in Hi. destruct Hi as ([k w] & E & Hi). injection E as <- <- <-. apply (H k w Hi). }
  exists p'. split; [exact E|].
  assert (V : forall c r v, assigned (line_list dx dy l) c r = Some v -> exists k, c = k * dx /\ r = k * dy /\ In (k, v) l /\ v = f k /\ byte_ok v).
  { intros c r v Hv. apply assigned_in in Hv. apply in_map_iff in Hv. destruct Hv as ([k w] & E' & Hi). injection E' as <- <- <-.
    exists k. destruct (H k w Hi) as (_ & B & C). auto. }
  assert (P1 : forall k, In k (map fst l) -> at_px p' (x + k * dx) (y + k * dy) = f k).
  { intros k Hk. apply in_map_iff in Hk. destruct Hk as ([k' v] & <- & Hk). cbn [fst].
    rewrite Ha by apply (H k' v Hk). replace (x + k' * dx - x) with (k' * dx) by lia. replace (y + k' * dy - y) with (k' * dy) by lia.
    destruct (assigned_some (line_list dx dy l) (k' * dx) (k' * dy) v) as (w & W).
    { apply in_map_iff. exists (k', v). auto. }
    rewrite W. destruct (V _ _ _ W) as (k2 & E1 & E2 & _ & -> & _). f_equal. destruct D as [[-> ->]|[-> ->]]; lia. }
  assert (P2 : forall x' y', inside p x' y' = true -> (forall k, In k (map fst l) -> ~ (x' = x + k * dx /\ y' = y + k * dy)) -> at_px p' x' y' = at_px p x' y').
  { intros x' y' Hi N. rewrite Ha by exact Hi. destruct (assigned (line_list dx dy l) (x' - x) (y' - y)) as [v|] eqn:W; [|reflexivity].
    destruct (V _ _ _ W) as (k & E1 & E2 & Hk & _). exfalso. apply (N k); [apply in_map_iff; exists (k, v); auto|lia]. }
  split; [|split; [exact Hd|split; [exact P1|exact P2]]].
  apply plane_ok_at; [exact Hs|]. intros x' y' Hi. rewrite (inside_dims p' p x' y' Hd) in Hi. rewrite Ha by exact Hi.
  destruct (assigned _ _ _) as [v|] eqn:W; [destruct (V _ _ _ W) as (k & _ & _ & _ & _ & B); exact B|apply at_px_byte; assumption].
Qed.

Definition pick6 (t : Z * Z * Z * Z * Z * Z) (k : Z) : Z :=
  let '(n2, n1, n0, m0, m1, m2) := t in
  if k =? -3 then n2 else if k =? -2 then n1 else if k =? -1 then n0 else if k =? 0 then m0 else if k =? 1 then m1 else m2.
Definition pick4 (t : Z * Z * Z * Z) (k : Z) : Z :=
  let '(n1, n0, m0, m1) := t in
  if k =? -2 then n1 else if k =? -1 then n0 else if k =? 0 then m0 else m1.

Lemma sub_edge_bytes h p1 p0 q0 q1 k : byte_ok (pick4 (sub_edge h p1 p0 q0 q1) k).
Proof.
  unfold sub_edge. destruct (common h p1 p0 q0 q1) as [f b]. unfold pick4.
  repeat match goal with |- byte_ok (if ?b then _ else _) => destruct b end; apply s2u_byte.
Qed.
Lemma mb_edge_bytes h p2 p1 p0 q0 q1 q2 k : byte_ok p2 -> byte_ok p1 -> byte_ok q1 -> byte_ok q2 -> byte_ok (pick6 (mb_edge h p2 p1 p0 q0 q1 q2) k).
Proof.
  intros. unfold mb_edge. destruct h; [destruct (common true p1 p0 q0 q1) as [f b]|]; unfold pick6;
  repeat match goal with |- byte_ok (if ?b then _ else _) => destruct b end; try apply s2u_byte; assumption.
Qed.

(** The pixels on both sides of an edge, as the filters see them. *)
Definition line_smooth (I E : Z) (p : plane) (x y dx dy : Z) : Prop :=
  let v := along p x y dx dy in smooth I E (v (-4)) (v (-3)) (v (-2)) (v (-1)) (v 0) (v 1) (v 2) (v 3).
Definition line_variance (T : Z) (p : plane) (x y dx dy : Z) : bool :=
  let v := along p x y dx dy in variance T (v (-2)) (v (-1)) (v 0) (v 1).

Definition line_inside (p : plane) (x y dx dy : Z) : Prop := forall k, -4 <= k <= 3 -> inside p (x + k * dx) (y + k * dy) = true.

Lemma line_reads p x y dx dy step : shaped p -> step = dy * pl_w p + dx -> line_inside p x y dx dy ->
  inside p x y = true /\
  praw p (y * pl_w p + x - 4 * step) = Some (along p x y dx dy (-4)) /\ praw p (y * pl_w p + x - 3 * step) = Some (along p x y dx dy (-3)) /\
  praw p (y * pl_w p + x - 2 * step) = Some (along p x y dx dy (-2)) /\ praw p (y * pl_w p + x - step) = Some (along p x y dx dy (-1)) /\
  praw p (y * pl_w p + x) = Some (along p x y dx dy 0) /\ praw p (y * pl_w p + x + step) = Some (along p x y dx dy 1) /\
  praw p (y * pl_w p + x + 2 * step) = Some (along p x y dx dy 2) /\ praw p (y * pl_w p + x + 3 * step) = Some (along p x y dx dy 3).
Proof.
  intros Hp Hst Hi.
  assert (G : forall k, -4 <= k <= 3 -> praw p (y * pl_w p + x + k * step) = Some (along p x y dx dy k)).
  { intros k Hk. apply line_get; [exact Hp|exact Hst|apply Hi; exact Hk]. }
  split; [specialize (Hi 0 ltac:(lia)); rewrite !Z.mul_0_l, !Z.add_0_r in Hi; exact Hi|].
  repeat split; rewrite <- G by lia; f_equal; lia.
Qed.

Lemma changes_self x y dx dy ks f p p' : changes x y dx dy ks f p p' -> changes x y dx dy ks (along p' x y dx dy) p p'.
Proof. intros (A & B & C & D). split; [exact A|]. split; [exact B|]. split; [reflexivity|exact D]. Qed.

Lemma changes_none x y dx dy ks p p' : plane_ok p -> changes x y dx dy ks (along p x y dx dy) p p' -> p' = p.
Proof.
  intros Hp (A & B & C & D). apply plane_ext; [apply A|apply Hp|exact B|]. intros x' y' Hi. rewrite (inside_dims p' p x' y' B) in Hi.
  destruct (existsb (fun k => (x' =? x + k * dx) && (y' =? y + k * dy)) ks) eqn:E.
  - apply existsb_exists in E. destruct E as (k & Hk & E). assert (x' = x + k * dx /\ y' = y + k * dy) as [-> ->] by lia. apply C, Hk.
  - apply D; [exact Hi|]. intros k Hk [-> ->]. enough (existsb (fun k' => (x + k * dx =? x + k' * dx) && (y + k * dy =? y + k' * dy)) ks = true) by congruence.
    apply existsb_exists. exists k. split; [exact Hk|lia].
Qed.

(** One position of an edge between macroblocks: no access outside of the
    plane, three pixels on each side get the values of the description. *)
Theorem C33_mb_edge_position :
  forall lm p x y dx dy, plane_ok p -> direction dx dy -> line_inside p x y dx dy ->
  let v := along p x y dx dy in
  exists p', mb_edge_at lm x y (dy * pl_w p + dx) p = Some p' /\
    (line_smooth (lm_interior lm) (lm_mb lm) p x y dx dy ->
       changes x y dx dy [-3; -2; -1; 0; 1; 2] (pick6 (mb_edge (line_variance (lm_hev lm) p x y dx dy) (v (-3)) (v (-2)) (v (-1)) (v 0) (v 1) (v 2))) p p') /\
    (~ line_smooth (lm_interior lm) (lm_mb lm) p x y dx dy -> p' = p) /\
    changes x y dx dy [-3; -2; -1; 0; 1; 2] (along p' x y dx dy) p p'.
Proof.
  intros lm p x y dx dy Hp D Hi v. set (step := dy * pl_w p + dx).
  destruct (line_reads p x y dx dy step (proj1 Hp) eq_refl Hi) as (I0 & R1 & R2 & R3 & R4 & R5 & R6 & R7 & R8).
  unfold mb_edge_at. rewrite I0. cbn [negb]. rewrite R1, R2, R3, R4, R5, R6, R7, R8. cbn [obind]. fold v.
  assert (BV : forall k, -4 <= k <= 3 -> byte_ok (v k)) by (intros; apply at_px_byte; [exact Hp|apply Hi; lia]).
  set (i := y * pl_w p + x).
  assert (K : forall n2 n1 n0 m0 m1 m2 k w, In (k, w) [(-3, n2); (-2, n1); (-1, n0); (0, m0); (1, m1); (2, m2)] ->
                -4 <= k <= 3 /\ w = pick6 (n2, n1, n0, m0, m1, m2) k).
  { intros n2 n1 n0 m0 m1 m2 k w H. repeat (destruct H as [H|H]; [injection H as <- <-; split; [lia|reflexivity]|]); destruct H. }
  assert (W : forall n2 n1 n0 m0 m1 m2,
    (let? p := praw_set p (i - 3 * step) n2 in let? p := praw_set p (i - 2 * step) n1 in
     let? p := praw_set p (i - step) n0 in let? p := praw_set p i m0 in
     let? p := praw_set p (i + step) m1 in praw_set p (i + 2 * step) m2) =
    assign_block x y (line_list dx dy [(-3, n2); (-2, n1); (-1, n0); (0, m0); (1, m1); (2, m2)]) p).
  { intros. rewrite <- (line_writes p x y dx dy step); [|reflexivity| |apply Hp|apply same_dims_refl].
    - fold i. cbn [ofold]. replace (i + -3 * step) with (i - 3 * step) by lia. replace (i + -2 * step) with (i - 2 * step) by lia. replace (i + -1 * step) with (i - step) by lia.
      replace (i + 0 * step) with i by lia. replace (i + 1 * step) with (i + step) by lia.
      repeat (match goal with |- obind ?o _ = obind ?o _ => destruct o; cbn [obind]; [|reflexivity] end).
      match goal with |- ?o = _ => destruct o; reflexivity end.
    - intros k w H. apply Hi, (K _ _ _ _ _ _ _ _ H). }
  unfold line_smooth. fold v. cbv zeta.
  destruct (filter_mask_cases (lm_interior lm) (lm_mb lm) (v (-4)) (v (-3)) (v (-2)) (v (-1)) (v 0) (v 1) (v 2) (v 3)) as [[S M]|[S M]]; rewrite M, hev_mask_variance;
  change (variance (lm_hev lm) (v (-2)) (v (-1)) (v 0) (v 1)) with (line_variance (lm_hev lm) p x y dx dy);
  destruct (C33_macroblock_edge (line_variance (lm_hev lm) p x y dx dy) (v (-3)) (v (-2)) (v (-1)) (v 0) (v 1) (v 2)) as [E1 E2]; try (apply BV; lia).
  - rewrite E1. pose proof (mb_edge_bytes (line_variance (lm_hev lm) p x y dx dy) (v (-3)) (v (-2)) (v (-1)) (v 0) (v 1) (v 2)) as MB.
    destruct (mb_edge (line_variance (lm_hev lm) p x y dx dy) (v (-3)) (v (-2)) (v (-1)) (v 0) (v 1) (v 2)) as [[[[[n2 n1] n0] m0] m1] m2]. rewrite W.
    destruct (line_changes p x y dx dy [(-3, n2); (-2, n1); (-1, n0); (0, m0); (1, m1); (2, m2)] (pick6 (n2, n1, n0, m0, m1, m2))) as (p' & E & C); try assumption.
    { intros k w H. destruct (K _ _ _ _ _ _ _ _ H) as [Hk ->]. split; [apply Hi, Hk|]. split; [reflexivity|]. apply MB; apply BV; lia. }
    exists p'. split; [exact E|]. split; [intros _; exact C|]. split; [intros N; contradiction|apply changes_self in C; exact C].
  - rewrite E2, W.
    destruct (line_changes p x y dx dy [(-3, v (-3)); (-2, v (-2)); (-1, v (-1)); (0, v 0); (1, v 1); (2, v 2)] v) as (p' & E & C); try assumption.
    { intros k w H. repeat (destruct H as [H|H]; [injection H as <- <-; split; [apply Hi; lia|]; split; [reflexivity|apply BV; lia]|]); destruct H. }
    exists p'. split; [exact E|]. split; [intros N; contradiction|]. split; [intros _; exact (changes_none _ _ _ _ _ _ _ Hp C)|apply changes_self in C; exact C].
Qed.

(** One position of an edge inside of a macroblock: two pixels on each side. *)
Theorem C33_sb_edge_position :
  forall lm p x y dx dy, plane_ok p -> direction dx dy -> line_inside p x y dx dy ->
  let v := along p x y dx dy in
  exists p', sb_edge_at lm x y (dy * pl_w p + dx) p = Some p' /\
    (line_smooth (lm_interior lm) (lm_sb lm) p x y dx dy ->
       changes x y dx dy [-2; -1; 0; 1] (pick4 (sub_edge (line_variance (lm_hev lm) p x y dx dy) (v (-2)) (v (-1)) (v 0) (v 1))) p p') /\
    (~ line_smooth (lm_interior lm) (lm_sb lm) p x y dx dy -> p' = p) /\
    changes x y dx dy [-2; -1; 0; 1] (along p' x y dx dy) p p'.
Proof.
  intros lm p x y dx dy Hp D Hi v. set (step := dy * pl_w p + dx).
  destruct (line_reads p x y dx dy step (proj1 Hp) eq_refl Hi) as (I0 & R1 & R2 & R3 & R4 & R5 & R6 & R7 & R8).
  unfold sb_edge_at. rewrite I0. cbn [negb]. rewrite R1, R2, R3, R4, R5, R6, R7, R8. cbn [obind]. fold v.
  assert (BV : forall k, -4 <= k <= 3 -> byte_ok (v k)) by (intros; apply at_px_byte; [exact Hp|apply Hi; lia]).
  set (i := y * pl_w p + x).
  assert (K : forall n1 n0 m0 m1 k w, In (k, w) [(-2, n1); (-1, n0); (0, m0); (1, m1)] ->
                -4 <= k <= 3 /\ w = pick4 (n1, n0, m0, m1) k).
  { intros n1 n0 m0 m1 k w H. repeat (destruct H as [H|H]; [injection H as <- <-; split; [lia|reflexivity]|]); destruct H. }
  assert (W : forall n1 n0 m0 m1,
    (let? p := praw_set p (i - 2 * step) n1 in
     let? p := praw_set p (i - step) n0 in let? p := praw_set p i m0 in
     praw_set p (i + step) m1) =
    assign_block x y (line_list dx dy [(-2, n1); (-1, n0); (0, m0); (1, m1)]) p).
  { intros. rewrite <- (line_writes p x y dx dy step); [|reflexivity| |apply Hp|apply same_dims_refl].
    - fold i. cbn [ofold]. replace (i + -2 * step) with (i - 2 * step) by lia. replace (i + -1 * step) with (i - step) by lia.
      replace (i + 0 * step) with i by lia. replace (i + 1 * step) with (i + step) by lia.
      repeat (match goal with |- obind ?o _ = obind ?o _ => destruct o; cbn [obind]; [|reflexivity] end).
      match goal with |- ?o = _ => destruct o; reflexivity end.
    - intros k w H. apply Hi, (K _ _ _ _ _ _ H). }
  unfold line_smooth. fold v. cbv zeta.
  destruct (filter_mask_cases (lm_interior lm) (lm_sb lm) (v (-4)) (v (-3)) (v (-2)) (v (-1)) (v 0) (v 1) (v 2) (v 3)) as [[S M]|[S M]]; rewrite M, hev_mask_variance;
  change (variance (lm_hev lm) (v (-2)) (v (-1)) (v 0) (v 1)) with (line_variance (lm_hev lm) p x y dx dy);
  destruct (C33_subblock_edge (line_variance (lm_hev lm) p x y dx dy) (v (-2)) (v (-1)) (v 0) (v 1)) as [E1 E2]; try (apply BV; lia).
  - rewrite E1. pose proof (sub_edge_bytes (line_variance (lm_hev lm) p x y dx dy) (v (-2)) (v (-1)) (v 0) (v 1)) as MB.
    destruct (sub_edge (line_variance (lm_hev lm) p x y dx dy) (v (-2)) (v (-1)) (v 0) (v 1)) as [[[n1 n0] m0] m1]. rewrite W.
    destruct (line_changes p x y dx dy [(-2, n1); (-1, n0); (0, m0); (1, m1)] (pick4 (n1, n0, m0, m1))) as (p' & E & C); try assumption.
    { intros k w H. destruct (K _ _ _ _ _ _ H) as [Hk ->]. split; [apply Hi, Hk|]. split; [reflexivity|]. apply MB. }
    exists p'. split; [exact E|]. split; [intros _; exact C|]. split; [intros N; contradiction|apply changes_self in C; exact C].
  - rewrite E2, W.
    destruct (line_changes p x y dx dy [(-2, v (-2)); (-1, v (-1)); (0, v 0); (1, v 1)] v) as (p' & E & C); try assumption.
    { intros k w H. repeat (destruct H as [H|H]; [injection H as <- <-; split; [apply Hi; lia|]; split; [reflexivity|apply BV; lia]|]); destruct H. }
    exists p'. split; [exact E|]. split; [intros N; contradiction|]. split; [intros _; exact (changes_none _ _ _ _ _ _ _ Hp C)|apply changes_self in C; exact C].
Qed.

(** ** Blocks *)

(** Only the pixels of a rectangle may differ. *)
Definition within (xa xb ya yb : Z) (p p' : plane) : Prop :=
  plane_ok p' /\ same_dims p' p /\
  forall x y, inside p x y = true -> ~ (xa <= x <= xb /\ ya <= y <= yb) -> at_px p' x y = at_px p x y.

Lemma within_refl xa xb ya yb p : plane_ok p -> within xa xb ya yb p p.
Proof. intros H. split; [exact H|]. split; [apply same_dims_refl|reflexivity]. Qed.
Lemma within_trans xa xb ya yb p q r : within xa xb ya yb p q -> within xa xb ya yb q r -> within xa xb ya yb p r.
Proof.
  intros (A & B & C) (A' & B' & C'). split; [exact A'|]. split; [exact (same_dims_trans _ _ _ B' B)|].
  intros x y Hi N. rewrite C' by (try exact N; rewrite (inside_dims q p x y B); exact Hi). apply C; assumption.
Qed.
Lemma within_wider xa xb ya yb xa' xb' ya' yb' p q : xa' <= xa -> xb <= xb' -> ya' <= ya -> yb <= yb' ->
  within xa xb ya yb p q -> within xa' xb' ya' yb' p q.
Proof. intros H1 H2 H3 H4 (A & B & C). split; [exact A|]. split; [exact B|]. intros x y Hi N. apply C; [exact Hi|lia]. Qed.

Lemma ofold_within {A} xa xb ya yb (f : plane -> A -> option plane) l : forall p, plane_ok p ->
  (forall q a, In a l -> plane_ok q -> same_dims q p -> exists q', f q a = Some q' /\ within xa xb ya yb q q') ->
  exists p', ofold f l p = Some p' /\ within xa xb ya yb p p'.
Proof.
  induction l as [|a l IH]; intros p Hp H; [exists p; split; [reflexivity|apply within_refl, Hp]|].
  cbn [ofold]. destruct (H p a (or_introl eq_refl) Hp (same_dims_refl p)) as (q & E & Wq). rewrite E. cbn [obind].
  destruct (IH q (proj1 Wq)) as (p' & E' & W').
  { intros q2 b Hb O2 D2. apply H; [right; exact Hb|exact O2|exact (same_dims_trans _ _ _ D2 (proj1 (proj2 Wq)))]. }
  exists p'. split; [exact E'|]. exact (within_trans _ _ _ _ _ _ _ Wq W').
Qed.

Lemma changes_within x y dx dy ks f p p' xa xb ya yb :
  (forall k, In k ks -> xa <= x + k * dx <= xb /\ ya <= y + k * dy <= yb) -> changes x y dx dy ks f p p' -> within xa xb ya yb p p'.
Proof.
  intros H (A & B & _ & C). split; [exact A|]. split; [exact B|]. intros x' y' Hi N. apply C; [exact Hi|].
  intros k Hk [-> ->]. apply N, H, Hk.
Qed.

Lemma in6 k : In k [-3; -2; -1; 0; 1; 2] -> -3 <= k <= 2.
Proof. cbn [In]. lia. Qed.
Lemma in4 k : In k [-2; -1; 0; 1] -> -2 <= k <= 1.
Proof. cbn [In]. lia. Qed.
Lemma inner_edges_in size k : In k (inner_edges size) -> 4 <= k <= size - 4 \/ ~ size mod 4 = 0.
Proof. unfold inner_edges. intros H. apply filter_In in H. destruct H as [H B]. apply zseq_in in H. lia. Qed.

(** A block of 16 or 8 pixels that is inside of the plane. *)
Definition block_fits (size x0 y0 : Z) (p : plane) : Prop :=
  (size = 16 \/ size = 8) /\ 0 <= x0 /\ x0 + size <= pl_w p /\ 0 <= y0 /\ y0 + size <= pl_h p.

Section passes.
  Variables (size x0 y0 : Z) (lm : limits).

  Lemma mb_vertical_within p : plane_ok p -> block_fits size x0 y0 p -> 4 <= x0 ->
    exists p', mb_vertical size x0 y0 lm p = Some p' /\ within (x0 - 3) (x0 + 2) y0 (y0 + size - 1) p p'.
  Proof.
    intros Hp (Hs & F) Hx. apply ofold_within; [exact Hp|]. intros q row Hr Oq [D1 D2]. apply zseq_in in Hr.
    destruct (C33_mb_edge_position lm q x0 (y0 + row) 1 0 Oq (or_introl (conj eq_refl eq_refl))) as (q' & E & _ & _ & C).
    { intros k Hk. apply inside_iff. rewrite D1, D2. lia. }
    exists q'. split; [exact E|]. eapply changes_within; [|exact C]; intros k Hk; apply in6 in Hk; lia.
  Qed.

  Lemma mb_horizontal_within p : plane_ok p -> block_fits size x0 y0 p -> 4 <= y0 ->
    exists p', mb_horizontal size x0 y0 lm p = Some p' /\ within x0 (x0 + size - 1) (y0 - 3) (y0 + 2) p p'.
  Proof.
    intros Hp (Hs & F) Hx. apply ofold_within; [exact Hp|]. intros q column Hr Oq [D1 D2]. apply zseq_in in Hr.
    destruct (C33_mb_edge_position lm q (x0 + column) y0 0 1 Oq (or_intror (conj eq_refl eq_refl))) as (q' & E & _ & _ & C).
    { intros k Hk. apply inside_iff. rewrite D1, D2. lia. }
    exists q'. split; [rewrite <- E; f_equal; lia|]. eapply changes_within; [|exact C]; intros k Hk; apply in6 in Hk; lia.
  Qed.

  Lemma sb_vertical_within p : plane_ok p -> block_fits size x0 y0 p ->
    exists p', sb_vertical size x0 y0 lm p = Some p' /\ within (x0 + 2) (x0 + size - 3) y0 (y0 + size - 1) p p'.
  Proof.
    intros Hp (Hs & F). apply ofold_within; [exact Hp|]. intros q j Hj Oq [D1 D2]. apply inner_edges_in in Hj.
    apply ofold_within; [exact Oq|]. intros q2 row Hr Oq2 [D3 D4]. apply zseq_in in Hr.
    destruct (C33_sb_edge_position lm q2 (x0 + j) (y0 + row) 1 0 Oq2 (or_introl (conj eq_refl eq_refl))) as (q' & E & _ & _ & C).
    { intros k Hk. apply inside_iff. rewrite D3, D4, D1, D2. destruct Hs as [-> | ->]; lia. }
    exists q'. split; [exact E|]. eapply changes_within; [|exact C]; intros k Hk; apply in4 in Hk; destruct Hs as [-> | ->]; lia.
  Qed.

  Lemma sb_horizontal_within p : plane_ok p -> block_fits size x0 y0 p ->
    exists p', sb_horizontal size x0 y0 lm p = Some p' /\ within x0 (x0 + size - 1) (y0 + 2) (y0 + size - 3) p p'.
  Proof.
    intros Hp (Hs & F). apply ofold_within; [exact Hp|]. intros q j Hj Oq [D1 D2]. apply inner_edges_in in Hj.
    apply ofold_within; [exact Oq|]. intros q2 column Hr Oq2 [D3 D4]. apply zseq_in in Hr.
    destruct (C33_sb_edge_position lm q2 (x0 + column) (y0 + j) 0 1 Oq2 (or_intror (conj eq_refl eq_refl))) as (q' & E & _ & _ & C).
    { intros k Hk. apply inside_iff. rewrite D3, D4, D1, D2. destruct Hs as [-> | ->]; lia. }
    exists q'. split; [rewrite <- E; f_equal; lia|]. eapply changes_within; [|exact C]; intros k Hk; apply in4 in Hk; destruct Hs as [-> | ->]; lia.
  Qed.
End passes.

(** ** Macroblocks of a picture *)

(** Planes of a picture whose size in macroblocks is (mw, mh). *)
Definition raster_ok (mw mh : Z) (r : raster) : Prop :=
  (plane_ok (ra_y r) /\ pl_w (ra_y r) = 16 * mw /\ pl_h (ra_y r) = 16 * mh) /\
  (plane_ok (ra_u r) /\ pl_w (ra_u r) = 8 * mw /\ pl_h (ra_u r) = 8 * mh) /\
  (plane_ok (ra_v r) /\ pl_w (ra_v r) = 8 * mw /\ pl_h (ra_v r) = 8 * mh).

(** Only the pixels of the macroblock at (column, row), and of the three
    columns to its left and rows above it, may differ. *)
Definition touches (column row : Z) (r r' : raster) : Prop :=
  ra_dw r' = ra_dw r /\ ra_dh r' = ra_dh r /\
  within (16 * column - 3) (16 * column + 15) (16 * row - 3) (16 * row + 15) (ra_y r) (ra_y r') /\
  within (8 * column - 3) (8 * column + 7) (8 * row - 3) (8 * row + 7) (ra_u r) (ra_u r') /\
  within (8 * column - 3) (8 * column + 7) (8 * row - 3) (8 * row + 7) (ra_v r) (ra_v r').

Lemma touches_refl mw mh c w r : raster_ok mw mh r -> touches c w r r.
Proof. intros ((A & _) & (B & _) & (C & _)). split; [reflexivity|]. split; [reflexivity|]. split; [|split]; apply within_refl; assumption. Qed.
Lemma touches_trans c w p q r : touches c w p q -> touches c w q r -> touches c w p r.
Proof.
  intros (A1 & A2 & A3 & A4 & A5) (B1 & B2 & B3 & B4 & B5).
  split; [congruence|]. split; [congruence|]. split; [exact (within_trans _ _ _ _ _ _ _ A3 B3)|]. split; [exact (within_trans _ _ _ _ _ _ _ A4 B4)|exact (within_trans _ _ _ _ _ _ _ A5 B5)].
Qed.
Lemma touches_ok mw mh c w p q : raster_ok mw mh p -> touches c w p q -> raster_ok mw mh q.
Proof.
  intros ((A & A1 & A2) & (B & B1 & B2) & (C & C1 & C2)) (_ & _ & (D & [D1 D2] & _) & (E & [E1 E2] & _) & (F & [F1 F2] & _)).
  split; [|split]; (split; [assumption|split; congruence]).
Qed.

Lemma on_planes_touches mw mh c w f r : raster_ok mw mh r -> 0 <= c < mw -> 0 <= w < mh ->
  (forall size x0 y0 p, (x0 = size * c /\ y0 = size * w) -> plane_ok p -> block_fits size x0 y0 p ->
     exists p', f size x0 y0 p = Some p' /\ within (x0 - 3) (x0 + size - 1) (y0 - 3) (y0 + size - 1) p p') ->
  exists r', on_planes f c w r = Some r' /\ touches c w r r'.
Proof.
  intros ((A & A1 & A2) & (B & B1 & B2) & (C & C1 & C2)) Hc Hw H. unfold on_planes.
  destruct (H 16 (16 * c) (16 * w) (ra_y r)) as (y' & E1 & W1); [split; reflexivity|exact A|split; [left; reflexivity|lia]|].
  destruct (H 8 (8 * c) (8 * w) (ra_u r)) as (u' & E2 & W2); [split; reflexivity|exact B|split; [right; reflexivity|lia]|].
  destruct (H 8 (8 * c) (8 * w) (ra_v r)) as (v' & E3 & W3); [split; reflexivity|exact C|split; [right; reflexivity|lia]|].
  rewrite E1, E2, E3. cbn [obind]. eexists. split; [reflexivity|]. split; [reflexivity|]. split; [reflexivity|]. cbn [ra_y ra_u ra_v].
  replace (16 * c + 15) with (16 * c + 16 - 1) by lia. replace (16 * w + 15) with (16 * w + 16 - 1) by lia.
  replace (8 * c + 7) with (8 * c + 8 - 1) by lia. replace (8 * w + 7) with (8 * w + 8 - 1) by lia.
  split; [exact W1|split; [exact W2|exact W3]].
Qed.

(** Filtering a macroblock never leaves the picture, keeps its size and its
    pixels bytes, and only changes that macroblock and three pixels on. *)
Theorem C33_macroblock :
  forall mw mh lm skip column row r, raster_ok mw mh r -> 0 <= column < mw -> 0 <= row < mh ->
  exists r', normal_filter lm skip column row r = Some r' /\ raster_ok mw mh r' /\ touches column row r r'.
Proof.
  intros mw mh lm skip c w r Hr Hc Hw. unfold normal_filter.
  assert (S1 : exists r1, (if 0 <? c then on_planes (fun s x y => mb_vertical s x y lm) c w r else Some r) = Some r1 /\ touches c w r r1).
  { destruct (0 <? c) eqn:?; [|exists r; split; [reflexivity|exact (touches_refl mw mh c w r Hr)]].
    apply (on_planes_touches mw mh); try assumption. intros size x0 y0 p [-> ->] Hp F.
    destruct (mb_vertical_within size (size * c) (size * w) lm p Hp F) as (p' & E & W'); [destruct F as [[-> | ->] _]; lia|].
    exists p'. split; [exact E|]. eapply within_wider; [| | | |exact W']; destruct F as [[-> | ->] _]; lia. }
  destruct S1 as (r1 & E1 & T1). rewrite E1. cbn [obind]. pose proof (touches_ok mw mh c w r r1 Hr T1) as O1.
  assert (S2 : exists r2, (if skip then Some r1 else on_planes (fun s x y => sb_vertical s x y lm) c w r1) = Some r2 /\ touches c w r1 r2).
  { destruct skip; [exists r1; split; [reflexivity|exact (touches_refl mw mh c w r1 O1)]|].
    apply (on_planes_touches mw mh); try assumption. intros size x0 y0 p [-> ->] Hp F.
    destruct (sb_vertical_within size (size * c) (size * w) lm p Hp F) as (p' & E & W').
    exists p'. split; [exact E|]. eapply within_wider; [| | | |exact W']; destruct F as [[-> | ->] _]; lia. }
  destruct S2 as (r2 & E2 & T2). rewrite E2. cbn [obind]. pose proof (touches_ok mw mh c w r1 r2 O1 T2) as O2.
  assert (S3 : exists r3, (if 0 <? w then on_planes (fun s x y => mb_horizontal s x y lm) c w r2 else Some r2) = Some r3 /\ touches c w r2 r3).
  { destruct (0 <? w) eqn:?; [|exists r2; split; [reflexivity|exact (touches_refl mw mh c w r2 O2)]].
    apply (on_planes_touches mw mh); try assumption. intros size x0 y0 p [-> ->] Hp F.
    destruct (mb_horizontal_within size (size * c) (size * w) lm p Hp F) as (p' & E & W'); [destruct F as [[-> | ->] _]; lia|].
    exists p'. split; [exact E|]. eapply within_wider; [| | | |exact W']; destruct F as [[-> | ->] _]; lia. }
  destruct S3 as (r3 & E3 & T3). rewrite E3. cbn [obind]. pose proof (touches_ok mw mh c w r2 r3 O2 T3) as O3.
  assert (S4 : exists r4, (if skip then Some r3 else on_planes (fun s x y => sb_horizontal s x y lm) c w r3) = Some r4 /\ touches c w r3 r4).
  { destruct skip; [exists r3; split; [reflexivity|exact (touches_refl mw mh c w r3 O3)]|].
    apply (on_planes_touches mw mh); try assumption. intros size x0 y0 p [-> ->] Hp F.
    destruct (sb_horizontal_within size (size * c) (size * w) lm p Hp F) as (p' & E & W').
    exists p'. split; [exact E|]. eapply within_wider; [| | | |exact W']; destruct F as [[-> | ->] _]; lia. }
  destruct S4 as (r4 & E4 & T4). rewrite E4.
  exists r4. split; [reflexivity|]. split; [exact (touches_ok mw mh c w r3 r4 O3 T4)|].
  exact (touches_trans _ _ _ _ _ T1 (touches_trans _ _ _ _ _ T2 (touches_trans _ _ _ _ _ T3 T4))).
Qed.

(** The macroblock's own step: filtered, or the simple filter is refused. *)
Theorem C33_macroblock_step :
  forall mw mh key adj f m c column row r, raster_ok mw mh r -> 0 <= column < mw -> 0 <= row < mh ->
  (exists r', mb_loopfilter key adj f m c column row r = Some (Filtered r') /\ raster_ok mw mh r' /\ touches column row r r') \/
  (fp_simple f = true /\ mb_loopfilter key adj f m c column row r = Some SimpleUnsupported).
Proof.
  intros mw mh key adj f m c column row r Hr Hc Hw. unfold mb_loopfilter.
  set (f' := match adj with Some (ra, ma) => fp_adjust ra ma (mb_reference m) (mb_ymode m) f | None => f end).
  assert (S : fp_simple f' = fp_simple f) by (subst f'; destruct adj as [[ra ma]|]; reflexivity).
  destruct (fp_level f' <=? 0); [left; exists r; split; [reflexivity|split; [exact Hr|exact (touches_refl mw mh _ _ r Hr)]]|].
  rewrite S. destruct (fp_simple f); [right; split; reflexivity|]. left.
  destruct (C33_macroblock mw mh (make_limits key f') (y2_coded m && negb (has_nonzero m c)) column row r Hr Hc Hw) as (r' & E & A).
  rewrite E. cbn [obind]. exists r'. split; [reflexivity|exact A].
Qed.

(** A picture of one colour is left as it is. *)
Definition flat (v : Z) (p : plane) : Prop := forall x y, inside p x y = true -> at_px p x y = v.

Lemma mb_edge_flat lm v p x y dx dy : plane_ok p -> flat v p -> direction dx dy -> line_inside p x y dx dy ->
  mb_edge_at lm x y (dy * pl_w p + dx) p = Some p.
Proof.
  intros Hp Hv D Hi. destruct (C33_mb_edge_position lm p x y dx dy Hp D Hi) as (p' & E & C & N & _). rewrite E. f_equal.
  assert (A : forall k, -4 <= k <= 3 -> along p x y dx dy k = v) by (intros; apply Hv, Hi; lia).
  assert (B : byte_ok v) by (rewrite <- (A 0) by lia; apply at_px_byte; [exact Hp|apply Hi; lia]).
  unfold line_smooth in *. cbv zeta in *.
  destruct (filter_mask_cases (lm_interior lm) (lm_mb lm) (along p x y dx dy (-4)) (along p x y dx dy (-3)) (along p x y dx dy (-2)) (along p x y dx dy (-1))
     (along p x y dx dy 0) (along p x y dx dy 1) (along p x y dx dy 2) (along p x y dx dy 3)) as [[S _]|[S _]]; [|exact (N S)].
  specialize (C S). apply (changes_none x y dx dy [-3; -2; -1; 0; 1; 2]); [exact Hp|].
  destruct C as (C1 & C2 & C3 & C4). split; [exact C1|]. split; [exact C2|]. split; [|exact C4].
  intros k Hk. rewrite (C3 k Hk). rewrite !A by lia. destruct (C33_flat_edge (line_variance (lm_hev lm) p x y dx dy) v B) as [_ ->].
  apply in6 in Hk. rewrite (A k) by lia. unfold pick6. repeat match goal with |- (if ?b then _ else _) = _ => destruct b end; reflexivity.
Qed.

Lemma sb_edge_flat lm v p x y dx dy : plane_ok p -> flat v p -> direction dx dy -> line_inside p x y dx dy ->
  sb_edge_at lm x y (dy * pl_w p + dx) p = Some p.
Proof.
  intros Hp Hv D Hi. destruct (C33_sb_edge_position lm p x y dx dy Hp D Hi) as (p' & E & C & N & _). rewrite E. f_equal.
  assert (A : forall k, -4 <= k <= 3 -> along p x y dx dy k = v) by (intros; apply Hv, Hi; lia).
  assert (B : byte_ok v) by (rewrite <- (A 0) by lia; apply at_px_byte; [exact Hp|apply Hi; lia]).
  unfold line_smooth in *. cbv zeta in *.
  destruct (filter_mask_cases (lm_interior lm) (lm_sb lm) (along p x y dx dy (-4)) (along p x y dx dy (-3)) (along p x y dx dy (-2)) (along p x y dx dy (-1))
     (along p x y dx dy 0) (along p x y dx dy 1) (along p x y dx dy 2) (along p x y dx dy 3)) as [[S _]|[S _]]; [|exact (N S)].
  specialize (C S). apply (changes_none x y dx dy [-2; -1; 0; 1]); [exact Hp|].
  destruct C as (C1 & C2 & C3 & C4). split; [exact C1|]. split; [exact C2|]. split; [|exact C4].
  intros k Hk. rewrite (C3 k Hk). rewrite !A by lia. destruct (C33_flat_edge (line_variance (lm_hev lm) p x y dx dy) v B) as [-> _].
  apply in4 in Hk. rewrite (A k) by lia. unfold pick4. repeat match goal with |- (if ?b then _ else _) = _ => destruct b end; reflexivity.
Qed.

Lemma ofold_id {A S} (f : S -> A -> option S) l s : (forall a, In a l -> f s a = Some s) -> ofold f l s = Some s.
Proof. induction l as [|a l IH]; intros H; [reflexivity|]. cbn [ofold]. rewrite (H a (or_introl eq_refl)). cbn [obind]. apply IH. intros b Hb. apply H. right. exact Hb. Qed.

Lemma passes_flat size x0 y0 lm v p : plane_ok p -> flat v p -> block_fits size x0 y0 p ->
  (4 <= x0 -> mb_vertical size x0 y0 lm p = Some p) /\ (4 <= y0 -> mb_horizontal size x0 y0 lm p = Some p) /\
  sb_vertical size x0 y0 lm p = Some p /\ sb_horizontal size x0 y0 lm p = Some p.
Proof.
  intros Hp Hv (Hs & F). split; [|split; [|split]]; [intros Hx|intros Hy|..].
  - apply ofold_id. intros row Hr. apply zseq_in in Hr. apply (mb_edge_flat lm v p x0 (y0 + row) 1 0 Hp Hv (or_introl (conj eq_refl eq_refl))).
    intros k Hk. apply inside_iff. lia.
  - apply ofold_id. intros column Hr. apply zseq_in in Hr. replace (pl_w p) with (1 * pl_w p + 0) by lia.
    apply (mb_edge_flat lm v p (x0 + column) y0 0 1 Hp Hv (or_intror (conj eq_refl eq_refl))). intros k Hk. apply inside_iff. lia.
  - apply ofold_id. intros j Hj. apply inner_edges_in in Hj. apply ofold_id. intros row Hr. apply zseq_in in Hr.
    apply (sb_edge_flat lm v p (x0 + j) (y0 + row) 1 0 Hp Hv (or_introl (conj eq_refl eq_refl))). intros k Hk. apply inside_iff. destruct Hs as [-> | ->]; lia.
  - apply ofold_id. intros j Hj. apply inner_edges_in in Hj. apply ofold_id. intros column Hr. apply zseq_in in Hr. replace (pl_w p) with (1 * pl_w p + 0) by lia.
    apply (sb_edge_flat lm v p (x0 + column) (y0 + j) 0 1 Hp Hv (or_intror (conj eq_refl eq_refl))). intros k Hk. apply inside_iff. destruct Hs as [-> | ->]; lia.
Qed.

Lemma on_planes_id mw mh c w f r : raster_ok mw mh r -> 0 <= c < mw -> 0 <= w < mh ->
  (forall size x0 y0 p, (x0 = size * c /\ y0 = size * w) -> In p [ra_y r; ra_u r; ra_v r] -> plane_ok p -> block_fits size x0 y0 p -> f size x0 y0 p = Some p) ->
  on_planes f c w r = Some r.
Proof.
  intros ((A & A1 & A2) & (B & B1 & B2) & (C & C1 & C2)) Hc Hw H. unfold on_planes.
  rewrite (H 16 (16 * c) (16 * w) (ra_y r)); [|split; reflexivity|left; reflexivity|exact A|split; [left; reflexivity|lia]].
  rewrite (H 8 (8 * c) (8 * w) (ra_u r)); [|split; reflexivity|right; left; reflexivity|exact B|split; [right; reflexivity|lia]].
  rewrite (H 8 (8 * c) (8 * w) (ra_v r)); [|split; reflexivity|right; right; left; reflexivity|exact C|split; [right; reflexivity|lia]].
  destruct r; reflexivity.
Qed.

Theorem C33_flat_picture :
  forall mw mh lm skip column row r yv uv vv, raster_ok mw mh r -> 0 <= column < mw -> 0 <= row < mh ->
  flat yv (ra_y r) -> flat uv (ra_u r) -> flat vv (ra_v r) -> normal_filter lm skip column row r = Some r.
Proof.
  intros mw mh lm skip c w r yv uv vv Hr Hc Hw F1 F2 F3. unfold normal_filter.
  assert (FL : forall p, In p [ra_y r; ra_u r; ra_v r] -> exists v, flat v p).
  { intros p [<-|[<-|[<-|[]]]]; [exists yv|exists uv|exists vv]; assumption. }
  assert (G1 : (if 0 <? c then on_planes (fun s x y => mb_vertical s x y lm) c w r else Some r) = Some r).
  { destruct (0 <? c) eqn:?; [|reflexivity]. apply (on_planes_id mw mh); try assumption. intros size x0 y0 p [-> ->] Hin Hp F. destruct (FL p Hin) as (v & Fv).
    apply (passes_flat size _ _ lm v p Hp Fv F). destruct F as [[-> | ->] _]; lia. }
  assert (G2 : (if skip then Some r else on_planes (fun s x y => sb_vertical s x y lm) c w r) = Some r).
  { destruct skip; [reflexivity|]. apply (on_planes_id mw mh); try assumption. intros size x0 y0 p _ Hin Hp F. destruct (FL p Hin) as (v & Fv).
    apply (passes_flat size _ _ lm v p Hp Fv F). }
  assert (G3 : (if 0 <? w then on_planes (fun s x y => mb_horizontal s x y lm) c w r else Some r) = Some r).
  { destruct (0 <? w) eqn:?; [|reflexivity]. apply (on_planes_id mw mh); try assumption. intros size x0 y0 p [-> ->] Hin Hp F. destruct (FL p Hin) as (v & Fv).
    apply (passes_flat size _ _ lm v p Hp Fv F). destruct F as [[-> | ->] _]; lia. }
  rewrite G1. cbn [obind]. rewrite G2. cbn [obind]. rewrite G3. cbn [obind].
  destruct skip; [reflexivity|]. apply (on_planes_id mw mh); try assumption. intros size x0 y0 p _ Hin Hp F. destruct (FL p Hin) as (v & Fv).
  apply (passes_flat size _ _ lm v p Hp Fv F).
Qed.

(** ** Examples *)

(** A step from 100 to 110 is smoothed by a strong filter. *)
Example C33_step_example :
  mb_edge false 100 100 100 110 110 110 = (101, 103, 104, 106, 107, 109) /\
  sub_edge false 100 100 110 110 = (102, 104, 106, 108) /\
  smooth 10 193 100 100 100 100 110 110 110 110.
Proof. split; [vm_compute; reflexivity|]. split; [vm_compute; reflexivity|]. unfold smooth. vm_compute. repeat split; discriminate. Qed.

Definition two_tone (n : Z) : plane := mkPlane (2 * n) (2 * n) (flat_map (fun _ => map (fun x => if x <? n then 100 else 110) (zseq (2 * n))) (zseq (2 * n))).
Definition two_tone_raster : raster := mkRaster 32 32 (two_tone 16) (two_tone 8) (two_tone 8).
Example C33_picture_example :
  option_map (fun r => map (fun x => at_px (ra_y r) x 5) (zseq 32)) (normal_filter (make_limits false (mkFP false 40 0)) true 1 0 two_tone_raster) =
  Some ([100; 100; 100; 100; 100; 100; 100; 100; 100; 100; 100; 100; 100; 101; 103; 104; 106; 107; 109; 110; 110; 110; 110; 110; 110; 110; 110; 110; 110; 110; 110; 110]).
Proof. vm_compute. reflexivity. Qed.
Example C33_example : raster_ok 2 2 two_tone_raster /\ 0 <= 1 < 2 /\ 0 <= 0 < 2.
Proof.
  split; [|lia]. unfold raster_ok, plane_ok, shaped. cbn [ra_y ra_u ra_v two_tone_raster].
  repeat split; try (vm_compute; reflexivity); apply Forall_forall; intros v Hv; apply in_flat_map in Hv; destruct Hv as (_ & _ & Hv);
    apply in_map_iff in Hv; destruct Hv as (x & <- & _); unfold byte_ok; destruct (x <? _); lia.
Qed.
Example C34_example : make_limits true (mkFP false 32 3) = mkLim 32 6 74 70 1 /\ make_limits false (mkFP false 80 0) = mkLim 63 63 193 189 3.
Proof. split; vm_compute; reflexivity. Qed.

Print Assumptions C33_subblock_edge.
Print Assumptions C33_macroblock_edge.
Print Assumptions C33_flat_edge.
Print Assumptions C33_mb_edge_position.
Print Assumptions C33_sb_edge_position.
Print Assumptions C33_macroblock.
Print Assumptions C33_macroblock_step.
Print Assumptions C33_flat_picture.
Print Assumptions C34_limits.
Print Assumptions C34_level.
Print Assumptions C34_segment_level_limited_first_refuted.
