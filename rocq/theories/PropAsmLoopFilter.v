(** C77: the assembled loop filter across horizontal edges against the
    portable one. *)
From Verif Require Import Base MVModel FrameModel RasterModel RasterProofs LoopFilterModel PropLoopFilter PropAsmInter.
From Verif Require Import VarianceModel SimdModel SimdProofs AsmTransformProofs AsmLoopFilterModel AsmLoopFilterProofs AsmLoopFilterLanes AsmLoopFilterCalls AsmLoopFilterChroma.

(** ** Statements *)

(** A vector of 16 equal bytes, as the [alignas(16)] arrays of loopfilter.hh
    l.69-92 hold them. *)
Definition limit_vector (L : layout) (m : nat -> Z -> Z) (s : nat) (o v : Z) : Prop :=
  0 <= o /\ o + 16 <= extent L s /\ (base L s + o) mod 16 = 0 /\ (forall i, 0 <= i < 16 -> m s (o + i) = v).
(** The part of the stack that the code has to itself. *)
Definition own_stack (L : layout) (k : nat) : Prop := extent L k = 160 /\ base L k mod 16 = 0.
(** The limits for which the code is right: twice the difference across the edge
    saturates at 255, and the excess over the interior limit wraps. *)
Definition limits_in_range (lm : limits) : Prop := 0 <= lm_interior lm <= 127 /\ 0 <= lm_mb lm < 255 /\ 0 <= lm_sb lm < 255 /\ 0 <= lm_hev lm.

(** ** Proof *)

(** A pass that goes along an edge, one column after the other. *)
Section columns.
  Variables (edge : Z -> plane -> option plane) (y0 : Z) (ks : list Z) (val : (Z -> Z) -> Z -> Z) (p : plane) (x0 : Z).
  Hypothesis edge_ok : forall q x, plane_ok q -> same_dims q p -> x0 <= x < pl_w p ->
    exists q', edge x q = Some q' /\ changes x y0 0 1 ks (val (fun n => at_px q x (y0 + n))) q q'.
  Hypothesis val_ext : forall f g n, (forall n, -4 <= n <= 3 -> f n = g n) -> In n ks -> val f n = val g n.
  Hypothesis Hp : plane_ok p.
  Hypothesis X0 : 0 <= x0.
  Hypothesis Y0 : 4 <= y0 /\ y0 + 4 <= pl_h p.
  Hypothesis KS : forall n, In n ks -> -4 <= n <= 3.

  Lemma columns_ok : forall n, x0 + Z.of_nat n <= pl_w p ->
    exists p', ofold (fun q c => edge (x0 + c) q) (map Z.of_nat (seq 0 n)) p = Some p' /\ plane_ok p' /\ same_dims p' p /\
      (forall c j, 0 <= c < Z.of_nat n -> In j ks -> at_px p' (x0 + c) (y0 + j) = val (fun n => at_px p (x0 + c) (y0 + n)) j) /\
      (forall x y, inside p x y = true -> ~ (x0 <= x < x0 + Z.of_nat n /\ In (y - y0) ks) -> at_px p' x y = at_px p x y).
  Proof.
    induction n as [|n IH]; intros W.
    - exists p. split; [reflexivity|]. split; [exact Hp|]. split; [split; reflexivity|]. split; [intros; lia|reflexivity].
    - destruct IH as (q & E & Hq & Dq & V & U); [lia|].
      destruct (edge_ok q (x0 + Z.of_nat n) Hq Dq ltac:(lia)) as (p' & E' & Hp' & D' & V' & U').
      exists p'. rewrite seq_S, map_app, ofold_app, E. cbn [Nat.add map obind ofold]. rewrite E'. cbn [obind].
      split; [reflexivity|]. split; [exact Hp'|]. split; [apply (same_dims_trans _ q); assumption|].
      assert (IN : forall x y, inside p x y = true -> inside q x y = true) by (intros; rewrite (inside_dims q p); assumption).
      split.
      + intros c j Hc Hj. pose proof (KS j Hj) as Kj. destruct (Z.eq_dec c (Z.of_nat n)) as [-> |N].
        * specialize (V' j Hj). rewrite Z.mul_0_r, Z.mul_1_r, Z.add_0_r in V'. rewrite V'. apply val_ext; [|exact Hj].
          intros i Hi. apply U; [apply inside_iff; lia|lia].
        * rewrite U'; [apply V; [lia|exact Hj]|apply IN, inside_iff; lia|intros; lia].
      + intros x y I N. rewrite U'.
        * apply U; [exact I|]. intros (A & B). apply N. split; [lia|exact B].
        * apply IN, I.
        * intros j Hj (-> & ->). apply N. split; [lia|]. replace (y0 + j * 1 - y0) with j by lia. exact Hj.
  Qed.
End columns.

Lemma vmask_line I E p x y : vmask I E (fun n => at_px p x (y + n)) = true <-> line_smooth I E p x y 0 1.
Proof.
  unfold line_smooth, along, vmask. cbv zeta.
  replace (x + -4 * 0) with x by lia. replace (x + -3 * 0) with x by lia. replace (x + -2 * 0) with x by lia. replace (x + -1 * 0) with x by lia.
  replace (x + 0 * 0) with x by lia. replace (x + 1 * 0) with x by lia. replace (x + 2 * 0) with x by lia. replace (x + 3 * 0) with x by lia.
  rewrite !Z.mul_1_r. rewrite Z.eqb_eq.
  match goal with |- filter_mask ?I' ?E' ?a ?b ?c ?d ?e ?f ?g ?h = _ <-> _ => pose proof (filter_mask_cases I' E' a b c d e f g h) as F end.
  intuition lia.
Qed.

Lemma mb_out_ext I E T f g n : (forall n, -4 <= n <= 3 -> f n = g n) -> In n [-3; -2; -1; 0; 1; 2] -> mb_out I E T f n = mb_out I E T g n.
Proof.
  intros H Hn. unfold mb_out, vmask, vhev. rewrite !H by lia. destruct (_ =? -1); [reflexivity|].
  apply H. cbn [In] in Hn. intuition lia.
Qed.

Lemma mb_column lm p : forall q x y, plane_ok q -> same_dims q p -> 0 <= x < pl_w p -> 4 <= y -> y + 4 <= pl_h p ->
  exists q', mb_edge_at lm x y (pl_w q) q = Some q' /\
    changes x y 0 1 [-3; -2; -1; 0; 1; 2] (mb_out (lm_interior lm) (lm_mb lm) (lm_hev lm) (fun n => at_px q x (y + n))) q q'.
Proof.
  intros q x y Hq (Dw & Dh) Hx Hy Hy'.
  destruct (C33_mb_edge_position lm q x y 0 1 Hq (or_intror (conj eq_refl eq_refl))) as (q' & E & S & N & Ch).
  { intros n Hn. apply inside_iff. lia. }
  exists q'. replace (1 * pl_w q + 0) with (pl_w q) in E by lia. split; [exact E|].
  pose proof (vmask_line (lm_interior lm) (lm_mb lm) q x y) as VM. unfold mb_out.
  destruct (vmask _ _ _) eqn:M.
  - specialize (S (proj1 VM eq_refl)).
    assert (A : forall n, along q x y 0 1 n = at_px q x (y + n)) by (intros; unfold along; f_equal; lia).
    unfold line_variance in S. rewrite !A in S. exact S.
  - assert (Q : q' = q) by (apply N; intros F; apply VM in F; congruence). subst q'.
    split; [exact Hq|]. split; [split; reflexivity|]. split; [|reflexivity].
    intros n Hn. f_equal; lia.
Qed.

(** The pass, a pixel at a time. *)
Lemma mb_horizontal_pixels size x0 y0 lm p : plane_ok p -> block_fits size x0 y0 p -> 4 <= y0 ->
  exists p', mb_horizontal size x0 y0 lm p = Some p' /\ plane_ok p' /\ same_dims p' p /\
    (forall c j, 0 <= c < size -> -3 <= j < 3 ->
       at_px p' (x0 + c) (y0 + j) = mb_out (lm_interior lm) (lm_mb lm) (lm_hev lm) (fun n => at_px p (x0 + c) (y0 + n)) j) /\
    (forall x y, inside p x y = true -> ~ (x0 <= x < x0 + size /\ -3 <= y - y0 < 3) -> at_px p' x y = at_px p x y).
Proof.
  intros Hp (S & X & XW & Y & YH) Y4.
  destruct (columns_ok (fun x q => mb_edge_at lm x y0 (pl_w q) q) y0 [-3; -2; -1; 0; 1; 2] (mb_out (lm_interior lm) (lm_mb lm) (lm_hev lm)) p x0) with (n := Z.to_nat size)
    as (p' & E & Hp' & D & V & U).
  - intros q x Hq Dq Hx. apply (mb_column lm p); [assumption|assumption|lia|lia|lia].
  - intros. apply mb_out_ext; assumption.
  - exact Hp.
  - exact X.
  - lia.
  - intros n Hn. cbn [In] in Hn. intuition lia.
  - lia.
  - exists p'. split; [exact E|]. split; [exact Hp'|]. split; [exact D|]. rewrite Z2Nat.id in * by lia. split.
    + intros c j Hc Hj. apply V; [exact Hc|]. cbn [In]. lia.
    + intros x y I N. apply U; [exact I|]. intros (A & B). apply N. split; [exact A|]. cbn [In] in B. lia.
Qed.

Lemma div16 x : x mod 16 = 0 -> x = 16 * (x / 16).
Proof. intros H. apply Z_div_exact_full_2; [lia|exact H]. Qed.

Lemma multiple16 x : x mod 16 = 0 -> exists c, x = 16 * c.
Proof. intros H. exists (x / 16). apply div16, H. Qed.
Lemma small_product a w : - w < a * w < w -> a = 0.
Proof. nia. Qed.

Lemma mb_out_ext' I E T f g n : (forall n, -4 <= n <= 3 -> f n = g n) -> -3 <= n < 3 -> mb_out I E T f n = mb_out I E T g n.
Proof. intros H Hn. apply mb_out_ext; [exact H|]. cbn [In]. lia. Qed.
Lemma sb_out_ext I E T f g n : (forall n, -4 <= n <= 3 -> f n = g n) -> -2 <= n < 2 -> sb_out I E T f n = sb_out I E T g n.
Proof.
  intros H Hn. unfold sb_out, vmask, vhev. rewrite !H by lia. reflexivity.
Qed.
Lemma sb_column lm p : forall q x y, plane_ok q -> same_dims q p -> 0 <= x < pl_w p -> 4 <= y -> y + 4 <= pl_h p ->
  exists q', sb_edge_at lm x y (pl_w q) q = Some q' /\
    changes x y 0 1 [-2; -1; 0; 1] (sb_out (lm_interior lm) (lm_sb lm) (lm_hev lm) (fun n => at_px q x (y + n))) q q'.
Proof.
  intros q x y Hq (Dw & Dh) Hx Hy Hy'.
  destruct (C33_sb_edge_position lm q x y 0 1 Hq (or_intror (conj eq_refl eq_refl))) as (q' & E & S & N & Ch).
  { intros n Hn. apply inside_iff. lia. }
  exists q'. replace (1 * pl_w q + 0) with (pl_w q) in E by lia. split; [exact E|].
  pose proof (vmask_line (lm_interior lm) (lm_sb lm) q x y) as VM. unfold sb_out.
  destruct (vmask _ _ _) eqn:M.
  - specialize (S (proj1 VM eq_refl)).
    assert (A : forall n, along q x y 0 1 n = at_px q x (y + n)) by (intros; unfold along; f_equal; lia).
    unfold line_variance in S. rewrite !A in S. exact S.
  - assert (Q : q' = q) by (apply N; intros F; apply VM in F; congruence). subst q'.
    split; [exact Hq|]. split; [split; reflexivity|]. split; [|reflexivity].
    intros n Hn. f_equal; lia.
Qed.
(** The inner edge of a block of chroma. *)
Lemma sb_horizontal_pixels x0 y0 lm p : plane_ok p -> block_fits 8 x0 y0 p ->
  exists p', sb_horizontal 8 x0 y0 lm p = Some p' /\ plane_ok p' /\ same_dims p' p /\
    (forall c j, 0 <= c < 8 -> -2 <= j < 2 ->
       at_px p' (x0 + c) (y0 + 4 + j) = sb_out (lm_interior lm) (lm_sb lm) (lm_hev lm) (fun n => at_px p (x0 + c) (y0 + 4 + n)) j) /\
    (forall x y, inside p x y = true -> ~ (x0 <= x < x0 + 8 /\ -2 <= y - (y0 + 4) < 2) -> at_px p' x y = at_px p x y).
Proof.
  intros Hp (S & X & XW & Y & YH).
  destruct (columns_ok (fun x q => sb_edge_at lm x (y0 + 4) (pl_w q) q) (y0 + 4) [-2; -1; 0; 1] (sb_out (lm_interior lm) (lm_sb lm) (lm_hev lm)) p x0) with (n := 8%nat)
    as (p' & E & Hp' & D & V & U).
  - intros q x Hq Dq Hx. apply (sb_column lm p); [assumption|assumption|lia|lia|lia].
  - intros f g n H Hn. apply sb_out_ext; [exact H|]. cbn [In] in Hn. lia.
  - exact Hp.
  - exact X.
  - lia.
  - intros n Hn. cbn [In] in Hn. intuition lia.
  - cbn; lia.
  - exists p'. split; [|split; [exact Hp'|split; [exact D|]]].
    + unfold sb_horizontal. change (inner_edges 8) with [4]. cbn [ofold]. change (zseq 8) with (map Z.of_nat (seq 0 8)). rewrite E. reflexivity.
    + change (Z.of_nat 8) with 8 in *. split.
      * intros c j Hc Hj. apply V; [exact Hc|]. cbn [In]. lia.
      * intros x y I N. apply U; [exact I|]. intros (A & B). apply N. split; [exact A|]. cbn [In] in B. lia.
Qed.

(** A plane in memory whose rows around the edge were filtered. *)
Lemma filtered_holds (val : (Z -> Z) -> Z -> Z) lowest highest size x0 y0 p p' m m' s :
  (forall f g n, (forall n, -4 <= n <= 3 -> f n = g n) -> lowest <= n < highest -> val f n = val g n) -> -4 <= lowest -> highest <= 4 ->
  holds m s p -> 0 <= x0 -> x0 + size <= pl_w p -> 4 <= y0 -> y0 + 4 <= pl_h p -> same_dims p' p ->
  (forall c j, 0 <= c < size -> lowest <= j < highest ->
     at_px p' (x0 + c) (y0 + j) = val (fun n => at_px p (x0 + c) (y0 + n)) j) ->
  (forall x y, inside p x y = true -> ~ (x0 <= x < x0 + size /\ lowest <= y - y0 < highest) -> at_px p' x y = at_px p x y) ->
  (forall i j, (i < Z.to_nat size)%nat -> lowest <= j < highest -> m' s (y0 * pl_w p + x0 + j * pl_w p + Z.of_nat i) =
     val (fun n => m s (y0 * pl_w p + x0 + n * pl_w p + Z.of_nat i)) j) ->
  (forall x, (forall j i, lowest <= j < highest -> 0 <= i < size -> x <> y0 * pl_w p + x0 + j * pl_w p + i) -> m' s x = m s x) ->
  holds m' s p'.
Proof.
  intros Ext Lo Hi' Hm X XW Y4 YH Dp VP UP VM UM x y I. rewrite (inside_dims p' p) in I by exact Dp. destruct Dp as (Dw & Dh). rewrite Dw.
  apply inside_iff in I as J.
  destruct (Z_lt_dec x x0) as [A|A]; [|destruct (Z_lt_dec x (x0 + size)) as [B|B]; [destruct (Z_lt_dec y (y0 + lowest)) as [C|C]; [|destruct (Z_lt_dec y (y0 + highest)) as [D|D]]|]].
  3: { specialize (VM (Z.to_nat (x - x0)) (y - y0) ltac:(lia) ltac:(lia)). rewrite Z2Nat.id in VM by lia.
       replace (y0 * pl_w p + x0 + (y - y0) * pl_w p + (x - x0)) with (y * pl_w p + x) in VM by ring. rewrite VM.
       specialize (VP (x - x0) (y - y0) ltac:(lia) ltac:(lia)).
       replace (x0 + (x - x0)) with x in VP by ring. replace (y0 + (y - y0)) with y in VP by ring. rewrite VP.
       apply Ext; [|lia].
       intros n Hn. rewrite <- Hm by (apply inside_iff; lia). f_equal. ring. }
  all: rewrite UP by (assumption || lia); rewrite UM; [apply Hm, I|]; intros j i Hj Hi F.
  all: assert (E : (y - y0 - j) * pl_w p = x0 + i - x) by lia; assert (y - y0 - j = 0) by (apply (small_product _ (pl_w p)); lia); lia.
Qed.

(** ** Theorems *)

(** The luma part: what the code leaves in memory is the plane that the portable
    pass returns. *)
Theorem C77_luma :
  forall L m k s bl bo li lo th to lm p x0 y0,
  AsmTransformProofs.bytes_ok m -> plane_ok p -> holds m s p -> pl_w p * pl_h p <= extent L s -> base L s mod 16 = 0 ->
  pl_w p mod 16 = 0 -> x0 mod 16 = 0 -> block_fits 16 x0 y0 p -> 4 <= y0 ->
  limit_vector L m bl bo (lm_mb lm) -> limit_vector L m li lo (lm_interior lm) -> limit_vector L m th to (lm_hev lm) ->
  limits_in_range lm -> own_stack L k -> s <> k -> bl <> k -> li <> k -> th <> k ->
  exists m' p', edge_call k L mbh_y (Ptr s (y0 * pl_w p + x0)) (pl_w p) (Ptr bl bo) (Ptr li lo) (Ptr th to) (Int 0) m = Some m' /\
    mb_horizontal 16 x0 y0 lm p = Some p' /\ holds m' s p' /\
    (forall s' x, s' <> k -> s' <> s \/ (forall r c, -3 <= r < 3 -> 0 <= c < 16 -> x <> (y0 + r) * pl_w p + (x0 + c)) -> m' s' x = m s' x).
Proof.
  intros L m k s bl bo li lo th to lm p x0 y0 BM Hp Hm Hx Hb Hw Hx0 Hf Y4 (B1 & B2 & B3 & B4) (L1 & L2 & L3 & L4) (T1 & T2 & T3 & T4) (RI & RE & RS & RT) (K1 & K2) N1 N2 N3 N4.
  destruct (mb_horizontal_pixels 16 x0 y0 lm p Hp Hf Y4) as (p' & EP & Hp' & Dp & VP & UP).
  destruct Hf as (_ & X & XW & Y & YH).
  apply div16 in Hb. apply div16 in Hw. apply div16 in Hx0. apply div16 in B3. apply div16 in L3. apply div16 in T3. apply div16 in K2.
  assert (W1 : y0 * pl_w p = 16 * (y0 * (pl_w p / 16))) by (rewrite Hw at 1; ring).
  assert (W2 : 4 * pl_w p <= y0 * pl_w p) by (apply Z.mul_le_mono_nonneg_r; lia).
  assert (W3 : (y0 + 4) * pl_w p <= pl_h p * pl_w p) by (apply Z.mul_le_mono_nonneg_r; lia).
  destruct (mbh_y_ok L k s (y0 * pl_w p + x0) (pl_w p) bl bo li lo th to m (base L s / 16 + y0 * (pl_w p / 16) + x0 / 16) (pl_w p / 16)
              ((base L bl + bo) / 16) ((base L li + lo) / 16) ((base L th + to) / 16) (base L k / 16) (lm_interior lm) (lm_mb lm) (lm_hev lm)) as (m' & EM & VM & UM);
    try assumption; try lia.
  - intros x. apply BM.
  - exists m', p'. split; [exact EM|]. split; [exact EP|]. split.
    + apply (filtered_holds (mb_out (lm_interior lm) (lm_mb lm) (lm_hev lm)) (-3) 3 16 x0 y0 p p' m m' s); try assumption; try (clear - YH; lia); [intros; apply mb_out_ext'; assumption|].
      intros x N. apply UM; [exact N1|right; exact N].
    + intros s' x A B. apply UM; [exact A|]. destruct B as [B|B]; [left; exact B|right]. intros j i Hj Hi F. apply (B j i Hj Hi). rewrite F. ring.
Qed.

(** The chroma part: both planes in one call. *)
Theorem C77_chroma :
  forall L m k s v bl bo li lo th to lm pu pv x0 y0,
  AsmTransformProofs.bytes_ok m -> plane_ok pu -> plane_ok pv -> same_dims pv pu -> holds m s pu -> holds m v pv ->
  pl_w pu * pl_h pu <= extent L s -> pl_w pu * pl_h pu <= extent L v -> block_fits 8 x0 y0 pu -> 4 <= y0 ->
  limit_vector L m bl bo (lm_mb lm) -> limit_vector L m li lo (lm_interior lm) -> limit_vector L m th to (lm_hev lm) ->
  limits_in_range lm -> own_stack L k -> s <> k -> v <> k -> s <> v -> bl <> k -> li <> k -> th <> k ->
  exists m' pu' pv',
    edge_call k L mbh_uv (Ptr s (y0 * pl_w pu + x0)) (pl_w pu) (Ptr bl bo) (Ptr li lo) (Ptr th to) (Ptr v (y0 * pl_w pu + x0)) m = Some m' /\
    mb_horizontal 8 x0 y0 lm pu = Some pu' /\ mb_horizontal 8 x0 y0 lm pv = Some pv' /\ holds m' s pu' /\ holds m' v pv' /\
    (forall s' x, s' <> k -> (s' <> s /\ s' <> v) \/ (forall r c, -3 <= r < 3 -> 0 <= c < 8 -> x <> (y0 + r) * pl_w pu + (x0 + c)) -> m' s' x = m s' x).
Proof.
  intros L m k s v bl bo li lo th to lm pu pv x0 y0 BM Hu Hv (Dw & Dh) Mu Mv Xu Xv Fu Y4 (B1 & B2 & B3 & B4) (L1 & L2 & L3 & L4) (T1 & T2 & T3 & T4) (RI & RE & RS & RT) (K1 & K2) N1 N5 N6 N2 N3 N4.
  assert (Fv : block_fits 8 x0 y0 pv) by (unfold block_fits; rewrite Dw, Dh; exact Fu).
  destruct (mb_horizontal_pixels 8 x0 y0 lm pu Hu Fu Y4) as (pu' & EU & _ & DU & VU & UU).
  destruct (mb_horizontal_pixels 8 x0 y0 lm pv Hv Fv Y4) as (pv' & EV & _ & DV & VV & UV).
  pose proof Fu as (_ & X & XW & Y & YH).
  apply multiple16 in B3. apply multiple16 in L3. apply multiple16 in T3. apply multiple16 in K2.
  destruct B3 as (c & B3), L3 as (d & L3), T3 as (e & T3), K2 as (f & K2).
  assert (W2 : 4 * pl_w pu <= y0 * pl_w pu) by (apply Z.mul_le_mono_nonneg_r; clear - X XW Y Y4 YH; lia).
  assert (W3 : (y0 + 4) * pl_w pu <= pl_h pu * pl_w pu) by (apply Z.mul_le_mono_nonneg_r; clear - X XW Y Y4 YH; lia).
  set (o := y0 * pl_w pu + x0) in *.
  destruct (mbh_uv_ok L k s v o o (pl_w pu) bl bo li lo th to m
              c d e f (lm_interior lm) (lm_mb lm) (lm_hev lm)
              (fun i n => join (fun i => m s (o + n * pl_w pu + Z.of_nat i)) (fun i => m v (o + n * pl_w pu + Z.of_nat i)) i)) as (m' & EM & VM & UM);
    try assumption; try (apply not_eq_sym; exact N6); try (intros; reflexivity); try (subst o; clear - X XW W2 W3 Xu Xv; lia).
  - intros i n. unfold join. destruct (Nat.ltb i 8); apply BM.
  - exists m', pu', pv'. split; [exact EM|]. split; [exact EU|]. split; [exact EV|]. split; [|split].
    + apply (filtered_holds (mb_out (lm_interior lm) (lm_mb lm) (lm_hev lm)) (-3) 3 8 x0 y0 pu pu' m m' s); try assumption; try (clear - YH; lia); fold o.
      * intros; apply mb_out_ext'; assumption.
      * intros i j Hi Hj. rewrite (proj1 (VM i j Hi Hj)). unfold lane_out. cbv beta. f_equal. unfold join.
        replace (Nat.ltb i 8) with true by (symmetry; apply Nat.ltb_lt; exact Hi). reflexivity.
      * intros x N. apply UM; [exact N1|right; exact N|left; exact N6].
    + apply (filtered_holds (mb_out (lm_interior lm) (lm_mb lm) (lm_hev lm)) (-3) 3 8 x0 y0 pv pv' m m' v); try assumption; rewrite ?Dw, ?Dh; try (clear - XW YH; lia); fold o.
      * intros; apply mb_out_ext'; assumption.
      * intros i j Hi Hj. rewrite (proj2 (VM i j Hi Hj)). unfold lane_out. apply mb_out_ext; [|clear - Hj; cbn [In]; lia]. intros n _. cbv beta. unfold join.
        replace (Nat.ltb (8 + i) 8) with false by reflexivity. replace (8 + i - 8)%nat with i by (clear; lia). reflexivity.
      * intros x N. apply UM; [exact N5|left; congruence|right; exact N].
    + intros s' x A B. apply UM; [exact A|..]; (destruct B as [(Bs & Bv)|B]; [left; assumption|right]; intros j i Hj Hi F; apply (B j i Hj Hi); rewrite F; unfold o; ring).
Qed.

(** The inner edge of chroma, four rows further down. *)
Theorem C77_chroma_inner :
  forall L m k s v bl bo li lo th to lm pu pv x0 y0,
  AsmTransformProofs.bytes_ok m -> plane_ok pu -> plane_ok pv -> same_dims pv pu -> holds m s pu -> holds m v pv ->
  pl_w pu * pl_h pu <= extent L s -> pl_w pu * pl_h pu <= extent L v -> block_fits 8 x0 y0 pu ->
  limit_vector L m bl bo (lm_sb lm) -> limit_vector L m li lo (lm_interior lm) -> limit_vector L m th to (lm_hev lm) ->
  limits_in_range lm -> own_stack L k -> s <> k -> v <> k -> s <> v -> bl <> k -> li <> k -> th <> k ->
  exists m' pu' pv',
    edge_call k L bh_uv (Ptr s ((y0 + 4) * pl_w pu + x0)) (pl_w pu) (Ptr bl bo) (Ptr li lo) (Ptr th to) (Ptr v ((y0 + 4) * pl_w pu + x0)) m = Some m' /\
    sb_horizontal 8 x0 y0 lm pu = Some pu' /\ sb_horizontal 8 x0 y0 lm pv = Some pv' /\ holds m' s pu' /\ holds m' v pv' /\
    (forall s' x, s' <> k -> (s' <> s /\ s' <> v) \/ (forall r c, -2 <= r < 2 -> 0 <= c < 8 -> x <> (y0 + 4 + r) * pl_w pu + (x0 + c)) -> m' s' x = m s' x).
Proof.
  intros L m k s v bl bo li lo th to lm pu pv x0 y0 BM Hu Hv (Dw & Dh) Mu Mv Xu Xv Fu (B1 & B2 & B3 & B4) (L1 & L2 & L3 & L4) (T1 & T2 & T3 & T4) (RI & RE & RS & RT) (K1 & K2) N1 N5 N6 N2 N3 N4.
  assert (Fv : block_fits 8 x0 y0 pv) by (unfold block_fits; rewrite Dw, Dh; exact Fu).
  destruct (sb_horizontal_pixels x0 y0 lm pu Hu Fu) as (pu' & EU & _ & DU & VU & UU).
  destruct (sb_horizontal_pixels x0 y0 lm pv Hv Fv) as (pv' & EV & _ & DV & VV & UV).
  pose proof Fu as (_ & X & XW & Y & YH).
  apply multiple16 in B3. apply multiple16 in L3. apply multiple16 in T3. apply multiple16 in K2.
  destruct B3 as (c & B3), L3 as (d & L3), T3 as (e & T3), K2 as (f & K2).
  assert (W2 : 4 * pl_w pu <= (y0 + 4) * pl_w pu) by (apply Z.mul_le_mono_nonneg_r; clear - X XW Y YH; lia).
  assert (W3 : (y0 + 4 + 4) * pl_w pu <= pl_h pu * pl_w pu) by (apply Z.mul_le_mono_nonneg_r; clear - X XW Y YH; lia).
  set (o := (y0 + 4) * pl_w pu + x0) in *.
  destruct (bh_uv_ok L k s v o o (pl_w pu) bl bo li lo th to m
              c d e f (lm_interior lm) (lm_sb lm) (lm_hev lm)
              (fun i n => join (fun i => m s (o + n * pl_w pu + Z.of_nat i)) (fun i => m v (o + n * pl_w pu + Z.of_nat i)) i)) as (m' & EM & VM & UM);
    try assumption; try (apply not_eq_sym; exact N6); try (intros; reflexivity); try (subst o; clear - X XW W2 W3 Xu Xv; lia).
  - intros i n. unfold join. destruct (Nat.ltb i 8); apply BM.
  - exists m', pu', pv'. split; [exact EM|]. split; [exact EU|]. split; [exact EV|]. split; [|split].
    + apply (filtered_holds (sb_out (lm_interior lm) (lm_sb lm) (lm_hev lm)) (-2) 2 8 x0 (y0 + 4) pu pu' m m' s); try assumption; try (clear - Y YH; lia); fold o.
      * intros; apply sb_out_ext; assumption.
      * intros i j Hi Hj. rewrite (proj1 (VM i j Hi Hj)). cbv beta. f_equal. unfold join.
        replace (Nat.ltb i 8) with true by (symmetry; apply Nat.ltb_lt; exact Hi). reflexivity.
      * intros x N. apply UM; [exact N1|right; exact N|left; exact N6].
    + apply (filtered_holds (sb_out (lm_interior lm) (lm_sb lm) (lm_hev lm)) (-2) 2 8 x0 (y0 + 4) pv pv' m m' v); try assumption; rewrite ?Dw, ?Dh; try (clear - XW Y YH; lia); fold o.
      * intros; apply sb_out_ext; assumption.
      * intros i j Hi Hj. rewrite (proj2 (VM i j Hi Hj)). apply sb_out_ext; [|exact Hj]. intros n _. cbv beta. unfold join.
        replace (Nat.ltb (8 + i) 8) with false by reflexivity. replace (8 + i - 8)%nat with i by (clear; lia). reflexivity.
      * intros x N. apply UM; [exact N5|left; congruence|right; exact N].
    + intros s' x A B. apply UM; [exact A|..]; (destruct B as [(Bs & Bv)|B]; [left; assumption|right]; intros j i Hj Hi F; apply (B j i Hj Hi); rewrite F; unfold o; ring).
Qed.

(** The limits that the decoder derives from the header of a frame. *)
Theorem C77_limits : forall key f, 0 <= fp_sharpness f <= 7 -> limits_in_range (make_limits key f).
Proof.
  intros key f S. destruct (C34_limits key f S) as (A & B & _ & _ & C & D & C' & D' & E). unfold limits_in_range.
  split; [lia|]. split; [lia|]. split; [lia|]. rewrite E. generalize (lm_level (make_limits key f)). clear. intros l. destruct key; destruct (40 <=? l), (15 <=? l), (20 <=? l); lia.
Qed.

(** ** A picture of 32 x 32 pixels with an edge above its eighth row. *)
Definition px0 (a : Z) : Z := (100 + (a * a * 7 / 64) mod 9 + a / 128 * 2 + a mod 5) mod 256.
Definition plane0 : plane := mkPlane 32 32 (map px0 (zseq 1024)).
Definition layout0 : layout := mkLayout (fun s => match s with O => 1024 | 1%nat => 160 | _ => 16 end) (fun _ => 0).
Definition memory0 (interior mb hev : Z) (s : nat) (a : Z) : Z :=
  match s with O => nth (Z.to_nat a) (pl_px plane0) 0 | 2%nat => mb | 3%nat => interior | 4%nat => hev | _ => 0 end.
Definition limits0 : limits := mkLim 18 18 58 54 1.
Definition call0 (lm : limits) := edge_call 1 layout0 mbh_y (Ptr 0 (8 * 32 + 16)) 32 (Ptr 2 0) (Ptr 3 0) (Ptr 4 0) (Int 0) (memory0 (lm_interior lm) (lm_mb lm) (lm_hev lm)).


Lemma px0_byte a : 0 <= px0 a < 256.
Proof. apply Z.mod_pos_bound. lia. Qed.
Lemma plane0_bytes a : 0 <= nth a (pl_px plane0) 0 < 256.
Proof.
  destruct (Nat.lt_ge_cases a (length (pl_px plane0))) as [H|H]; [|rewrite nth_overflow by exact H; lia].
  assert (F : forall x, In x (pl_px plane0) -> 0 <= x < 256).
  { intros x G. unfold plane0, pl_px in G. apply in_map_iff in G. destruct G as (b & <- & _). apply px0_byte. }
  apply F, nth_In, H.
Qed.

(** The limits of a key frame at level 18: they meet the hypotheses of C77_luma. *)
Example c77_luma_hypotheses :
  let m := memory0 (lm_interior limits0) (lm_mb limits0) (lm_hev limits0) in
  AsmTransformProofs.bytes_ok m /\ plane_ok plane0 /\ holds m 0 plane0 /\ pl_w plane0 * pl_h plane0 <= extent layout0 0 /\ block_fits 16 16 8 plane0 /\
  limit_vector layout0 m 2 0 (lm_mb limits0) /\ limit_vector layout0 m 3 0 (lm_interior limits0) /\ limit_vector layout0 m 4 0 (lm_hev limits0) /\
  limits_in_range limits0 /\ own_stack layout0 1 /\ limits0 = make_limits true (mkFP false 18 0).
Proof.
  intros m. split.
  { intros s a. destruct s as [|[|[|[|[|s]]]]]; try (cbn; lia). apply plane0_bytes. }
  split.
  { split; [split; [cbn; lia|split; [cbn; lia|reflexivity]]|]. apply Forall_forall. intros x H. unfold plane0, pl_px in H. apply in_map_iff in H. destruct H as (b & <- & _). apply px0_byte. }
  split; [intros x y _; reflexivity|]. split; [cbn; lia|]. split; [split; [left; reflexivity|cbn; lia]|].
  split; [split; [lia|split; [cbn; lia|split; [reflexivity|intros; reflexivity]]]|].
  split; [split; [lia|split; [cbn; lia|split; [reflexivity|intros; reflexivity]]]|].
  split; [split; [lia|split; [cbn; lia|split; [reflexivity|intros; reflexivity]]]|].
  split; [split; [cbn; lia|split; cbn; lia]|]. split; [split; reflexivity|reflexivity].
Qed.

(** The six rows around the edge, before and after: of the 96 pixels 26 change. *)
Definition rows_of (g : Z -> Z) : list Z := flat_map (fun r => map (fun c => g ((8 + r) * 32 + (16 + c))) (zseq 16)) [-3; -2; -1; 0; 1; 2].
Example c77_luma_changes :
  match call0 limits0, mb_horizontal 16 16 8 limits0 plane0 with
  | Some m', Some p' =>
      let a := rows_of px0 in let b := rows_of (m' 0%nat) in
      forallb (fun '(x, y) => x =? y) (combine b (rows_of (fun i => nth (Z.to_nat i) (pl_px p') 0))) = true /\
      length (filter (fun '(x, y) => negb (x =? y)) (combine a b)) = 26%nat
  | _, _ => False
  end.
Proof. vm_compute. split; reflexivity. Qed.

(** The functions on chroma, on this picture and another one. *)
Definition memory2 (s : nat) (a : Z) : Z :=
  match s with O => px0 a | 5%nat => px0 (a + 77) | 2%nat => lm_mb limits0 | 3%nat => lm_interior limits0 | 4%nat => lm_hev limits0 | _ => 0 end.
Definition layout2 : layout := mkLayout (fun s => match s with O | 5%nat => 1024 | 1%nat => 160 | _ => 16 end) (fun _ => 0).
Definition plane2 : plane := mkPlane 32 32 (map (fun a => px0 (a + 77)) (zseq 1024)).
Definition same_plane (m : nat -> Z -> Z) (s : nat) (p : plane) : bool := forallb (fun a => m s a =? nth (Z.to_nat a) (pl_px p) 0) (zseq 1024).
Example c77_chroma :
  match edge_call 1 layout2 mbh_uv (Ptr 0 (8 * 32 + 8)) 32 (Ptr 2 0) (Ptr 3 0) (Ptr 4 0) (Ptr 5 (8 * 32 + 8)) memory2,
        mb_horizontal 8 8 8 limits0 plane0, mb_horizontal 8 8 8 limits0 plane2 with
  | Some m', Some u, Some v => same_plane m' 0 u && same_plane m' 5 v && negb (same_plane m' 0 plane0) && negb (same_plane m' 5 plane2)
  | _, _, _ => false
  end = true.
Proof. vm_compute. reflexivity. Qed.
Definition memory3 (s : nat) (a : Z) : Z := if Nat.eqb s 2 then lm_sb limits0 else memory2 s a.
Example c77_chroma_inner :
  match edge_call 1 layout2 bh_uv (Ptr 0 ((8 + 4) * 32 + 8)) 32 (Ptr 2 0) (Ptr 3 0) (Ptr 4 0) (Ptr 5 ((8 + 4) * 32 + 8)) memory3,
        sb_horizontal 8 8 8 limits0 plane0, sb_horizontal 8 8 8 limits0 plane2 with
  | Some m', Some u, Some v => same_plane m' 0 u && same_plane m' 5 v && negb (same_plane m' 0 plane0) && negb (same_plane m' 5 plane2)
  | _, _, _ => false
  end = true.
Proof. vm_compute. reflexivity. Qed.
Lemma plane2_ok : plane_ok plane2.
Proof. split; [split; [cbn; lia|split; [cbn; lia|reflexivity]]|]. apply Forall_forall. intros x H. unfold plane2, pl_px in H. apply in_map_iff in H. destruct H as (b & <- & _). apply px0_byte. Qed.
Lemma plane2_at : forallb (fun a => nth (Z.to_nat a) (pl_px plane0) 0 =? px0 a) (zseq 1024) && forallb (fun a => nth (Z.to_nat a) (pl_px plane2) 0 =? px0 (a + 77)) (zseq 1024) = true.
Proof. vm_compute. reflexivity. Qed.
Example c77_chroma_hypotheses :
  AsmTransformProofs.bytes_ok memory2 /\ AsmTransformProofs.bytes_ok memory3 /\ plane_ok plane2 /\ same_dims plane2 plane0 /\
  holds memory2 0 plane0 /\ holds memory2 5 plane2 /\ block_fits 8 8 8 plane0 /\
  limit_vector layout2 memory2 2 0 (lm_mb limits0) /\ limit_vector layout2 memory3 2 0 (lm_sb limits0) /\ own_stack layout2 1.
Proof.
  pose proof plane2_at as A. apply andb_true_iff in A. destruct A as [A0 A2]. rewrite forallb_forall in A0, A2.
  assert (In1024 : forall p x y, pl_w p = 32 -> pl_h p = 32 -> inside p x y = true -> In (y * 32 + x) (zseq 1024)).
  { intros p x y W H J. apply inside_iff in J. apply zseq_in. lia. }
  split; [intros s a; destruct s as [|[|[|[|[|[|s]]]]]]; try (cbn; lia); apply px0_byte|].
  split; [intros s a; destruct s as [|[|[|[|[|[|s]]]]]]; try (cbn; lia); apply px0_byte|].
  split; [exact plane2_ok|]. split; [split; reflexivity|].
  split; [intros x y J; unfold at_px, pix_index; specialize (A0 _ (In1024 plane0 x y eq_refl eq_refl J)); apply Z.eqb_eq in A0; symmetry; exact A0|].
  split; [intros x y J; unfold at_px, pix_index; specialize (A2 _ (In1024 plane2 x y eq_refl eq_refl J)); apply Z.eqb_eq in A2; symmetry; exact A2|].
  split; [split; [right; reflexivity|cbn; lia]|].
  split; [split; [lia|split; [cbn; lia|split; [reflexivity|intros; reflexivity]]]|].
  split; [split; [lia|split; [cbn; lia|split; [reflexivity|intros; reflexivity]]]|]. split; reflexivity.
Qed.

(** ** Limits out of range: rows of 0, 128, 130 and 2, an interior limit of 255
    and a threshold of 0. The two excesses of 128 add up to 0 in a byte, and the
    code takes the edge for one of low variance. *)
Definition plane1 : plane := mkPlane 32 32 (map (fun a => if a <? 224 then 0 else if a <? 256 then 128 else if a <? 288 then 130 else 2) (zseq 1024)).
Definition limits1 : limits := mkLim 63 255 193 189 0.
Definition memory1 (s : nat) (a : Z) : Z :=
  match s with O => nth (Z.to_nat a) (pl_px plane1) 0 | 2%nat => lm_mb limits1 | 3%nat => lm_interior limits1 | 4%nat => lm_hev limits1 | _ => 0 end.

Theorem C77_any_limits_refuted :
  holds memory1 0 plane1 /\ limit_vector layout0 memory1 2 0 (lm_mb limits1) /\ limit_vector layout0 memory1 3 0 (lm_interior limits1) /\
  limit_vector layout0 memory1 4 0 (lm_hev limits1) /\
  exists m' p', edge_call 1 layout0 mbh_y (Ptr 0 (8 * pl_w plane1 + 16)) (pl_w plane1) (Ptr 2 0) (Ptr 3 0) (Ptr 4 0) (Int 0) memory1 = Some m' /\
    mb_horizontal 16 16 8 limits1 plane1 = Some p' /\ m' 0%nat (6 * 32 + 16) = 1 /\ at_px p' 16 6 = 0.
Proof.
  split; [intros x y _; reflexivity|].
  split; [split; [lia|split; [cbn; lia|split; [reflexivity|intros; reflexivity]]]|].
  split; [split; [lia|split; [cbn; lia|split; [reflexivity|intros; reflexivity]]]|].
  split; [split; [lia|split; [cbn; lia|split; [reflexivity|intros; reflexivity]]]|].
  assert (A : match edge_call 1 layout0 mbh_y (Ptr 0 (8 * pl_w plane1 + 16)) (pl_w plane1) (Ptr 2 0) (Ptr 3 0) (Ptr 4 0) (Int 0) memory1 with Some m' => m' 0%nat (6 * 32 + 16) =? 1 | None => false end = true)
    by (vm_compute; reflexivity).
  assert (B : match mb_horizontal 16 16 8 limits1 plane1 with Some p' => at_px p' 16 6 =? 0 | None => false end = true) by (vm_compute; reflexivity).
  destruct (edge_call _ _ _ _ _ _ _ _ _ _) as [m'|]; [|discriminate A]. destruct (mb_horizontal _ _ _ _ _) as [p'|]; [|discriminate B].
  exists m', p'. split; [reflexivity|]. split; [reflexivity|]. split; apply Z.eqb_eq; assumption.
Qed.

Print Assumptions C77_luma.
Print Assumptions C77_chroma.
Print Assumptions C77_chroma_inner.
Print Assumptions C77_limits.
Print Assumptions C77_any_limits_refuted.
