(** C75: the assembled interpolation against the portable one. *)
From Verif Require Import Base MVModel FrameModel RasterModel RasterProofs PredictModel PredictProofs PropInter SafeRasterModel PropSafeRaster.
From Verif Require Import VarianceModel SimdModel AsmInterModel SimdProofs AsmTransformProofs AsmInterProofs AsmInterCalls.

(** ** Statements: the weighted sum of RFC 6386 is that of C32
    ([taps], [weighted], [rounded]). *)

(** One past the last byte that a horizontal filter reads in a row, counted from
    its first output. *)
Definition reach (size : Z) : Z := if size =? 4 then 14 else size + 3.
(** Bytes of [d] that a block of rows covers. *)
Definition in_rows (o pitch w h a : Z) : Prop := exists r c, 0 <= r < h /\ 0 <= c < w /\ a = o + r * pitch + c.
(** A plane in memory. *)
Definition holds (m : nat -> Z -> Z) (s : nat) (p : plane) : Prop :=
  forall x y, inside p x y = true -> m s (y * pl_w p + x) = at_px p x y.

(** ** Proof *)

Lemma tap6_taps : forall i v, 1 <= i <= 7 -> tap6 (pair_at k0_k5 i) (pair_at k1_k3 i) (pair_at k2_k4 i) v = rounded (weighted (taps i) (-2) v).
Proof.
  intros i v Hi. assert (C : i = 1 \/ i = 2 \/ i = 3 \/ i = 4 \/ i = 5 \/ i = 6 \/ i = 7) by lia.
  unfold tap6, rounded. rewrite clamp255_spec. do 5 f_equal.
  repeat (destruct C as [-> |C]); try subst i; 
    repeat match goal with |- context [pair_at ?t ?i] => let x := eval vm_compute in (pair_at t i) in change (pair_at t i) with x end;
    unfold taps; cbn [Z.eqb Pos.eqb weighted fst snd];
    change (-2 + 1) with (-1); change (-1 + 1) with 0; change (0 + 1) with 1; change (1 + 1) with 2; change (2 + 1) with 3; ring.
Qed.
Lemma four_taps_pair : forall i, 1 <= i <= 7 -> four_taps i = true -> pair_at k0_k5 i = (0, 0).
Proof.
  intros i Hi. assert (C : i = 1 \/ i = 2 \/ i = 3 \/ i = 4 \/ i = 5 \/ i = 6 \/ i = 7) by lia.
  repeat (destruct C as [-> |C]); try subst i; vm_compute; congruence.
Qed.
Lemma weighted_ext_in : forall ts k v w, (forall j, k <= j < k + zlen ts -> v j = w j) -> weighted ts k v = weighted ts k w.
Proof.
  induction ts as [|t ts IH]; intros k v w E; [reflexivity|]. cbn [weighted].
  assert (zlen (t :: ts) = 1 + zlen ts) by (unfold zlen; cbn [length]; lia).
  assert (0 <= zlen ts) by (unfold zlen; lia). rewrite E by lia. f_equal. apply IH. intros j J. apply E. lia.
Qed.
Lemma zlen_taps : forall i, zlen (taps i) = 6.
Proof. intros i. unfold taps. repeat match goal with |- context [if ?b then _ else _] => destruct b end; reflexivity. Qed.

Lemma filled_rows : forall m0 d o pitch w f h m, filled m0 d o pitch w f h m ->
  forall s a, s <> d \/ ~ in_rows o pitch w h a -> m s a = m0 s a.
Proof.
  intros m0 d o pitch w f h m [_ F] s a O. apply F. destruct O as [O|O]; [left; exact O|right].
  intros i c I C E. apply O. exists i, c. repeat split; lia.
Qed.

Lemma horizontal_ok : forall L size i s so ss d o pitch h m,
  block_size size -> 1 <= i <= 7 -> bytes_ok m -> s <> d -> 0 < h -> 0 <= ss -> size <= pitch ->
  2 <= so -> so + (h - 1) * ss + reach size <= extent L s -> 0 <= o -> o + (h - 1) * pitch + size <= extent L d ->
  (size = 16 -> forall r, 0 <= r < h -> (base L d + (o + r * pitch)) mod 16 = 0) ->
  exists m', AsmInterModel.filter L (horizontal size i) (Ptr s so) ss (Ptr d o) pitch h m = Some m' /\
    filled m d o pitch size (across (pair_at k0_k5 i) (pair_at k1_k3 i) (pair_at k2_k4 i) m s so ss) h m' /\ bytes_ok m'.
Proof.
  intros L size i s so ss d o pitch h m Sz Hi Bm N H S P B1 B2 O1 O2 Al.
  pose proof (good_at i Hi) as G. unfold AsmInterModel.filter, horizontal.
  destruct Sz as [-> |[-> | ->]]; cbn [Z.eqb Pos.eqb]; unfold reach in B2; cbn [Z.eqb Pos.eqb] in B2.
  - destruct (four_taps i) eqn:Ft; [rewrite (four_taps_pair i Hi Ft) in *; apply h4_four_call|apply h4_six_call]; assumption.
  - destruct (four_taps i) eqn:Ft; [rewrite (four_taps_pair i Hi Ft) in *; apply h8_four_call|apply h8_six_call]; assumption.
  - apply h16_call; try assumption. apply Al. reflexivity.
Qed.
Lemma vertical_ok : forall L size i s so ss d o pitch h m,
  block_size size -> 1 <= i <= 7 -> bytes_ok m -> s <> d -> 0 < h -> 0 <= ss -> size <= pitch ->
  0 <= so -> so + (h + 4) * ss + size <= extent L s -> 0 <= o -> o + (h - 1) * pitch + size <= extent L d ->
  (size = 16 -> Z.odd i = true -> forall r, 0 <= r < h -> (base L d + (o + r * pitch)) mod 16 = 0) ->
  exists m', AsmInterModel.filter L (vertical size i) (Ptr s so) ss (Ptr d o) pitch h m = Some m' /\
    filled m d o pitch size (down (pair_at k0_k5 i) (pair_at k1_k3 i) (pair_at k2_k4 i) m s so ss) h m' /\ bytes_ok m'.
Proof.
  intros L size i s so ss d o pitch h m Sz Hi Bm N H S P B1 B2 O1 O2 Al.
  pose proof (good_at i Hi) as G. unfold AsmInterModel.filter, vertical.
  destruct Sz as [-> |[-> | ->]]; cbn [Z.eqb Pos.eqb].
  - destruct (four_taps i) eqn:Ft; [rewrite (four_taps_pair i Hi Ft) in *; apply v4_four_call|apply v4_six_call]; assumption.
  - destruct (four_taps i) eqn:Ft; [rewrite (four_taps_pair i Hi Ft) in *; apply v8_four_call|apply v8_six_call]; assumption.
  - destruct (four_taps i) eqn:Ft; [rewrite (four_taps_pair i Hi Ft) in *; apply v16_four_call|apply v16_six_call]; try assumption.
    apply Al; [reflexivity|]. clear - Hi Ft. assert (C : i = 1 \/ i = 2 \/ i = 3 \/ i = 4 \/ i = 5 \/ i = 6 \/ i = 7) by lia.
    repeat (destruct C as [-> |C]); try subst i; try reflexivity; discriminate Ft.
Qed.

(** ** Theorems *)

(** A horizontal pass. *)
Theorem C75_horizontal :
  forall L size i s so ss d o pitch h m,
  block_size size -> 1 <= i <= 7 -> bytes_ok m -> s <> d -> 0 < h -> 0 <= ss -> size <= pitch ->
  2 <= so -> so + (h - 1) * ss + reach size <= extent L s -> 0 <= o -> o + (h - 1) * pitch + size <= extent L d ->
  (size = 16 -> forall r, 0 <= r < h -> (base L d + (o + r * pitch)) mod 16 = 0) ->
  exists m', AsmInterModel.filter L (horizontal size i) (Ptr s so) ss (Ptr d o) pitch h m = Some m' /\
    (forall r c, 0 <= r < h -> 0 <= c < size ->
       m' d (o + r * pitch + c) = rounded (weighted (taps i) (-2) (fun j => m s (so + r * ss + c + j)))) /\
    (forall s' a, s' <> d \/ ~ in_rows o pitch size h a -> m' s' a = m s' a).
Proof.
  intros L size i s so ss d o pitch h m Sz Hi Bm N H S P B1 B2 O1 O2 Al.
  destruct (horizontal_ok L size i s so ss d o pitch h m) as (m' & E & F & _); try assumption.
  exists m'. split; [exact E|]. split; [|exact (filled_rows _ _ _ _ _ _ _ _ F)].
  intros r c Hr Hc. rewrite (proj1 F) by assumption. apply tap6_taps, Hi.
Qed.

(** A vertical pass; the pointer is two rows above. *)
Theorem C75_vertical :
  forall L size i s so ss d o pitch h m,
  block_size size -> 1 <= i <= 7 -> bytes_ok m -> s <> d -> 0 < h -> 0 <= ss -> size <= pitch ->
  0 <= so -> so + (h + 4) * ss + size <= extent L s -> 0 <= o -> o + (h - 1) * pitch + size <= extent L d ->
  (size = 16 -> Z.odd i = true -> forall r, 0 <= r < h -> (base L d + (o + r * pitch)) mod 16 = 0) ->
  exists m', AsmInterModel.filter L (vertical size i) (Ptr s so) ss (Ptr d o) pitch h m = Some m' /\
    (forall r c, 0 <= r < h -> 0 <= c < size ->
       m' d (o + r * pitch + c) = rounded (weighted (taps i) (-2) (fun j => m s (so + 2 * ss + (r + j) * ss + c)))) /\
    (forall s' a, s' <> d \/ ~ in_rows o pitch size h a -> m' s' a = m s' a).
Proof.
  intros L size i s so ss d o pitch h m Sz Hi Bm N H S P B1 B2 O1 O2 Al.
  destruct (vertical_ok L size i s so ss d o pitch h m) as (m' & E & F & _); try assumption.
  exists m'. split; [exact E|]. split; [|exact (filled_rows _ _ _ _ _ _ _ _ F)].
  intros r c Hr Hc. rewrite (proj1 F) by assumption. unfold down. rewrite tap6_taps by exact Hi.
  f_equal. apply weighted_ext. intros j. f_equal. ring.
Qed.

Lemma copy_rows_ok : forall n L size s so ss d o pitch m,
  bytes_ok m -> s <> d -> 0 <= ss -> 0 < size <= pitch -> 0 <= so -> so + (Z.of_nat n - 1) * ss + size <= extent L s ->
  0 <= o -> o + (Z.of_nat n - 1) * pitch + size <= extent L d ->
  exists m', copy_rows n L size s so ss d o pitch m = Some m' /\ filled m d o pitch size (fun r c => m s (so + r * ss + c)) (Z.of_nat n) m'.
Proof.
  induction n as [|n IH]; intros L size s so ss d o pitch m Bm N S P B1 B2 O1 O2.
  { exists m. split; [reflexivity|apply filled_0]. }
  cbn [copy_rows]. rewrite load_ok by (try discriminate; nia). cbn [obind].
  set (row := map (fun i => m s (so + Z.of_nat i)) (seq 0 (Z.to_nat size))).
  assert (Ln : zlen row = size) by (unfold row, zlen; rewrite map_length, seq_length; lia).
  rewrite store_ok by (try discriminate; rewrite ?Ln; nia). cbn [obind].
  set (m1 := poke m d o row).
  assert (F1 : filled m d o pitch size (fun r c => m s (so + r * ss + c)) (0 + 1) m1).
  { apply (filled_step m d o pitch size _ 0 m m1 row); [apply filled_0|lia|lia|exact Ln| |].
    - intros c C. unfold row. rewrite nth_map_seq by lia. f_equal. lia.
    - intros s' a. unfold m1. replace (o + 0 * pitch) with o by ring. reflexivity. }
  assert (Bm1 : bytes_ok m1).
  { apply (poke_bytes m m1 d o row); [exact Bm| |reflexivity]. apply Forall_forall. intros x Ix. unfold row in Ix.
    apply in_map_iff in Ix as (i & <- & _). apply Bm. }
  destruct (IH L size s (so + ss) ss d (o + pitch) pitch m1) as (m' & E & F); try assumption; try lia.
  exists m'. split; [exact E|]. destruct F as [Fa Fb]. split.
  - intros i c I C. destruct (Z.eq_dec i 0) as [->|Ni].
    + rewrite Fb.
      * apply (proj1 F1); lia.
      * right. intros i c' I' C' X. nia.
    + replace (o + i * pitch + c) with (o + pitch + (i - 1) * pitch + c) by ring. rewrite Fa by lia.
      rewrite (proj2 F1) by (left; exact N). f_equal. ring.
  - intros s' a O. rewrite Fb.
    + apply (proj2 F1). destruct O as [O|O]; [left; exact O|right]. intros i c I C. apply O; lia.
    + destruct O as [O|O]; [left; exact O|right]. intros i c I C X. apply (O (i + 1) c); lia.
Qed.

(** A block from memory to memory: both passes, in the order of the code, with
    the array between them.  [room]: the bytes that are read. *)
Definition room (size mx my so ss ext : Z) : Prop :=
  (if mx =? 0 then 0 else 2) + (if my =? 0 then 0 else 2 * ss) <= so /\
  so + (if my =? 0 then size - 1 else size + 2) * ss + (if mx =? 0 then size else reach size) <= ext.

Theorem C75_block :
  forall L size mx my s so ss d o ds t m,
  block_size size -> 0 <= mx < 8 -> 0 <= my < 8 -> bytes_ok m -> s <> d -> s <> t -> t <> d -> 0 <= ss -> size <= ds ->
  room size mx my so ss (extent L s) -> 0 <= o -> o + (size - 1) * ds + size <= extent L d ->
  (size = 16 -> (base L d + o) mod 16 = 0 /\ ds mod 16 = 0) ->
  base L t mod 16 = 0 -> extent L t = (size + 8) * (size + 8) ->
  exists m', sse_inter_predict L size mx my s so ss d o ds t m = Some m' /\
    (forall r c, 0 <= r < size -> 0 <= c < size ->
       m' d (o + r * ds + c) =
       rounded (weighted (taps my) (-2) (fun j => rounded (weighted (taps mx) (-2) (fun i => m s (so + (r + j) * ss + c + i)))))) /\
    (forall s' a, s' <> t -> s' <> d \/ ~ in_rows o ds size size a -> m' s' a = m s' a).
Proof.
  intros L size mx my s so ss d o ds t m Sz Hx Hy Bm Nsd Nst Ntd Sp Dp [R1 R2] O1 O2 Al At Et.
  assert (S16 : 4 <= size <= 16) by (unfold block_size in Sz; lia).
  assert (NT : forall v, (forall k, byte_ok (v k)) -> rounded (weighted (taps 0) (-2) v) = v 0) by (intros v Bv; apply no_taps, Bv).
  assert (Bk : forall a, byte_ok (m s a)) by (intros a; pose proof (Bm s a); unfold byte_ok; lia).
  assert (AlR : size = 16 -> forall r, 0 <= r < size -> (base L d + (o + r * ds)) mod 16 = 0).
  { intros E r _. destruct (Al E) as [A1 A2]. replace (base L d + (o + r * ds)) with (base L d + o + r * ds) by ring.
    rewrite Z.add_mod, Z.mul_mod, A1, A2, Z.mul_0_r by lia. reflexivity. }
  unfold sse_inter_predict.
  destruct (Z.eq_dec mx 0) as [->|Nx]; [destruct (Z.eq_dec my 0) as [->|Ny]|].
  - cbn [Z.eqb andb] in *.
    destruct (copy_rows_ok (Z.to_nat size) L size s so ss d o ds m) as (m' & E & F); try assumption; try lia.
    rewrite Z2Nat.id in F by lia. exists m'. split; [exact E|]. split.
    + intros r c Hr Hc. rewrite (proj1 F) by assumption. rewrite NT by (intros; apply rounded_byte). rewrite NT by (intros; apply Bk). f_equal. ring.
    + intros s' a _. apply (filled_rows _ _ _ _ _ _ _ _ F).
  - replace (my =? 0) with false in * by lia. cbn [Z.eqb andb negb] in *.
    destruct (vertical_ok L size my s (so - 2 * ss) ss d o ds size m) as (m' & E & F & _); try assumption; try lia; try (intros X _; exact (AlR X)).
    exists m'. split; [exact E|]. split; [|intros s' a _; apply (filled_rows _ _ _ _ _ _ _ _ F)].
    intros r c Hr Hc. rewrite (proj1 F) by assumption. unfold down. rewrite tap6_taps by lia.
    f_equal. apply weighted_ext. intros j. rewrite NT by (intros; apply Bk). f_equal. ring.
  - replace (mx =? 0) with false in * by lia. cbn [andb negb].
    destruct (Z.eq_dec my 0) as [->|Ny].
    + cbn [Z.eqb negb] in *.
      destruct (horizontal_ok L size mx s so ss d o ds size m) as (m' & E & F & _); try assumption; try lia.
      exists m'. split; [exact E|]. split; [|intros s' a _; apply (filled_rows _ _ _ _ _ _ _ _ F)].
      intros r c Hr Hc. rewrite (proj1 F) by assumption. unfold across. rewrite tap6_taps by lia.
      rewrite NT by (intros; apply rounded_byte). f_equal. apply weighted_ext. intros j. f_equal. ring.
    + replace (my =? 0) with false in * by lia. cbn [negb].
      destruct (horizontal_ok L size mx s (so - 2 * ss) ss t 0 size (size + 5) m) as (m1 & E1 & F1 & B1); try assumption; try lia; try nia;
        try (intros -> r _; replace (base L t + (0 + r * 16)) with (base L t + r * 16) by ring; rewrite Z.mod_add by lia; exact At).
      destruct (vertical_ok L size my t 0 size d o ds size m1) as (m' & E & F & _); try assumption; try lia; try nia; try (intros X _; exact (AlR X)).
      exists m'. rewrite E1. cbn [obind]. split; [exact E|]. split.
      * intros r c Hr Hc. rewrite (proj1 F) by assumption. unfold down. rewrite tap6_taps by lia.
        f_equal. apply weighted_ext_in. intros j J. rewrite zlen_taps in J.
        rewrite (proj1 F1) by lia. unfold across. rewrite tap6_taps by lia.
        f_equal. apply weighted_ext. intros i. f_equal. ring.
      * intros s' a Nt O. rewrite (filled_rows _ _ _ _ _ _ _ _ F s' a O). apply (filled_rows _ _ _ _ _ _ _ _ F1). left. exact Nt.
Qed.

(** ** Planes *)

Lemma holds_in : forall m s p x y, holds m s p -> inside p x y = true -> m s (y * pl_w p + x) = edge p x y.
Proof. intros m s p x y H I. rewrite edge_inside by exact I. apply H, I. Qed.

(** Writing one block of a plane. *)
Lemma block_written : forall m m' d out x0 y0 size g out',
  plane_ok out -> holds m d out -> 0 <= x0 -> 0 <= y0 -> x0 + size <= pl_w out -> y0 + size <= pl_h out -> 0 < size ->
  (forall r c, 0 <= r < size -> 0 <= c < size -> m' d (y0 * pl_w out + x0 + r * pl_w out + c) = g c r) ->
  (forall a, ~ in_rows (y0 * pl_w out + x0) (pl_w out) size size a -> m' d a = m d a) ->
  same_dims out' out ->
  (forall x y, inside out x y = true -> at_px out' x y = if in_block x0 y0 size x y then g (x - x0) (y - y0) else at_px out x y) ->
  holds m' d out'.
Proof.
  intros m m' d out x0 y0 size g out' Ho Hm X0 Y0 X1 Y1 Sz In Out [Dw Dh] A x y I.
  assert (I' : inside out x y = true) by (apply inside_iff; apply inside_iff in I; lia).
  rewrite A by exact I'. rewrite Dw. destruct (in_block x0 y0 size x y) eqn:B; unfold in_block in B.
  - rewrite <- In by lia. f_equal. ring.
  - rewrite Out; [apply Hm, I'|]. intros (r & c & Hr & Hc & E). apply inside_iff in I'.
    assert (y = y0 + r) by nia. subst y. assert (x = x0 + c) by nia. subst x. lia.
Qed.

(** Block::unsafe_inter_predict: the build with the assembly leaves the picture
    of the portable build, provided that the reference ends late enough for
    the 4-wide filter. *)
Theorem C75_predict :
  forall L size mv ref out sc sr x0 y0 s d t m,
  block_size size -> plane_ok ref -> plane_ok out -> same_dims ref out ->
  0 <= x0 -> 0 <= y0 -> x0 + size <= pl_w out -> y0 + size <= pl_h out ->
  0 <= sc - 2 -> sc + size + 3 <= pl_w ref -> 0 <= sr - 2 -> sr + size + 3 <= pl_h ref ->
  bytes_ok m -> holds m s ref -> holds m d out -> s <> d -> s <> t -> t <> d ->
  pl_w ref * pl_h ref <= extent L s ->
  (size = 4 -> fst mv mod 8 <> 0 -> snd mv mod 8 <> 0 -> (sr + 6) * pl_w ref + sc + 14 <= extent L s) ->
  pl_w out * pl_h out <= extent L d ->
  (size = 16 -> (base L d + y0 * pl_w out + x0) mod 16 = 0 /\ pl_w out mod 16 = 0) ->
  base L t mod 16 = 0 -> extent L t = (size + 8) * (size + 8) ->
  exists m' out',
    sse_inter_predict L size (fst mv mod 8) (snd mv mod 8) s (sr * pl_w ref + sc) (pl_w ref) d (y0 * pl_w out + x0) (pl_w out) t m = Some m' /\
    unsafe_inter_predict size mv ref sc sr x0 y0 out = Some out' /\
    holds m' d out' /\ plane_ok out' /\ same_dims out' out /\
    forall s' a, s' <> d -> s' <> t -> m' s' a = m s' a.
Proof.
  intros L size mv ref out sc sr x0 y0 s d t m Sz Hr Ho [Dw Dh] X0 Y0 X1 Y1 C1 C2 R1 R2 Bm Hs Hd Nsd Nst Ntd Es E4 Ed Al At Et.
  assert (S16 : 4 <= size <= 16) by (unfold block_size in Sz; lia).
  assert (P1 : (sr + size + 2) * pl_w ref + pl_w ref <= pl_w ref * pl_h ref) by nia.
  assert (P2 : 0 <= (sr - 2) * pl_w ref) by nia.
  assert (P3 : (y0 + size - 1) * pl_w out + pl_w out <= pl_w out * pl_h out) by nia.
  pose proof (Z.mod_pos_bound (fst mv) 8 ltac:(lia)) as Mx. pose proof (Z.mod_pos_bound (snd mv) 8 ltac:(lia)) as My.
  assert (Rm : room size (fst mv mod 8) (snd mv mod 8) (sr * pl_w ref + sc) (pl_w ref) (extent L s)).
  { assert (W : 7 <= pl_w ref) by lia. clear - S16 Sz E4 Es P1 P2 C1 C2 R1 R2 W. unfold room, reach.
    set (w := pl_w ref) in *. set (hh := pl_h ref) in *.
    assert (Q1 : (sr + size + 2) * w = sr * w + (size + 2) * w) by ring.
    assert (Q2 : (sr - 2) * w = sr * w - 2 * w) by ring.
    assert (Q3 : (size - 1) * w = (size + 2) * w - 3 * w) by ring.
    assert (Q4 : (sr + 6) * w = sr * w + 6 * w) by ring.
    assert (Q5 : size = 4 -> (size + 2) * w = 6 * w) by (intros ->; ring).
    rewrite ?Q3. set (sw := (size + 2) * w) in *. set (rw := sr * w) in *. clearbody sw rw.
    destruct (fst mv mod 8 =? 0) eqn:Fx, (snd mv mod 8 =? 0) eqn:Fy, (size =? 4) eqn:F4; lia. }
  destruct (C75_block L size (fst mv mod 8) (snd mv mod 8) s (sr * pl_w ref + sc) (pl_w ref) d (y0 * pl_w out + x0) (pl_w out) t m)
    as (m' & E & In & Out); try assumption.
  { lia. }
  { lia. }
  { apply Z.add_nonneg_nonneg; [apply Z.mul_nonneg_nonneg; lia|lia]. }
  { replace ((y0 + size - 1) * pl_w out) with (y0 * pl_w out + (size - 1) * pl_w out) in P3 by ring. lia. }
  { intros X. destruct (Al X) as [A1 A2]. split; [|exact A2]. rewrite Z.add_assoc. exact A1. }
  assert (U := unsafe_spec size mv ref sc sr x0 y0 out ltac:(lia) Hr ltac:(congruence) C1 C2 R1 R2).
  destruct (assign_covers size _ _ x0 y0 out (covers_fill size (fun c r => displaced ref (fst mv mod 8) (snd mv mod 8) (sc + c) (sr + r))) Ho)
    as (out' & A1 & A2 & A3 & A4); try assumption; [intros; apply displaced_byte|].
  exists m', out'. rewrite U. repeat (split; [assumption|]). split; [|split; [exact A2|split; [exact A3|]]].
  - apply (block_written m m' d out x0 y0 size (fun c r => displaced ref (fst mv mod 8) (snd mv mod 8) (sc + c) (sr + r)) out'); try assumption; try lia.
    + intros r c Hr' Hc. rewrite In by assumption. unfold displaced. rewrite !Zmod_mod.
      f_equal. apply weighted_ext_in. intros j J. rewrite zlen_taps in J. f_equal. apply weighted_ext_in. intros i I. rewrite zlen_taps in I.
      rewrite !(Z.div_small (_ mod 8)) by lia.
      rewrite <- (holds_in m s ref); [f_equal; ring|exact Hs|]. apply inside_iff. lia.
    + intros a Na. apply Out; [congruence|right; exact Na].
  - intros s' a N1 N2. apply Out; [exact N2|left; exact N1].
Qed.

(** ** Reading past the end *)

Lemma loop_nz_S : forall n L args ctr body st, loop_nz (S n) L args ctr body st =
  (let? s := run L args body st in let? z := as_int (reg s ctr) in if z =? 0 then Some s else loop_nz n L args ctr body s).
Proof. reflexivity. Qed.
Lemma rows_fail : forall L args body (V : list vec -> Prop) s ss d so o pitch h k,
  0 <= k < h ->
  (forall r vs m', 0 <= r < k -> bytes_ok m' -> V vs ->
    exists vs' m'', run L args body (hstate s (so + r * ss) ss d (o + r * pitch) pitch (h - r) vs m') =
      Some (hstate s (so + r * ss + ss) ss d (o + r * pitch + pitch) pitch (h - r - 1) vs' m'') /\ V vs' /\ bytes_ok m'') ->
  (forall vs m', V vs -> run L args body (hstate s (so + k * ss) ss d (o + k * pitch) pitch (h - k) vs m') = None) ->
  forall n fuel vs m, Z.of_nat n <= k -> bytes_ok m -> V vs ->
  loop_nz fuel L args rcx body (hstate s (so + (k - Z.of_nat n) * ss) ss d (o + (k - Z.of_nat n) * pitch) pitch (h - (k - Z.of_nat n)) vs m) = None.
Proof.
  intros L args body V s ss d so o pitch h k Hk Step Stop. induction n as [|n IH]; intros fuel vs m N Bm Vv.
  - destruct fuel as [|fuel]; [reflexivity|]. rewrite loop_nz_S. replace (k - Z.of_nat 0) with k by lia. rewrite Stop by exact Vv. reflexivity.
  - destruct fuel as [|fuel]; [reflexivity|]. rewrite loop_nz_S.
    destruct (Step (k - Z.of_nat (S n)) vs m) as (vs' & m'' & E & V' & B'); [lia|exact Bm|exact Vv|].
    rewrite E. cbn [obind].
    change (as_int (reg (hstate s (so + (k - Z.of_nat (S n)) * ss + ss) ss d (o + (k - Z.of_nat (S n)) * pitch + pitch) pitch (h - (k - Z.of_nat (S n)) - 1) vs' m'') rcx))
      with (Some (h - (k - Z.of_nat (S n)) - 1)). cbn [obind].
    replace (h - (k - Z.of_nat (S n)) - 1 =? 0) with false by lia.
    replace (so + (k - Z.of_nat (S n)) * ss + ss) with (so + (k - Z.of_nat n) * ss) by (rewrite Nat2Z.inj_succ; ring).
    replace (o + (k - Z.of_nat (S n)) * pitch + pitch) with (o + (k - Z.of_nat n) * pitch) by (rewrite Nat2Z.inj_succ; ring).
    replace (h - (k - Z.of_nat (S n)) - 1) with (h - (k - Z.of_nat n)) by lia.
    apply IH; [lia|exact B'|exact V'].
Qed.
Lemma load_outside : forall L al n m seg off, extent L seg < off + Z.of_nat n -> load L al n m (Ptr seg off) = None.
Proof.
  intros L al n m seg off B. unfold SimdModel.load, in_bounds.
  replace (off + Z.of_nat n <=? extent L seg) with false by lia. rewrite andb_false_r. reflexivity.
Qed.
Lemma hrow_bytes : forall w k05 k13 k24 m s off, Forall (fun x => 0 <= x < 256) (hrow w k05 k13 k24 m s off).
Proof. intros. apply Forall_forall. intros x Ix. apply in_map_iff in Ix as (c & <- & _). apply tap6_byte. Qed.

Lemma h4_fail : forall L i s so ss d o pitch h m,
  1 <= i <= 7 -> bytes_ok m -> 0 < h -> 0 <= ss -> 4 <= pitch ->
  2 <= so -> so + (h - 2) * ss + 14 <= extent L s -> extent L s < so + (h - 1) * ss + 14 ->
  0 <= o -> o + (h - 1) * pitch + 4 <= extent L d ->
  AsmInterModel.filter L (horizontal 4 i) (Ptr s so) ss (Ptr d o) pitch h m = None.
Proof.
  intros L i s so ss d o pitch h m Hi Bm H S P B1 B2 B3 O1 O2.
  pose proof (good_at i Hi) as G. unfold AsmInterModel.filter, horizontal. cbn [Z.eqb Pos.eqb].
  set (args := [Ptr s so; Int ss; Ptr d o; Int pitch; Int h]).
  assert (Lp : forall body (V : list vec -> Prop) vs, V vs ->
    (forall off o' n vs m', good (pair_at k0_k5 i) (pair_at k1_k3 i) (pair_at k2_k4 i) -> bytes_ok m' -> V vs -> 0 <= off - 2 -> off + 14 <= extent L s -> 0 <= o' -> o' + 4 <= extent L d ->
       exists vs' m'', run L args body (hstate s off ss d o' pitch n vs m') = Some (hstate s (off + ss) ss d (o' + pitch) pitch (n - 1) vs' m'') /\ V vs' /\
         forall s' a, m'' s' a = poke m' d o' (hrow 4 (pair_at k0_k5 i) (pair_at k1_k3 i) (pair_at k2_k4 i) m' s off) s' a) ->
    (forall off o' n vs m', V vs -> extent L s < off + 14 -> run L args body (hstate s off ss d o' pitch n vs m') = None) ->
    loop_nz (Z.to_nat h) L args rcx body (hstate s so ss d o pitch h vs m) = None).
  { intros body V vs Vv Row Stop.
    pose proof (rows_fail L args body V s ss d so o pitch h (h - 1)) as F.
    specialize (F ltac:(lia)).
    assert (X := F). clear F.
    refine (eq_trans _ (X _ _ (Z.to_nat (h - 1)) (Z.to_nat h) vs m _ Bm Vv)).
    - replace (h - 1 - Z.of_nat (Z.to_nat (h - 1))) with 0 by lia. f_equal. f_equal; lia.
    - intros r vs1 m1 Hr Bm1 V1.
      destruct (Row (so + r * ss) (o + r * pitch) (h - r) vs1 m1 G Bm1 V1) as (vs2 & m2 & E & V2 & Pk); try nia.
      exists vs2, m2. split; [exact E|]. split; [exact V2|]. exact (poke_bytes _ _ _ _ _ Bm1 (hrow_bytes _ _ _ _ _ _ _) Pk).
    - intros vs1 m1 V1. apply Stop; [exact V1|lia].
    - lia. }
  destruct (four_taps i) eqn:Ft.
  - rewrite (four_taps_pair i Hi Ft) in *. unfold call, call_from, h4_four, start. cbn [run_blocks repeat].
    set (k13 := pair_at k1_k3 i) in *. set (k24 := pair_at k2_k4 i) in *.
    do 10 vstep ltac:(side). cbn [run obind].
    match goal with |- context [loop_nz _ _ _ _ _ ?x] => replace x with (hstate s so ss d o pitch h ([shuf2b; Vb []; Vb []; shuf3b; Vb []; T k24; T k13; rd] ++ others 16) m) by reflexivity end.
    rewrite (Lp h4_four_row (V_h4_four k13 k24)); [reflexivity|eexists _, _, _; reflexivity| |].
    + intros off o' n vs m' G' Bm' V' Q1 Q2 Q3 Q4. apply h4_four_row_run; assumption.
    + intros off o' n vs m' (x1 & x2 & x3 & ->) Q. unfold h4_four_row, hstate. rewrite run_cons. cbn [exec source].
      match goal with |- context [eval ?a ?b] => change (eval a b) with (Some (Ptr s (off + -2))) end. cbn [obind].
      rewrite load_outside by lia. reflexivity.
  - unfold call, call_from, h4_six, start. cbn [run_blocks repeat].
    set (k05 := pair_at k0_k5 i) in *. set (k13 := pair_at k1_k3 i) in *. set (k24 := pair_at k2_k4 i) in *.
    do 9 vstep ltac:(side). cbn [run obind].
    match goal with |- context [loop_nz _ _ _ _ _ ?x] => replace x with (hstate s so ss d o pitch h ([Vb []; Vb []; Vb []; Vb []; T k05; T k24; T k13; rd] ++ others 16) m) by reflexivity end.
    rewrite (Lp h4_six_row (V_h4_six k05 k13 k24)); [reflexivity|eexists _, _, _, _; reflexivity| |].
    + intros off o' n vs m' G' Bm' V' Q1 Q2 Q3 Q4. apply h4_six_row_run; assumption.
    + intros off o' n vs m' (x0 & x1 & x2 & x3 & ->) Q. unfold h4_six_row, hstate. rewrite run_cons. cbn [exec source].
      match goal with |- context [eval ?a ?b] => change (eval a b) with (Some (Ptr s (off + -2))) end. cbn [obind].
      rewrite load_outside by lia. reflexivity.
Qed.

(** The condition of C75_predict is exact. *)
Theorem C75_read_past_end :
  forall L mv ref out sc sr x0 y0 s d t m,
  plane_ok ref -> plane_ok out -> same_dims ref out ->
  0 <= x0 -> 0 <= y0 -> x0 + 4 <= pl_w out -> y0 + 4 <= pl_h out ->
  0 <= sc - 2 -> sc + 7 <= pl_w ref -> 0 <= sr - 2 -> sr + 7 <= pl_h ref ->
  bytes_ok m -> holds m s ref -> holds m d out -> s <> d -> s <> t -> t <> d ->
  pl_w ref * pl_h ref <= extent L s -> pl_w out * pl_h out <= extent L d ->
  base L t mod 16 = 0 -> extent L t = 144 ->
  fst mv mod 8 <> 0 -> snd mv mod 8 <> 0 ->
  (sse_inter_predict L 4 (fst mv mod 8) (snd mv mod 8) s (sr * pl_w ref + sc) (pl_w ref) d (y0 * pl_w out + x0) (pl_w out) t m = None
   <-> extent L s < (sr + 6) * pl_w ref + sc + 14).
Proof.
  intros L mv ref out sc sr x0 y0 s d t m Hr Ho Sd X0 Y0 X1 Y1 C1 C2 R1 R2 Bm Hs Hd Nsd Nst Ntd Es Ed At Et Fx Fy. split.
  - intros E. destruct (Z_lt_dec (extent L s) ((sr + 6) * pl_w ref + sc + 14)) as [|G]; [assumption|exfalso].
    destruct (C75_predict L 4 mv ref out sc sr x0 y0 s d t m) as (m' & o' & E' & _); try assumption; try lia; [left; reflexivity|].
    rewrite E in E'. discriminate E'.
  - intros B. unfold sse_inter_predict.
    replace (fst mv mod 8 =? 0) with false by lia. replace (snd mv mod 8 =? 0) with false by lia. cbn [andb negb].
    pose proof (Z.mod_pos_bound (fst mv) 8 ltac:(lia)).
    rewrite h4_fail; [reflexivity|..]; try assumption; try lia; nia.
Qed.

(** Without the condition on the end of the reference: inter_predict's own test
    lets a 4-wide block through for which the first pass reads past it. *)
Definition flat_memory : nat -> Z -> Z := fun _ _ => 7.
Definition three_arrays (w h size : Z) : layout :=
  mkLayout (fun s => if Nat.eqb s 2 then (size + 8) * (size + 8) else w * h) (fun _ => 0).
Theorem C75_guard_is_enough_refuted :
  ~ (forall L size mv ref out sc sr x0 y0 s d t m,
  block_size size -> plane_ok ref -> plane_ok out -> same_dims ref out ->
  0 <= x0 -> 0 <= y0 -> x0 + size <= pl_w out -> y0 + size <= pl_h out ->
  0 <= sc - 2 -> sc + size + 3 <= pl_w ref -> 0 <= sr - 2 -> sr + size + 3 <= pl_h ref ->
  bytes_ok m -> holds m s ref -> holds m d out -> s <> d -> s <> t -> t <> d ->
  pl_w ref * pl_h ref <= extent L s -> pl_w out * pl_h out <= extent L d ->
  (size = 16 -> (base L d + y0 * pl_w out + x0) mod 16 = 0 /\ pl_w out mod 16 = 0) ->
  base L t mod 16 = 0 -> extent L t = (size + 8) * (size + 8) ->
  sse_inter_predict L size (fst mv mod 8) (snd mv mod 8) s (sr * pl_w ref + sc) (pl_w ref) d (y0 * pl_w out + x0) (pl_w out) t m <> None).
Proof.
  intros H. set (p := mkPlane 16 16 (repeat 7 256)).
  assert (Hp : plane_ok p).
  { split; [split; [reflexivity|split; reflexivity]|]. apply Forall_forall. intros x Hx. apply repeat_spec in Hx. subst. unfold byte_ok. lia. }
  assert (Hh : forall s, holds flat_memory s p).
  { intros s x y I. unfold flat_memory, at_px. cbn [pl_px p]. symmetry.
    rewrite (nth_indep _ 0 7); [apply nth_repeat|]. rewrite repeat_length. apply inside_iff in I. unfold pix_index. cbn [pl_w pl_h p] in *. lia. }
  assert (S1 : same_dims p p) by (split; reflexivity).
  assert (B1 : bytes_ok flat_memory) by (intros s a; unfold flat_memory; lia).
  apply (H (three_arrays 16 16 4) 4 (4, 4) p p 9 9 0 0 0%nat 1%nat 2%nat flat_memory (or_introl eq_refl) Hp Hp S1
    ltac:(lia) ltac:(lia) ltac:(cbn [pl_w p]; lia) ltac:(cbn [pl_h p]; lia) ltac:(lia) ltac:(cbn [pl_w p]; lia) ltac:(lia) ltac:(cbn [pl_h p]; lia)
    B1 (Hh _) (Hh _) ltac:(discriminate) ltac:(discriminate) ltac:(discriminate)
    ltac:(cbn; lia) ltac:(cbn; lia) ltac:(discriminate) eq_refl eq_refl).
  vm_compute. reflexivity.
Qed.

(** ** The padded reference *)

(** Block<16>::inter_predict from a SafeRaster: what C62 takes for granted about
    the assembly. *)
Theorem C75_padded :
  forall L r safe column row mv out s d t m,
  raster_dims r -> plane_ok (ra_y r) -> plane_ok out -> same_dims (ra_y r) out -> mv_int16 mv ->
  pl_w safe = ra_dw r + 512 -> pl_h safe = ra_dh r + 512 ->
  shows MARGIN_WIDTH (ra_dw r) (ra_dh r) (ra_y r) safe -> shaped safe ->
  0 <= column -> 0 <= row -> 16 * (column + 1) <= pl_w out -> 16 * (row + 1) <= pl_h out ->
  pl_w out <= 2 ^ 30 -> pl_h out <= 2 ^ 30 ->
  -254 <= 16 * column + fst mv / 8 <= ra_dw r + 237 -> -254 <= 16 * row + snd mv / 8 <= ra_dh r + 237 ->
  bytes_ok m -> holds m s safe -> holds m d out -> s <> d -> s <> t -> t <> d ->
  pl_w safe * pl_h safe <= extent L s -> pl_w out * pl_h out <= extent L d ->
  base L d mod 16 = 0 -> pl_w out mod 16 = 0 -> base L t mod 16 = 0 -> extent L t = 576 ->
  exists m' out',
    sse_inter_predict L 16 (fst mv mod 8) (snd mv mod 8) s
      ((256 + (16 * row + snd mv / 8)) * pl_w safe + (256 + (16 * column + fst mv / 8))) (pl_w safe)
      d (16 * row * pl_w out + 16 * column) (pl_w out) t m = Some m' /\
    inter_predict 16 column row mv (ra_y r) out = Some out' /\
    safe_predict MARGIN_WIDTH 16 column row mv safe out = Some out' /\
    holds m' d out' /\ forall s' a, s' <> d -> s' <> t -> m' s' a = m s' a.
Proof.
  intros L r safe column row mv out s d t m Hd Hr Ho Sd Hm Ew Eh Sh Hsh C0 R0 C1 R1 Bw Bh Bx By Bm Hs Hdo Nsd Nst Ntd Es Ed Ad Aw At Et.
  destruct (C62_predict r safe column row mv out) as (out' & S1 & I1); try assumption.
  destruct (C32_inter_predict 16 column row mv (ra_y r) out) as (o2 & I2 & Ok2 & Sd2 & At2); try assumption; [right; right; reflexivity|].
  rewrite I1 in I2. assert (o2 = out') by congruence. subst o2. clear I2.
  set (sc := 16 * column + fst mv / 8) in *. set (sr := 16 * row + snd mv / 8) in *.
  destruct Hsh as (Sw & Shh & Sl).
  assert (P1 : (256 + sr + 18) * pl_w safe <= (pl_h safe - 1) * pl_w safe) by (apply Z.mul_le_mono_nonneg_r; lia).
  assert (P2 : 0 <= (256 + sr - 2) * pl_w safe) by (apply Z.mul_nonneg_nonneg; lia).
  assert (P3 : (16 * row + 15) * pl_w out <= (pl_h out - 1) * pl_w out) by (apply Z.mul_le_mono_nonneg_r; lia).
  pose proof (Z.mod_pos_bound (fst mv) 8 ltac:(lia)) as Mx. pose proof (Z.mod_pos_bound (snd mv) 8 ltac:(lia)) as My.
  destruct (C75_block L 16 (fst mv mod 8) (snd mv mod 8) s ((256 + sr) * pl_w safe + (256 + sc)) (pl_w safe) d (16 * row * pl_w out + 16 * column) (pl_w out) t m)
    as (m' & E & In & Out); try assumption; try lia.
  { right. right. reflexivity. }
  { unfold room, reach. cbn [Z.eqb Pos.eqb].
    replace ((256 + sr + 18) * pl_w safe) with ((256 + sr) * pl_w safe + 18 * pl_w safe) in P1 by ring.
    replace ((256 + sr - 2) * pl_w safe) with ((256 + sr) * pl_w safe - 2 * pl_w safe) in P2 by ring.
    destruct (fst mv mod 8 =? 0), (snd mv mod 8 =? 0); lia. }
  { apply Z.add_nonneg_nonneg; [apply Z.mul_nonneg_nonneg; lia|lia]. }
  exists m', out'. repeat (split; [assumption|]). split.
  - apply (block_written m m' d out (16 * column) (16 * row) 16 (fun c rr => displaced (ra_y r) (fst mv) (snd mv) (16 * column + c) (16 * row + rr)) out'); try assumption; try lia.
    + intros rr c Hr' Hc. rewrite In by assumption. unfold displaced.
      f_equal. apply weighted_ext_in. intros j J. rewrite zlen_taps in J. f_equal. apply weighted_ext_in. intros i I. rewrite zlen_taps in I.
      pose proof (Sh (sc + c + i) (sr + rr + j)) as Q. unfold MARGIN_WIDTH, safe_at in Q. specialize (Q ltac:(lia) ltac:(lia)).
      replace ((256 + (sc + c + i) <? 0) || (256 + (sr + rr + j) <? 0)) with false in Q by lia.
      assert (Is : inside safe (256 + (sc + c + i)) (256 + (sr + rr + j)) = true) by (apply inside_iff; lia).
      rewrite pget_some in Q; [|repeat split; assumption|exact Is]. assert (Q2 := f_equal (fun o => match o with Some v => v | None => 0 end) Q). cbv beta iota in Q2. clear Q. rename Q2 into Q.
      replace (16 * column + c + fst mv / 8 + i) with (sc + c + i) by (unfold sc; ring).
      replace (16 * row + rr + snd mv / 8 + j) with (sr + rr + j) by (unfold sr; ring).
      rewrite <- Q, <- (Hs _ _ Is). f_equal. ring.
    + intros a Na. apply Out; [congruence|right; exact Na].
    + intros x y Ixy. rewrite At2 by exact Ixy. destruct (in_block (16 * column) (16 * row) 16 x y); [|reflexivity]. f_equal; lia.
  - intros s' a N1 N2. apply Out; [exact N2|left; exact N1].
Qed.

(** ** Examples: black and white pixels, whose sums saturate *)

Definition dotted (k : nat) (a : Z) : Z := if Z.even (a / 2 + a / 16) then 250 + a mod 6 else (11 * a + Z.of_nat k) mod 32.
Lemma dotted_bytes : bytes_ok dotted.
Proof. intros k a. unfold dotted. destruct (Z.even _); [pose proof (Z.mod_pos_bound a 6)|pose proof (Z.mod_pos_bound (11 * a + Z.of_nat k) 32)]; lia. Qed.
Definition dotted_plane (k : nat) (w h : Z) : plane := mkPlane w h (map (fun n => dotted k (Z.of_nat n)) (seq 0 (Z.to_nat (w * h)))).
Definition row_of (m : option (nat -> Z -> Z)) (k : nat) (o w : Z) : list Z :=
  match m with Some m => map (fun c => m k (o + Z.of_nat c)) (seq 0 (Z.to_nat w)) | None => [] end.

Example C75_horizontal_example :
  let L := mkLayout (fun _ => 64) (fun _ => 0) in
  bytes_ok dotted /\ 2 + (3 - 1) * 20 + reach 16 <= extent L 0 /\
  row_of (AsmInterModel.filter L (horizontal 8 4) (Ptr 0 2) 11 (Ptr 1 5) 9 2 dotted) 1 4 10 =
    dotted 1 4 :: map (fun c => rounded (weighted (taps 4) (-2) (fun j => dotted 0 (2 + Z.of_nat c + j)))) (seq 0 8) ++ [dotted 1 13] /\
  existsb (fun c => 32767 <? weighted (taps 4) (-2) (fun j => dotted 0 (2 + Z.of_nat c + j)) + 64) (seq 0 8) = true.
Proof. split; [exact dotted_bytes|]. split; [cbn; lia|]. split; vm_compute; reflexivity. Qed.

Example C75_vertical_example :
  let L := mkLayout (fun _ => 64) (fun _ => 0) in
  0 + (2 + 4) * 9 + 4 <= extent L 0 /\
  row_of (AsmInterModel.filter L (vertical 4 2) (Ptr 0 0) 9 (Ptr 1 5) 9 2 dotted) 1 14 4 =
    map (fun c => rounded (weighted (taps 2) (-2) (fun j => dotted 0 (2 * 9 + (1 + j) * 9 + Z.of_nat c)))) (seq 0 4).
Proof. split; [cbn; lia|vm_compute; reflexivity]. Qed.

Example C75_block_example :
  let L := three_arrays 11 11 4 in
  room 4 3 6 (2 * 11 + 2) 11 (extent L 0) /\
  row_of (sse_inter_predict L 4 3 6 0 (2 * 11 + 2) 11 1 (6 * 11 + 5) 11 2 dotted) 1 (9 * 11 + 5) 4 =
    map (fun c => rounded (weighted (taps 6) (-2) (fun j => rounded (weighted (taps 3) (-2) (fun i => dotted 0 (2 * 11 + 2 + (3 + j) * 11 + Z.of_nat c + i)))))) (seq 0 4).
Proof. split; [split; vm_compute; discriminate|vm_compute; reflexivity]. Qed.

(** The least case of C75_predict: a plane on which a block just fits. *)
Example C75_predict_example :
  let L := three_arrays 11 11 4 in let ref := dotted_plane 0 11 11 in let out := dotted_plane 1 11 11 in
  pl_w ref * pl_h ref <= extent L 0 /\ (2 + 6) * 11 + 2 + 14 <= extent L 0 /\
  match sse_inter_predict L 4 5 4 0 (2 * 11 + 2) 11 1 (6 * 11 + 5) 11 2 dotted, unsafe_inter_predict 4 (13, -12) ref 2 2 5 6 out with
  | Some m, Some p => forallb (fun a => m 1%nat (Z.of_nat a) =? nth a (pl_px p) 0) (seq 0 121) = true /\ pl_px p <> pl_px out
  | _, _ => False end.
Proof. split; [vm_compute; discriminate|]. split; [vm_compute; discriminate|]. vm_compute. split; [reflexivity|discriminate]. Qed.

(** Five columns further right, at the bottom, both cases occur. *)
Example C75_read_past_end_example :
  let L := three_arrays 16 11 4 in
  extent L 0 < (4 + 6) * 16 + 9 + 14 /\
  sse_inter_predict L 4 5 4 0 (4 * 16 + 9) 16 1 0 16 2 dotted = None /\
  (4 + 6) * 16 + 2 + 14 <= extent L 0 /\
  sse_inter_predict L 4 5 4 0 (4 * 16 + 2) 16 1 0 16 2 dotted <> None.
Proof. split; [reflexivity|]. split; [vm_compute; reflexivity|]. split; [vm_compute; discriminate|]. vm_compute. discriminate. Qed.

(** A position that lies wholly in the margin of a 16x16 picture satisfies the bounds of C75_padded. *)
Example C75_padded_example :
  -254 <= 16 * 0 + fst (-2000, 1897) / 8 <= 16 + 237 /\ -254 <= 16 * 0 + snd (-2000, 1897) / 8 <= 16 + 237 /\
  room 16 (fst (-2000, 1897) mod 8) (snd (-2000, 1897) mod 8) ((256 + 1897 / 8) * 528 + (256 + -2000 / 8)) 528 (528 * 528).
Proof. vm_compute. repeat split; discriminate. Qed.

Print Assumptions C75_horizontal.
Print Assumptions C75_vertical.
Print Assumptions C75_block.
Print Assumptions C75_predict.
Print Assumptions C75_read_past_end.
Print Assumptions C75_guard_is_enough_refuted.
Print Assumptions C75_padded.
