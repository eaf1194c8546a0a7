(** Symbolic execution of the assembled subtraction and dequantisation. *)
From Verif Require Import Base MVModel FrameModel RasterModel TransformModel ResidueModel VarianceModel SimdModel AsmTransformModel.
From Verif Require Import SimdProofs ChunkProofs PropTransform ResidueProofs AsmTransformProofs AsmForwardProofs.

Lemma sub_any_high : forall x y g, 0 <= x < 256 -> 0 <= y < 256 -> sub16 (word x g) (word y g) = x - y.
Proof. intros. unfold sub16, word, s16. lia. Qed.

Lemma loop_S : forall n L args c l s, loop (S n) L args c l s =
  (let? s := run L args l s in let? z := as_int (reg s c) in if 0 <? z then loop n L args c l s else Some s).
Proof. reflexivity. Qed.

(** Row [r] of the differences of two blocks in memory. *)
Definition diff_row (m : nat -> Z -> Z) (s : nat) (so ss : Z) (p : nat) (po ps : Z) (r : Z) : list Z :=
  map (fun k => m s (so + r * ss + k) - m p (po + r * ps + k)) [0; 1; 2; 3].

Lemma subtract4_call : forall L m g0 g1 g2 g3 g4 g5 g6 g7 d o s so ss p po ps,
  bytes_ok m -> s <> d -> p <> d ->
  0 <= o -> o + 32 <= extent L d ->
  0 <= ss -> 0 <= so -> so + 3 * ss + 4 <= extent L s ->
  0 <= ps -> 0 <= po -> po + 3 * ps + 4 <= extent L p ->
  let D := diff_row m s so ss p po ps in
  call_from (set_v (start m) (mm 7) (Vb [g0; g1; g2; g3; g4; g5; g6; g7])) 2 L
    [Int 4; Int 4; Ptr d o; Int 4; Ptr s so; Int ss; Ptr p po; Int ps] subtract4 =
  Some (poke (poke (poke (poke m d o (le_bytes (D 0))) d (o + 8) (le_bytes (D 1))) d (o + 16) (le_bytes (D 2))) d (o + 24) (le_bytes (D 3))).
Proof.
  intros L m g0 g1 g2 g3 g4 g5 g6 g7 d o s so ss p po ps Bm Nsd Npd O0 O1 S0 S1 S2 P0 P1 P2 D.
  unfold call_from, subtract4. cbn [run_blocks].
  match goal with |- context [set_v (start m) ?r ?v] => let x := vc_eval (set_v (start m) r v) in change (set_v (start m) r v) with x end.
  do 8 vstep ltac:(side). cbn [run obind]. rewrite loop_S.
  do 16 (vstep ltac:(side); rewrite ?poke_out by (left; assumption)). cbn [run obind].
  match goal with |- context [as_int (reg ?st ?r)] => change (as_int (reg st r)) with (Some (4 + -2)) end.
  cbn [obind]. change (0 <? 4 + -2) with true. cbv iota. rewrite loop_S.
  do 16 (vstep ltac:(side); rewrite ?poke_out by (left; assumption)). cbn [run obind].
  match goal with |- context [as_int (reg ?st ?r)] => change (as_int (reg st r)) with (Some (4 + -2 + -2)) end.
  cbn [obind]. change (0 <? 4 + -2 + -2) with false. cbv iota. cbn [obind mem].
  rewrite !sub_any_high by apply Bm.
  unfold D, diff_row, le_bytes. cbn [map flat_map app].
  replace (so + 2 * ss + 0 + 1 * ss) with (so + 3 * ss) by ring. replace (po + 2 * ps + 0 + 1 * ps) with (po + 3 * ps) by ring.
  replace (so + 0 * ss) with (so + 0) by ring. replace (po + 0 * ps) with (po + 0) by ring.
  replace (o + 4 * 4 + 0 + 2 * 4 + 0) with (o + 24) by ring. replace (o + 4 * 4 + 0) with (o + 16) by ring. replace (o + 2 * 4 + 0) with (o + 8) by ring.
  rewrite !Z.add_0_r. reflexivity.
Qed.

(** What the array then holds. *)
Lemma subtract4_result : forall m d o D0 D1 D2 D3, length D0 = 4%nat -> length D1 = 4%nat -> length D2 = 4%nat -> length D3 = 4%nat ->
  array16 (poke (poke (poke (poke m d o (le_bytes D0)) d (o + 8) (le_bytes D1)) d (o + 16) (le_bytes D2)) d (o + 24) (le_bytes D3)) d o 2 16
  = map s16 (D0 ++ D1 ++ D2 ++ D3).
Proof.
  intros m d o D0 D1 D2 D3 L0 L1 L2 L3.
  assert (Z0 : forall l, length l = 4%nat -> zlen (le_bytes l) = 8) by (intros l Q; rewrite le_bytes_zlen; unfold zlen; lia).
  pose proof (Z0 _ L0). pose proof (Z0 _ L1). pose proof (Z0 _ L2). pose proof (Z0 _ L3).
  unfold array16.
  change (seq 0 16) with (seq 0 4 ++ map (Nat.add 4) (seq 0 4) ++ map (Nat.add 8) (seq 0 4) ++ map (Nat.add 12) (seq 0 4)).
  rewrite !map_app, !map_map.
  assert (T : forall l, length l = 4%nat -> map s16 l = map (fun i => s16 (nth i l 0)) (seq 0 4)).
  { intros l Q. do 5 (destruct l as [|? l]; try discriminate Q). reflexivity. }
  rewrite !T by assumption.
  apply f_equal2; [|apply f_equal2; [|apply f_equal2]]; apply map_ext_in; intros i Hi; apply in_seq in Hi.
  - rewrite !peek16_out by lia. apply peek16_bytes. lia.
  - rewrite !peek16_out by lia. replace (o + 2 * Z.of_nat (4 + i)) with (o + 8 + 2 * Z.of_nat i) by lia. apply peek16_bytes. lia.
  - rewrite !peek16_out by lia. replace (o + 2 * Z.of_nat (8 + i)) with (o + 16 + 2 * Z.of_nat i) by lia. apply peek16_bytes. lia.
  - replace (o + 2 * Z.of_nat (12 + i)) with (o + 24 + 2 * Z.of_nat i) by lia. apply peek16_bytes. lia.
Qed.

(** * Dequantisation *)

Definition dequant_lanes (q0 q1 : Z) (c : list Z) : list Z :=
  match c with [] => [] | x :: t => s16 (x * s16 q0) :: map (fun y => s16 (y * s16 q1)) t end.

Lemma dequantize_call : forall L m first second i io o oo,
  0 <= io -> io + 32 <= extent L i -> 0 <= oo -> oo + 32 <= extent L o -> (base L o + oo) mod 16 = 0 ->
  let x := dequant_lanes first second (array16 m i io 2 16) in
  call 1 L [Ptr i io; Ptr o oo] (dequantize_sse2 first second) m =
  Some (poke (poke m o oo (le_bytes (firstn 8 x))) o (oo + 16) (le_bytes (skipn 8 x))).
Proof.
  intros L m first second i io o oo I0 I1 O0 O1 Al x.
  unfold call, call_from, dequantize_sse2. cbn [run_blocks].
  do 4 vstep ltac:(side).
  match goal with |- context [run L ?a (?i1 :: ?i2 :: ?i3 :: ?i4 :: ?l) ?s] => change (i1 :: i2 :: i3 :: i4 :: l) with ([i1; i2; i3; i4] ++ l) end.
  rewrite run_app. vblock. do 2 vstep ltac:(side). cbn [run obind mem].
  subst x. unfold array16, dequant_lanes. cbn [seq map firstn skipn]. unfold peek16, le_bytes. cbn [flat_map app].
  replace (oo + 0) with oo by ring. rewrite <- !Z.add_assoc. reflexivity.
Qed.
