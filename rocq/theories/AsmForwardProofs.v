(** Symbolic execution of the assembled forward transforms. *)
From Verif Require Import Base MVModel FrameModel RasterModel TransformModel ResidueModel VarianceModel SimdModel AsmTransformModel.
From Verif Require Import SimdProofs ChunkProofs PropTransform ResidueProofs AsmTransformProofs.

(** * Lanes in range *)

Lemma sat16_small : forall x, -32768 <= x <= 32767 -> sat16 x = x.
Proof. intros. unfold sat16. lia. Qed.

(** Nothing wraps around or saturates. *)
Ltac inrange :=
  unfold add16, sub16, sar; rewrite ?Z.shiftr_div_pow2 by lia;
  change (2 ^ 2) with 4; change (2 ^ 3) with 8; change (2 ^ 4) with 16; change (2 ^ 12) with 4096; change (2 ^ 16) with 65536;
  repeat match goal with
  | |- context [s16 ?x] => lazymatch x with context [s16 _] => fail | context [s32 _] => fail | context [sat16 _] => fail | _ => rewrite (SimdProofs.s16_small x) by lia end
  | |- context [s32 ?x] => lazymatch x with context [s16 _] => fail | context [s32 _] => fail | context [sat16 _] => fail | _ => rewrite (s32_small x) by lia end
  | |- context [sat16 ?x] => lazymatch x with context [s16 _] => fail | context [s32 _] => fail | context [sat16 _] => fail | _ => rewrite (sat16_small x) by lia end
  end.

Definition le_bytes (l : list Z) : list Z := flat_map (fun w => [lo8 w; hi8 w]) l.
Lemma le_bytes_zlen : forall l, zlen (le_bytes l) = 2 * zlen l.
Proof. induction l as [|x l IH]; [reflexivity|]. change (le_bytes (x :: l)) with (lo8 x :: hi8 x :: le_bytes l). rewrite !zlen_cons, IH. lia. Qed.
Lemma peek16_bytes : forall l m seg off i, (i < length l)%nat -> peek16 (poke m seg off (le_bytes l)) seg (off + 2 * Z.of_nat i) = s16 (nth i l 0).
Proof.
  intros l m seg off i Hi. unfold peek16.
  assert (Q : zlen (le_bytes l) = 2 * Z.of_nat (length l)) by apply le_bytes_zlen.
  rewrite !poke_in by lia.
  replace (Z.to_nat (off + 2 * Z.of_nat i - off)) with (2 * i)%nat by lia.
  replace (Z.to_nat (off + 2 * Z.of_nat i + 1 - off)) with (2 * i + 1)%nat by lia.
  rewrite <- word_split. clear Q. revert i Hi. induction l as [|x l IH]; intros i Hi; [cbn [length] in Hi; lia|].
  destruct i as [|i]; [reflexivity|]. cbn [length] in Hi. specialize (IH i ltac:(lia)).
  change (le_bytes (x :: l)) with (lo8 x :: hi8 x :: le_bytes l).
  replace (2 * S i)%nat with (S (S (2 * i))) by lia. replace (S (S (2 * i)) + 1)%nat with (S (S (2 * i + 1))) by lia.
  exact IH.
Qed.

(** Two registers of eight words make an array of sixteen. *)
Lemma array16_two : forall m seg off a b, length a = 8%nat -> length b = 8%nat ->
  array16 (poke (poke m seg off (le_bytes a)) seg (off + 16) (le_bytes b)) seg off 2 16 = map s16 (a ++ b).
Proof.
  intros m seg off a b A B.
  assert (LA : zlen (le_bytes a) = 16) by (rewrite le_bytes_zlen; unfold zlen; lia).
  transitivity (map (fun i => peek16 (poke (poke m seg off (le_bytes a)) seg (off + 16) (le_bytes b)) seg (off + 2 * Z.of_nat i)) (seq 0 8)
    ++ map (fun i => peek16 (poke (poke m seg off (le_bytes a)) seg (off + 16) (le_bytes b)) seg (off + 16 + 2 * Z.of_nat i)) (seq 0 8)).
  { unfold array16. change (seq 0 16) with (seq 0 8 ++ map (Nat.add 8) (seq 0 8)). rewrite map_app, map_map. f_equal.
    apply map_ext. intros i. f_equal. lia. }
  rewrite map_app. f_equal.
  - transitivity (map (fun i => s16 (nth i a 0)) (seq 0 8)).
    + apply map_ext_in. intros i Hi. apply in_seq in Hi. rewrite peek16_out by lia. apply peek16_bytes. lia.
    + rewrite <- map_map. f_equal. do 9 (destruct a as [|? a]; try discriminate A). reflexivity.
  - transitivity (map (fun i => s16 (nth i b 0)) (seq 0 8)).
    + apply map_ext_in. intros i Hi. apply in_seq in Hi. apply peek16_bytes. lia.
    + rewrite <- map_map. f_equal. do 9 (destruct b as [|? b]; try discriminate B). reflexivity.
Qed.

(** * The forward Walsh-Hadamard transform *)

Lemma whad_lane0 : forall a b c d, -2040 <= a <= 2040 -> -2040 <= b <= 2040 -> -2040 <= c <= 2040 -> -2040 <= d <= 2040 ->
  add16 (add16 (s16 (add16 a c * 2 ^ 2)) (s16 (add16 b d * 2 ^ 2))) (add16 (if 0 =? s16 (add16 a c * 2 ^ 2) then -1 else 0) 1) = whad_row 0 (four a b c d).
Proof.
  intros. cbn [whad_row four]. inrange. destruct (0 =? (a + c) * 4) eqn:E; replace (a + c =? 0) with (0 =? (a + c) * 4) by lia; rewrite E; inrange; lia.
Qed.
Lemma whad_lane1 : forall a b c d, -2040 <= a <= 2040 -> -2040 <= b <= 2040 -> -2040 <= c <= 2040 -> -2040 <= d <= 2040 ->
  add16 (add16 (s16 (sub16 a c * 2 ^ 2)) (s16 (sub16 b d * 2 ^ 2))) 0 = whad_row 1 (four a b c d).
Proof. intros. cbn [whad_row four]. inrange. lia. Qed.
Lemma whad_lane2 : forall a b c d, -2040 <= a <= 2040 -> -2040 <= b <= 2040 -> -2040 <= c <= 2040 -> -2040 <= d <= 2040 ->
  sub16 (s16 (sub16 a c * 2 ^ 2)) (s16 (sub16 b d * 2 ^ 2)) = whad_row 2 (four a b c d).
Proof. intros. cbn [whad_row four]. inrange. lia. Qed.
Lemma whad_lane3 : forall a b c d, -2040 <= a <= 2040 -> -2040 <= b <= 2040 -> -2040 <= c <= 2040 -> -2040 <= d <= 2040 ->
  sub16 (s16 (add16 a c * 2 ^ 2)) (s16 (add16 b d * 2 ^ 2)) = whad_row 3 (four a b c d).
Proof. intros. cbn [whad_row four]. inrange. lia. Qed.

Lemma fwalsh_rows_run : forall L args g v4 v5 v6 v7 vs m b0 b1 b2 b3 b4 b5 b6 b7 b8 b9 b10 b11 b12 b13 b14 b15 b16 b17 b18 b19 b20 b21 b22 b23 b24 b25 b26 b27 b28 b29 b30 b31,
  let C := coef [word b0 b1; word b2 b3; word b4 b5; word b6 b7; word b8 b9; word b10 b11; word b12 b13; word b14 b15; word b16 b17; word b18 b19; word b20 b21; word b22 b23; word b24 b25; word b26 b27; word b28 b29; word b30 b31] in
  (forall i j, -2040 <= C i j <= 2040) ->
  let R k i := whad_row k (C i) in
  exists u1 u3 u4 u5 u6 u7,
  run L args fwalsh_rows (mkMachine g (Vb [b0; b1; b2; b3; b4; b5; b6; b7; 0; 0; 0; 0; 0; 0; 0; 0] :: Vb [b8; b9; b10; b11; b12; b13; b14; b15; 0; 0; 0; 0; 0; 0; 0; 0] :: Vb [b16; b17; b18; b19; b20; b21; b22; b23; 0; 0; 0; 0; 0; 0; 0; 0] :: Vb [b24; b25; b26; b27; b28; b29; b30; b31; 0; 0; 0; 0; 0; 0; 0; 0] :: v4 :: v5 :: v6 :: v7 :: vs) m) =
  Some (mkMachine g (Vw (map (R 0%nat) [0; 1; 2; 3]%nat ++ map (R 1%nat) [0; 1; 2; 3]%nat) :: u1 ::
                     Vw (map (R 3%nat) [0; 1; 2; 3]%nat ++ map (R 2%nat) [0; 1; 2; 3]%nat) :: u3 :: u4 :: u5 :: u6 :: u7 :: vs) m).
Proof.
  intros L args g v4 v5 v6 v7 vs m b0 b1 b2 b3 b4 b5 b6 b7 b8 b9 b10 b11 b12 b13 b14 b15 b16 b17 b18 b19 b20 b21 b22 b23 b24 b25 b26 b27 b28 b29 b30 b31 C B R.
  pose proof (B 0 0)%nat. pose proof (B 0 1)%nat. pose proof (B 0 2)%nat. pose proof (B 0 3)%nat.
  pose proof (B 1 0)%nat. pose proof (B 1 1)%nat. pose proof (B 1 2)%nat. pose proof (B 1 3)%nat.
  pose proof (B 2 0)%nat. pose proof (B 2 1)%nat. pose proof (B 2 2)%nat. pose proof (B 2 3)%nat.
  pose proof (B 3 0)%nat. pose proof (B 3 1)%nat. pose proof (B 3 2)%nat. pose proof (B 3 3)%nat.
  subst R C. clear B. unfold coef in *. cbn [nth Nat.add Nat.mul] in *.
  do 6 eexists. vblock. change (word 0 0) with 0. change (add16 (if 0 =? 0 then -1 else 0) 1) with 0.
  rewrite !whad_lane0, !whad_lane1, !whad_lane2, !whad_lane3 by assumption.
  reflexivity.
Qed.

Lemma eighth_asm : forall x, -131072 <= x <= 131072 ->
  sat16 (sar 3 (s32 (s32 (x + Z.land (if x <? 0 then -1 else 0) 1) + 3))) = eighth x.
Proof.
  intros x H. unfold eighth. replace (Z.land (if x <? 0 then -1 else 0) 1) with (if x <? 0 then 1 else 0) by (destruct (x <? 0); reflexivity).
  destruct (x <? 0); inrange; reflexivity.
Qed.

Lemma fwalsh_columns_run : forall L args g u1 u3 u4 u5 u6 u7 vs m (R F : nat -> nat -> Z),
  (forall k i, -32641 <= R k i <= 32641) ->
  (forall r k, F r k = whad_column r (R k)) ->
  exists w1 w3 w4 w5 w6 w7,
  run L args fwalsh_columns (mkMachine g (Vw (map (R 0%nat) [0; 1; 2; 3]%nat ++ map (R 1%nat) [0; 1; 2; 3]%nat) :: u1 ::
                     Vw (map (R 3%nat) [0; 1; 2; 3]%nat ++ map (R 2%nat) [0; 1; 2; 3]%nat) :: u3 :: u4 :: u5 :: u6 :: u7 :: vs) m) =
  Some (mkMachine g (Vw (map (F 0%nat) [0; 1; 2; 3]%nat ++ map (F 1%nat) [0; 1; 2; 3]%nat) :: w1 ::
                     Vw (map (F 2%nat) [0; 1; 2; 3]%nat ++ map (F 3%nat) [0; 1; 2; 3]%nat) :: w3 :: w4 :: w5 :: w6 :: w7 :: vs) m).
Proof.
  intros L args g u1 u3 u4 u5 u6 u7 vs m R F B HF.
  pose proof (B 0 0)%nat. pose proof (B 0 1)%nat. pose proof (B 0 2)%nat. pose proof (B 0 3)%nat.
  pose proof (B 1 0)%nat. pose proof (B 1 1)%nat. pose proof (B 1 2)%nat. pose proof (B 1 3)%nat.
  pose proof (B 2 0)%nat. pose proof (B 2 1)%nat. pose proof (B 2 2)%nat. pose proof (B 2 3)%nat.
  pose proof (B 3 0)%nat. pose proof (B 3 1)%nat. pose proof (B 3 2)%nat. pose proof (B 3 3)%nat.
  cbn [map app]. rewrite !HF. unfold whad_column. cbn [hadamard]. clear B.
  do 6 eexists. vblock. change (dword (word 0 0) (word 0 0)) with 0.
  refine (f_equal Some _). refine (f_equal2 (fun g v => mkMachine g v m) eq_refl _).
  refine (f_equal2 cons _ (f_equal2 cons eq_refl (f_equal2 cons _ eq_refl))); apply f_equal.
  all: repeat (refine (f_equal2 cons _ _); [|]); try reflexivity.
  all: match goal with |- sat16 (sar 3 (s32 (s32 (?x + Z.land _ 1) + 3))) = eighth ?y => replace x with y by (inrange; lia) end.
  all: apply eighth_asm; lia.
Qed.

Lemma fwalsh_call : forall L m i io o oo,
  0 <= io -> io + 32 <= extent L i -> 0 <= oo -> oo + 32 <= extent L o -> (base L o + oo) mod 16 = 0 ->
  let x := array16 m i io 2 16 in
  Forall (fun z => -2040 <= z <= 2040) x ->
  let F r k := forward_wht (coef x) r k in
  call 1 L [Ptr i io; Ptr o oo; Int 8] fwalsh m =
  Some (poke (poke m o oo (le_bytes (map (F 0%nat) [0; 1; 2; 3]%nat ++ map (F 1%nat) [0; 1; 2; 3]%nat)))
             o (oo + 16) (le_bytes (map (F 2%nat) [0; 1; 2; 3]%nat ++ map (F 3%nat) [0; 1; 2; 3]%nat))).
Proof.
  intros L m i io o oo I0 I1 O0 O1 Al x B F.
  assert (Bc : forall r k, -2040 <= coef x r k <= 2040).
  { intros r k. unfold coef. destruct (nth_in_or_default (4 * r + k) x 0) as [I| ->]; [|lia]. apply (proj1 (Forall_forall _ _) B _ I). }
  unfold call, call_from, fwalsh. cbn [run_blocks].
  rewrite (run_app _ _ [_;_;_;_;_;_;_;_]).
  do 8 vstep ltac:(side). cbn [run obind].
  rewrite run_app.
  match goal with |- context [run L ?args fwalsh_rows (mkMachine ?g (Vb [?b0; ?b1; ?b2; ?b3; ?b4; ?b5; ?b6; ?b7; _; _; _; _; _; _; _; _] :: Vb [?b8; ?b9; ?b10; ?b11; ?b12; ?b13; ?b14; ?b15; _; _; _; _; _; _; _; _] :: Vb [?b16; ?b17; ?b18; ?b19; ?b20; ?b21; ?b22; ?b23; _; _; _; _; _; _; _; _] :: Vb [?b24; ?b25; ?b26; ?b27; ?b28; ?b29; ?b30; ?b31; _; _; _; _; _; _; _; _] :: ?v4 :: ?v5 :: ?v6 :: ?v7 :: ?vs) ?mm)] =>
    destruct (fwalsh_rows_run L args g v4 v5 v6 v7 vs mm b0 b1 b2 b3 b4 b5 b6 b7 b8 b9 b10 b11 b12 b13 b14 b15 b16 b17 b18 b19 b20 b21 b22 b23 b24 b25 b26 b27 b28 b29 b30 b31) as (u1 & u3 & u4 & u5 & u6 & u7 & E)
  end.
  { replace (coef _) with (coef x); [exact Bc|]. unfold x, array16. cbn [seq map]. unfold peek16.
    replace (io + 2 * 8) with (io + 16) by lia. rewrite <- !Z.add_assoc. reflexivity. }
  rewrite E. clear E. cbn [obind]. rewrite run_app.
  match goal with |- context [run L ?args fwalsh_columns (mkMachine ?g (Vw (map (fun i0 => whad_row 0 (coef ?l i0)) _ ++ _) :: _) ?mm)] => replace (coef l) with (coef x) end.
  2:{ unfold x, array16. cbn [seq map]. unfold peek16. rewrite <- !Z.add_assoc. reflexivity. }
  match goal with |- context [run L ?args fwalsh_columns (mkMachine ?g (_ :: _ :: _ :: _ :: _ :: _ :: _ :: _ :: ?vs) ?mm)] =>
    destruct (fwalsh_columns_run L args g u1 u3 u4 u5 u6 u7 vs mm (fun k i => whad_row k (coef x i)) F) as (w1 & w3 & w4 & w5 & w6 & w7 & E)
  end.
  { intros k j. apply whad_row_range. intros q. apply Bc. }
  { reflexivity. }
  rewrite E. clear E. cbn [obind].
  clearbody F. clear Bc B. clearbody x.
  do 2 vstep ltac:(side). cbn [run obind mem]. rewrite Z.add_0_r. reflexivity.
Qed.

(** * The forward cosine transform *)

Lemma fwd_lane0 : forall a b c d, -255 <= a <= 255 -> -255 <= b <= 255 -> -255 <= c <= 255 -> -255 <= d <= 255 ->
  sat16 (s32 (s16 (add16 a d * 2 ^ 3) * 1 + s16 (add16 b c * 2 ^ 3) * 1)) = fwd_row 0 (four a b c d).
Proof. intros. cbn [fwd_row four]. inrange. lia. Qed.
Lemma fwd_lane2 : forall a b c d, -255 <= a <= 255 -> -255 <= b <= 255 -> -255 <= c <= 255 -> -255 <= d <= 255 ->
  sat16 (s32 (s16 (add16 a d * 2 ^ 3) * 1 + s16 (add16 b c * 2 ^ 3) * -1)) = fwd_row 2 (four a b c d).
Proof. intros. cbn [fwd_row four]. inrange. lia. Qed.
Lemma fwd_lane1 : forall a b c d, -255 <= a <= 255 -> -255 <= b <= 255 -> -255 <= c <= 255 -> -255 <= d <= 255 ->
  sat16 (sar 12 (s32 (s32 (s16 (sub16 a d * 2 ^ 3) * 5352 + s16 (sub16 b c * 2 ^ 3) * 2217) + 14500))) = fwd_row 1 (four a b c d).
Proof. intros. cbn [fwd_row four]. inrange. f_equal. lia. Qed.
Lemma fwd_lane3 : forall a b c d, -255 <= a <= 255 -> -255 <= b <= 255 -> -255 <= c <= 255 -> -255 <= d <= 255 ->
  sat16 (sar 12 (s32 (s32 (s16 (sub16 a d * 2 ^ 3) * 2217 + s16 (sub16 b c * 2 ^ 3) * -5352) + 7500))) = fwd_row 3 (four a b c d).
Proof. intros. cbn [fwd_row four]. inrange. f_equal. lia. Qed.

(** The second and the third row are loaded in this order: rows 0, 2, 1, 3. *)
Lemma fdct_rows_run : forall L args g v4 v5 v6 v7 vs m b0 b1 b2 b3 b4 b5 b6 b7 b8 b9 b10 b11 b12 b13 b14 b15 b16 b17 b18 b19 b20 b21 b22 b23 b24 b25 b26 b27 b28 b29 b30 b31,
  let C := coef [word b0 b1; word b2 b3; word b4 b5; word b6 b7; word b8 b9; word b10 b11; word b12 b13; word b14 b15; word b16 b17; word b18 b19; word b20 b21; word b22 b23; word b24 b25; word b26 b27; word b28 b29; word b30 b31] in
  (forall i j, -255 <= C i j <= 255) ->
  let R k i := fwd_row k (C i) in
  exists u1 u2 u4 u5 u6 u7,
  run L args fdct_rows (mkMachine g (Vb [b0; b1; b2; b3; b4; b5; b6; b7; 0; 0; 0; 0; 0; 0; 0; 0] :: Vb [b16; b17; b18; b19; b20; b21; b22; b23; 0; 0; 0; 0; 0; 0; 0; 0] :: Vb [b8; b9; b10; b11; b12; b13; b14; b15; 0; 0; 0; 0; 0; 0; 0; 0] :: Vb [b24; b25; b26; b27; b28; b29; b30; b31; 0; 0; 0; 0; 0; 0; 0; 0] :: v4 :: v5 :: v6 :: v7 :: vs) m) =
  Some (mkMachine g (Vw (map (R 0%nat) [0; 1; 2; 3]%nat ++ map (R 2%nat) [0; 1; 2; 3]%nat) :: u1 :: u2 ::
                     Vw (map (R 1%nat) [0; 1; 2; 3]%nat ++ map (R 3%nat) [0; 1; 2; 3]%nat) :: u4 :: u5 :: u6 :: u7 :: vs) m).
Proof.
  intros L args g v4 v5 v6 v7 vs m b0 b1 b2 b3 b4 b5 b6 b7 b8 b9 b10 b11 b12 b13 b14 b15 b16 b17 b18 b19 b20 b21 b22 b23 b24 b25 b26 b27 b28 b29 b30 b31 C B R.
  pose proof (B 0 0)%nat. pose proof (B 0 1)%nat. pose proof (B 0 2)%nat. pose proof (B 0 3)%nat.
  pose proof (B 1 0)%nat. pose proof (B 1 1)%nat. pose proof (B 1 2)%nat. pose proof (B 1 3)%nat.
  pose proof (B 2 0)%nat. pose proof (B 2 1)%nat. pose proof (B 2 2)%nat. pose proof (B 2 3)%nat.
  pose proof (B 3 0)%nat. pose proof (B 3 1)%nat. pose proof (B 3 2)%nat. pose proof (B 3 3)%nat.
  subst R C. clear B. unfold coef in *. cbn [nth Nat.add Nat.mul] in *.
  do 6 eexists. vblock.
  rewrite !fwd_lane0, !fwd_lane1, !fwd_lane2, !fwd_lane3 by assumption.
  reflexivity.
Qed.

Lemma fdct_columns_run : forall L args g u1 u2 u4 u5 u6 u7 vs m (R F : nat -> nat -> Z),
  (forall k i, -8160 <= R k i <= 8160) ->
  (forall r k, F r k = fwd_column r (R k)) ->
  exists w2 w3 w4 w5 w6 w7,
  run L args fdct_columns (mkMachine g (Vw (map (R 0%nat) [0; 1; 2; 3]%nat ++ map (R 2%nat) [0; 1; 2; 3]%nat) :: u1 :: u2 ::
                     Vw (map (R 1%nat) [0; 1; 2; 3]%nat ++ map (R 3%nat) [0; 1; 2; 3]%nat) :: u4 :: u5 :: u6 :: u7 :: vs) m) =
  Some (mkMachine g (Vw (map (F 0%nat) [0; 1; 2; 3]%nat ++ map (F 1%nat) [0; 1; 2; 3]%nat) ::
                     Vw (map (F 2%nat) [0; 1; 2; 3]%nat ++ map (F 3%nat) [0; 1; 2; 3]%nat) :: w2 :: w3 :: w4 :: w5 :: w6 :: w7 :: vs) m).
Proof.
  intros L args g u1 u2 u4 u5 u6 u7 vs m R F B HF.
  pose proof (B 0 0)%nat. pose proof (B 0 1)%nat. pose proof (B 0 2)%nat. pose proof (B 0 3)%nat.
  pose proof (B 1 0)%nat. pose proof (B 1 1)%nat. pose proof (B 1 2)%nat. pose proof (B 1 3)%nat.
  pose proof (B 2 0)%nat. pose proof (B 2 1)%nat. pose proof (B 2 2)%nat. pose proof (B 2 3)%nat.
  pose proof (B 3 0)%nat. pose proof (B 3 1)%nat. pose proof (B 3 2)%nat. pose proof (B 3 3)%nat.
  cbn [map app]. rewrite !HF. cbn [fwd_column]. clear B.
  do 6 eexists. vblock. change (word 0 0) with 0.
  refine (f_equal Some _). refine (f_equal2 (fun g v => mkMachine g v m) eq_refl _).
  refine (f_equal2 cons _ (f_equal2 cons _ eq_refl)); apply f_equal.
  all: repeat (refine (f_equal2 cons _ _); [|]); try reflexivity.
  all: rewrite ?Z.land_0_r. all: try (inrange; rewrite ?Z.add_0_r; f_equal; lia).
  all: match goal with |- context [if ?x =? ?y then 0 else 1] =>
         replace (Z.land (Z.lnot (if sub16 x y =? 0 then -1 else 0)) 1) with (if x =? y then 0 else 1)
           by (unfold sub16; rewrite SimdProofs.s16_small by lia; replace (x - y =? 0) with (x =? y) by lia; destruct (x =? y); reflexivity)
       end.
  all: match goal with |- context [if ?b then 0 else 1] => destruct b end; inrange; f_equal; f_equal; lia.
Qed.

Lemma fdct_call : forall L m i io o oo,
  0 <= io -> io + 32 <= extent L i -> 0 <= oo -> oo + 32 <= extent L o -> (base L o + oo) mod 16 = 0 ->
  let x := array16 m i io 2 16 in
  Forall (fun z => -255 <= z <= 255) x ->
  let F r k := forward (coef x) r k in
  call 1 L [Ptr i io; Ptr o oo; Int 8] fdct4x4 m =
  Some (poke (poke m o oo (le_bytes (map (F 0%nat) [0; 1; 2; 3]%nat ++ map (F 1%nat) [0; 1; 2; 3]%nat)))
             o (oo + 16) (le_bytes (map (F 2%nat) [0; 1; 2; 3]%nat ++ map (F 3%nat) [0; 1; 2; 3]%nat))).
Proof.
  intros L m i io o oo I0 I1 O0 O1 Al x B F.
  assert (Bc : forall r k, -255 <= coef x r k <= 255).
  { intros r k. unfold coef. destruct (nth_in_or_default (4 * r + k) x 0) as [I| ->]; [|lia]. apply (proj1 (Forall_forall _ _) B _ I). }
  unfold call, call_from, fdct4x4. cbn [run_blocks].
  rewrite (run_app _ _ [_;_;_;_;_;_;_;_]).
  do 8 vstep ltac:(side). cbn [run obind].
  rewrite run_app.
  match goal with |- context [run L ?args fdct_rows (mkMachine ?g (Vb [?b0; ?b1; ?b2; ?b3; ?b4; ?b5; ?b6; ?b7; _; _; _; _; _; _; _; _] :: Vb [?b16; ?b17; ?b18; ?b19; ?b20; ?b21; ?b22; ?b23; _; _; _; _; _; _; _; _] :: Vb [?b8; ?b9; ?b10; ?b11; ?b12; ?b13; ?b14; ?b15; _; _; _; _; _; _; _; _] :: Vb [?b24; ?b25; ?b26; ?b27; ?b28; ?b29; ?b30; ?b31; _; _; _; _; _; _; _; _] :: ?v4 :: ?v5 :: ?v6 :: ?v7 :: ?vs) ?mm)] =>
    destruct (fdct_rows_run L args g v4 v5 v6 v7 vs mm b0 b1 b2 b3 b4 b5 b6 b7 b8 b9 b10 b11 b12 b13 b14 b15 b16 b17 b18 b19 b20 b21 b22 b23 b24 b25 b26 b27 b28 b29 b30 b31) as (u1 & u2 & u4 & u5 & u6 & u7 & E)
  end.
  { replace (coef _) with (coef x); [exact Bc|]. unfold x, array16. cbn [seq map]. unfold peek16.
    rewrite <- !Z.add_assoc. reflexivity. }
  rewrite E. clear E. cbn [obind]. rewrite run_app.
  match goal with |- context [run L ?args fdct_columns (mkMachine ?g (Vw (map (fun i0 => fwd_row 0 (coef ?l i0)) _ ++ _) :: _) ?mm)] => replace (coef l) with (coef x) end.
  2:{ unfold x, array16. cbn [seq map]. unfold peek16. rewrite <- !Z.add_assoc. reflexivity. }
  match goal with |- context [run L ?args fdct_columns (mkMachine ?g (_ :: _ :: _ :: _ :: _ :: _ :: _ :: _ :: ?vs) ?mm)] =>
    destruct (fdct_columns_run L args g u1 u2 u4 u5 u6 u7 vs mm (fun k i => fwd_row k (coef x i)) F) as (w2 & w3 & w4 & w5 & w6 & w7 & E)
  end.
  { intros k j. apply fwd_row_range. intros q. apply Bc. }
  { reflexivity. }
  rewrite E. clear E. cbn [obind].
  clearbody F. clear Bc B. clearbody x.
  do 2 vstep ltac:(side). cbn [run obind mem]. rewrite Z.add_0_r. reflexivity.
Qed.
