(** Forward transforms: formulas, ranges, and what the inverse transforms make
    of them. *)
From Verif Require Import Base MVModel TokenModel FrameModel RasterModel RasterProofs TransformModel QuantModel ResidueModel.
From Verif Require Import TokenProofs PropQuant PropTransform.

(** * The forward transform *)

Definition fwd_row (k : nat) (x : nat -> Z) : Z :=
  match k with
  | 0%nat => 8 * (x 0%nat + x 1%nat + x 2%nat + x 3%nat)
  | 1%nat => (8 * (2217 * (x 1%nat - x 2%nat) + 5352 * (x 0%nat - x 3%nat)) + 14500) / 4096
  | 2%nat => 8 * (x 0%nat - x 1%nat - x 2%nat + x 3%nat)
  | _ => (8 * (2217 * (x 0%nat - x 3%nat) - 5352 * (x 1%nat - x 2%nat)) + 7500) / 4096
  end.

Definition fwd_column (k : nat) (x : nat -> Z) : Z :=
  match k with
  | 0%nat => (x 0%nat + x 1%nat + x 2%nat + x 3%nat + 7) / 16
  | 1%nat => (2217 * (x 1%nat - x 2%nat) + 5352 * (x 0%nat - x 3%nat) + 12000) / 65536 + (if x 0%nat =? x 3%nat then 0 else 1)
  | 2%nat => (x 0%nat - x 1%nat - x 2%nat + x 3%nat + 7) / 16
  | _ => (2217 * (x 0%nat - x 3%nat) - 5352 * (x 1%nat - x 2%nat) + 51000) / 65536
  end.

Lemma fwd_row_range k x : (forall j, -255 <= x j <= 255) -> -8160 <= fwd_row k x <= 8160.
Proof.
  intros H. pose proof (H 0%nat). pose proof (H 1%nat). pose proof (H 2%nat). pose proof (H 3%nat).
  destruct k as [|[|[|k]]]; cbn [fwd_row]; lia.
Qed.

Lemma fwd_column_range k x : (forall j, -8160 <= x j <= 8160) -> -2040 <= fwd_column k x <= 2040.
Proof.
  intros H. pose proof (H 0%nat). pose proof (H 1%nat). pose proof (H 2%nat). pose proof (H 3%nat).
  destruct k as [|[|[|k]]]; cbn [fwd_column]; try lia. destruct (x 0%nat =? x 3%nat); lia.
Qed.

Lemma fdct_row_some x : (forall j, -255 <= x j <= 255) ->
  fdct_row (x 0%nat) (x 1%nat) (x 2%nat) (x 3%nat) = Some (map (fun k => fwd_row k x) [0; 1; 2; 3]%nat).
Proof.
  intros H. pose proof (fun k => fwd_row_range k x H) as R.
  pose proof (H 0%nat). pose proof (H 1%nat). pose proof (H 2%nat). pose proof (H 3%nat). unfold fdct_row.
  repeat (rewrite i32_some by lia; cbn [obind]). rewrite !Z.shiftr_div_pow2 by lia.
  change (2 ^ 12) with 4096. cbn [map].
  replace ((x 0%nat + x 3%nat) * 8 + (x 1%nat + x 2%nat) * 8) with (fwd_row 0 x) by (cbn [fwd_row]; lia).
  replace (((x 1%nat - x 2%nat) * 8 * 2217 + (x 0%nat - x 3%nat) * 8 * 5352 + 14500) / 4096) with (fwd_row 1 x)
    by (cbn [fwd_row]; f_equal; lia).
  replace ((x 0%nat + x 3%nat) * 8 - (x 1%nat + x 2%nat) * 8) with (fwd_row 2 x) by (cbn [fwd_row]; lia).
  replace (((x 0%nat - x 3%nat) * 8 * 2217 - (x 1%nat - x 2%nat) * 8 * 5352 + 7500) / 4096) with (fwd_row 3 x)
    by (cbn [fwd_row]; f_equal; lia).
  rewrite !s16_id by (unfold int16_ok; match goal with |- context [fwd_row ?k x] => specialize (R k) end; lia). reflexivity.
Qed.

Lemma fdct_column_some x : (forall j, -8160 <= x j <= 8160) ->
  fdct_column (x 0%nat) (x 1%nat) (x 2%nat) (x 3%nat) = Some (map (fun k => fwd_column k x) [0; 1; 2; 3]%nat).
Proof.
  intros H. pose proof (fun k => fwd_column_range k x H) as R.
  pose proof (H 0%nat). pose proof (H 1%nat). pose proof (H 2%nat). pose proof (H 3%nat). unfold fdct_column.
  repeat (rewrite i32_some by lia; cbn [obind]). rewrite !Z.shiftr_div_pow2 by lia.
  change (2 ^ 4) with 16. change (2 ^ 16) with 65536. cbn [map].
  replace ((x 0%nat + x 3%nat + (x 1%nat + x 2%nat) + 7) / 16) with (fwd_column 0 x) by (cbn [fwd_column]; f_equal; lia).
  replace (((x 1%nat - x 2%nat) * 2217 + (x 0%nat - x 3%nat) * 5352 + 12000) / 65536 + (if x 0%nat - x 3%nat =? 0 then 0 else 1))
    with (fwd_column 1 x).
  2:{ cbn [fwd_column]. replace (x 0%nat - x 3%nat =? 0) with (x 0%nat =? x 3%nat) by lia. f_equal. f_equal. lia. }
  replace ((x 0%nat + x 3%nat - (x 1%nat + x 2%nat) + 7) / 16) with (fwd_column 2 x) by (cbn [fwd_column]; f_equal; lia).
  replace (((x 0%nat - x 3%nat) * 2217 - (x 1%nat - x 2%nat) * 5352 + 51000) / 65536) with (fwd_column 3 x)
    by (cbn [fwd_column]; f_equal; lia).
  rewrite !s16_id by (unfold int16_ok; match goal with |- context [fwd_column ?k x] => specialize (R k) end; lia). reflexivity.
Qed.

(** Both dimensions: along the rows first. *)
Definition forward (x : nat -> nat -> Z) (r k : nat) : Z := fwd_column r (fun i => fwd_row k (x i)).

Lemma fdct_formula x : Forall (fun d => -255 <= d <= 255) x ->
  fdct x = Some (map (fun '(r, k) => forward (coef x) r k) rc16).
Proof.
  intros H.
  assert (B : forall k, -255 <= nth k x 0 <= 255).
  { intros k. destruct (nth_in_or_default k x 0) as [I| ->]; [|lia]. apply (proj1 (Forall_forall _ _) H _ I). }
  assert (P : forall i, fdct_row (coef x i 0) (coef x i 1) (coef x i 2) (coef x i 3)
     = Some (map (fun k => fwd_row k (coef x i)) [0; 1; 2; 3]%nat)).
  { intros i. apply (fdct_row_some (coef x i)). intros j. apply B. }
  assert (Q : forall k, fdct_column (fwd_row k (coef x 0)) (fwd_row k (coef x 1)) (fwd_row k (coef x 2)) (fwd_row k (coef x 3))
     = Some (map (fun r => forward (coef x) r k) [0; 1; 2; 3]%nat)).
  { intros k. apply (fdct_column_some (fun i => fwd_row k (coef x i))). intros i. apply fwd_row_range. intros j. apply B. }
  unfold fdct. cbn [omap].
  change (fdct_row (nth16 x (4 * 0)) (nth16 x (4 * 0 + 1)) (nth16 x (4 * 0 + 2)) (nth16 x (4 * 0 + 3)))
    with (fdct_row (coef x 0 0) (coef x 0 1) (coef x 0 2) (coef x 0 3)).
  change (fdct_row (nth16 x (4 * 1)) (nth16 x (4 * 1 + 1)) (nth16 x (4 * 1 + 2)) (nth16 x (4 * 1 + 3)))
    with (fdct_row (coef x 1 0) (coef x 1 1) (coef x 1 2) (coef x 1 3)).
  change (fdct_row (nth16 x (4 * 2)) (nth16 x (4 * 2 + 1)) (nth16 x (4 * 2 + 2)) (nth16 x (4 * 2 + 3)))
    with (fdct_row (coef x 2 0) (coef x 2 1) (coef x 2 2) (coef x 2 3)).
  change (fdct_row (nth16 x (4 * 3)) (nth16 x (4 * 3 + 1)) (nth16 x (4 * 3 + 2)) (nth16 x (4 * 3 + 3)))
    with (fdct_row (coef x 3 0) (coef x 3 1) (coef x 3 2) (coef x 3 3)).
  rewrite !P. cbn [obind concat app map].
  unfold nth16.
  change (Z.to_nat 0) with 0%nat. change (Z.to_nat 1) with 1%nat. change (Z.to_nat 2) with 2%nat. change (Z.to_nat 3) with 3%nat.
  change (Z.to_nat (0 + 4)) with 4%nat. change (Z.to_nat (0 + 8)) with 8%nat. change (Z.to_nat (0 + 12)) with 12%nat.
  change (Z.to_nat (1 + 4)) with 5%nat. change (Z.to_nat (1 + 8)) with 9%nat. change (Z.to_nat (1 + 12)) with 13%nat.
  change (Z.to_nat (2 + 4)) with 6%nat. change (Z.to_nat (2 + 8)) with 10%nat. change (Z.to_nat (2 + 12)) with 14%nat.
  change (Z.to_nat (3 + 4)) with 7%nat. change (Z.to_nat (3 + 8)) with 11%nat. change (Z.to_nat (3 + 12)) with 15%nat.
  cbn [nth]. rewrite !Q. cbn [obind]. reflexivity.
Qed.

Lemma forward_range x r k : (forall i j, -255 <= x i j <= 255) -> -2040 <= forward x r k <= 2040.
Proof. intros H. apply fwd_column_range. intros i. apply fwd_row_range. intros j. apply H. Qed.

(** * The forward Walsh transform *)

Definition whad_row (k : nat) (x : nat -> Z) : Z :=
  match k with
  | 0%nat => 4 * (x 0%nat + x 1%nat + x 2%nat + x 3%nat) + (if x 0%nat + x 2%nat =? 0 then 0 else 1)
  | 1%nat => 4 * (x 0%nat + x 1%nat - x 2%nat - x 3%nat)
  | 2%nat => 4 * (x 0%nat - x 1%nat - x 2%nat + x 3%nat)
  | _ => 4 * (x 0%nat - x 1%nat + x 2%nat - x 3%nat)
  end.
(** Division by eight, rounding to the nearest and halves towards zero. *)
Definition eighth (x : Z) : Z := (x + (if x <? 0 then 1 else 0) + 3) / 8.
Definition whad_column (k : nat) (x : nat -> Z) : Z := eighth (hadamard k x).

Lemma whad_row_range k x : (forall j, -2040 <= x j <= 2040) -> -32641 <= whad_row k x <= 32641.
Proof.
  intros H. pose proof (H 0%nat). pose proof (H 1%nat). pose proof (H 2%nat). pose proof (H 3%nat).
  destruct k as [|[|[|k]]]; cbn [whad_row]; try lia. destruct (x 0%nat + x 2%nat =? 0); lia.
Qed.
Lemma whad_column_range k x : (forall j, -32641 <= x j <= 32641) -> -16320 <= whad_column k x <= 16320.
Proof.
  intros H. pose proof (H 0%nat). pose proof (H 1%nat). pose proof (H 2%nat). pose proof (H 3%nat).
  unfold whad_column, eighth. destruct k as [|[|[|k]]]; cbn [hadamard]; match goal with |- context [if ?b then 1 else 0] => destruct b eqn:? end; lia.
Qed.

Lemma wht_row_some x : (forall j, -2040 <= x j <= 2040) ->
  wht_row (x 0%nat) (x 1%nat) (x 2%nat) (x 3%nat) = Some (map (fun k => whad_row k x) [0; 1; 2; 3]%nat).
Proof.
  intros H. pose proof (fun k => whad_row_range k x H) as R.
  pose proof (H 0%nat). pose proof (H 1%nat). pose proof (H 2%nat). pose proof (H 3%nat). unfold wht_row.
  repeat (rewrite i32_some by (try match goal with |- context [if ?b then 0 else 1] => destruct b end; lia); cbn [obind]). cbn [map].
  replace ((x 0%nat + x 2%nat) * 4 + (x 1%nat + x 3%nat) * 4 + (if (x 0%nat + x 2%nat) * 4 =? 0 then 0 else 1)) with (whad_row 0 x).
  2:{ cbn [whad_row]. replace ((x 0%nat + x 2%nat) * 4 =? 0) with (x 0%nat + x 2%nat =? 0) by lia. lia. }
  replace ((x 0%nat - x 2%nat) * 4 + (x 1%nat - x 3%nat) * 4) with (whad_row 1 x) by (cbn [whad_row]; lia).
  replace ((x 0%nat - x 2%nat) * 4 - (x 1%nat - x 3%nat) * 4) with (whad_row 2 x) by (cbn [whad_row]; lia).
  replace ((x 0%nat + x 2%nat) * 4 - (x 1%nat + x 3%nat) * 4) with (whad_row 3 x) by (cbn [whad_row]; lia).
  rewrite !s16_id by (unfold int16_ok; match goal with |- context [whad_row ?k x] => specialize (R k) end; lia). reflexivity.
Qed.

Lemma wht_round_some x : -131072 <= x <= 131072 -> wht_round x = Some (eighth x).
Proof.
  intros H. unfold wht_round, eighth.
  destruct (x <? 0) eqn:E; repeat (rewrite i32_some by lia; cbn [obind]); rewrite Z.shiftr_div_pow2 by lia; change (2 ^ 3) with 8;
    rewrite s16_id by (unfold int16_ok; lia); reflexivity.
Qed.

Lemma wht_column_some x : (forall j, -32641 <= x j <= 32641) ->
  wht_column (x 0%nat) (x 1%nat) (x 2%nat) (x 3%nat) = Some (map (fun k => whad_column k x) [0; 1; 2; 3]%nat).
Proof.
  intros H. pose proof (H 0%nat). pose proof (H 1%nat). pose proof (H 2%nat). pose proof (H 3%nat). unfold wht_column.
  repeat (rewrite i32_some by lia; cbn [obind]). cbn [omap].
  rewrite !wht_round_some by lia. unfold whad_column. cbn [map hadamard].
  do 2 f_equal; [f_equal; lia|]. f_equal; [f_equal; lia|]. f_equal; [f_equal; lia|]. do 2 f_equal. lia.
Qed.

Definition forward_wht (x : nat -> nat -> Z) (r k : nat) : Z := whad_column r (fun i => whad_row k (x i)).

Lemma wht_formula x : Forall (fun d => -2040 <= d <= 2040) x ->
  wht x = Some (map (fun '(r, k) => forward_wht (coef x) r k) rc16).
Proof.
  intros H.
  assert (B : forall k, -2040 <= nth k x 0 <= 2040).
  { intros k. destruct (nth_in_or_default k x 0) as [I| ->]; [|lia]. apply (proj1 (Forall_forall _ _) H _ I). }
  assert (P : forall i, wht_row (coef x i 0) (coef x i 1) (coef x i 2) (coef x i 3)
     = Some (map (fun k => whad_row k (coef x i)) [0; 1; 2; 3]%nat)).
  { intros i. apply (wht_row_some (coef x i)). intros j. apply B. }
  assert (Q : forall k, wht_column (whad_row k (coef x 0)) (whad_row k (coef x 1)) (whad_row k (coef x 2)) (whad_row k (coef x 3))
     = Some (map (fun r => forward_wht (coef x) r k) [0; 1; 2; 3]%nat)).
  { intros k. apply (wht_column_some (fun i => whad_row k (coef x i))). intros i. apply whad_row_range. intros j. apply B. }
  unfold wht. cbn [omap].
  change (wht_row (nth16 x (4 * 0)) (nth16 x (4 * 0 + 1)) (nth16 x (4 * 0 + 2)) (nth16 x (4 * 0 + 3)))
    with (wht_row (coef x 0 0) (coef x 0 1) (coef x 0 2) (coef x 0 3)).
  change (wht_row (nth16 x (4 * 1)) (nth16 x (4 * 1 + 1)) (nth16 x (4 * 1 + 2)) (nth16 x (4 * 1 + 3)))
    with (wht_row (coef x 1 0) (coef x 1 1) (coef x 1 2) (coef x 1 3)).
  change (wht_row (nth16 x (4 * 2)) (nth16 x (4 * 2 + 1)) (nth16 x (4 * 2 + 2)) (nth16 x (4 * 2 + 3)))
    with (wht_row (coef x 2 0) (coef x 2 1) (coef x 2 2) (coef x 2 3)).
  change (wht_row (nth16 x (4 * 3)) (nth16 x (4 * 3 + 1)) (nth16 x (4 * 3 + 2)) (nth16 x (4 * 3 + 3)))
    with (wht_row (coef x 3 0) (coef x 3 1) (coef x 3 2) (coef x 3 3)).
  rewrite !P. cbn [obind concat app map].
  unfold nth16.
  change (Z.to_nat 0) with 0%nat. change (Z.to_nat 1) with 1%nat. change (Z.to_nat 2) with 2%nat. change (Z.to_nat 3) with 3%nat.
  change (Z.to_nat (0 + 4)) with 4%nat. change (Z.to_nat (0 + 8)) with 8%nat. change (Z.to_nat (0 + 12)) with 12%nat.
  change (Z.to_nat (1 + 4)) with 5%nat. change (Z.to_nat (1 + 8)) with 9%nat. change (Z.to_nat (1 + 12)) with 13%nat.
  change (Z.to_nat (2 + 4)) with 6%nat. change (Z.to_nat (2 + 8)) with 10%nat. change (Z.to_nat (2 + 12)) with 14%nat.
  change (Z.to_nat (3 + 4)) with 7%nat. change (Z.to_nat (3 + 8)) with 11%nat. change (Z.to_nat (3 + 12)) with 15%nat.
  cbn [nth]. rewrite !Q. cbn [obind]. reflexivity.
Qed.

Lemma forward_wht_range x r k : (forall i j, -2040 <= x i j <= 2040) -> -16320 <= forward_wht x r k <= 16320.
Proof. intros H. apply whad_column_range. intros i. apply whad_row_range. intros j. apply H. Qed.

(** * The inverse transform undoes the forward one *)


Lemma cos_bounds x : 85627 * x - 65535 <= 65536 * cos_part x <= 85627 * x.
Proof. unfold cos_part. lia. Qed.
Lemma sin_bounds x : 35468 * x - 65535 <= 65536 * sin_part x <= 35468 * x.
Proof. unfold sin_part. lia. Qed.

(** One column: up to a factor of four. The first coefficient may be off by
    [e0], the others by [e]. *)
Lemma column_inverse x y e0 e : (forall j, -8160 <= x j <= 8160) -> 0 <= e0 -> 0 <= e ->
  - e0 <= y 0%nat - fwd_column 0 x <= e0 ->
  (forall k, (0 < k < 4)%nat -> - e <= y k - fwd_column k x <= e) ->
  forall r, (r < 4)%nat -> - (4 * e0 + 12 * e + 16) <= 4 * cosine r y - x r <= 4 * e0 + 12 * e + 16.
Proof.
  intros H He0 He Y0 Y r Hr. pose proof (H 0%nat). pose proof (H 1%nat). pose proof (H 2%nat). pose proof (H 3%nat).
  pose proof (Y 1%nat ltac:(lia)) as Y1. pose proof (Y 2%nat ltac:(lia)) as Y2. pose proof (Y 3%nat ltac:(lia)) as Y3.
  clear Y. cbn [fwd_column] in *.
  pose proof (cos_bounds (y 1%nat)). pose proof (cos_bounds (y 3%nat)). pose proof (sin_bounds (y 1%nat)). pose proof (sin_bounds (y 3%nat)).
  destruct r as [|[|[|[|]]]]; cbn [cosine]; [..|lia]; destruct (x 0%nat =? x 3%nat) eqn:E; lia.
Qed.

Lemma row_inverse x z e0 e : (forall j, -255 <= x j <= 255) -> 16 <= e0 -> 16 <= e ->
  - e0 <= 4 * z 0%nat - fwd_row 0 x <= e0 ->
  (forall k, (0 < k < 4)%nat -> - e <= 4 * z k - fwd_row k x <= e) ->
  forall c, (c < 4)%nat -> - (e0 + 3 * e + 4) <= 4 * (cosine c z - 8 * x c) <= e0 + 3 * e + 4.
Proof.
  intros H He0 He Y0 Y r Hr. pose proof (H 0%nat). pose proof (H 1%nat). pose proof (H 2%nat). pose proof (H 3%nat).
  pose proof (Y 1%nat ltac:(lia)) as Y1. pose proof (Y 2%nat ltac:(lia)) as Y2. pose proof (Y 3%nat ltac:(lia)) as Y3.
  clear Y. cbn [fwd_row] in *.
  pose proof (cos_bounds (z 1%nat)). pose proof (cos_bounds (z 3%nat)). pose proof (sin_bounds (z 1%nat)). pose proof (sin_bounds (z 3%nat)).
  destruct r as [|[|[|[|]]]]; cbn [cosine]; [..|lia]; lia.
Qed.

Lemma cosine_small k x : (forall j, (j < 4)%nat -> -4000 <= x j <= 4000) -> -16000 <= cosine k x <= 16000.
Proof.
  intros H. pose proof (H 0%nat ltac:(lia)). pose proof (H 1%nat ltac:(lia)). pose proof (H 2%nat ltac:(lia)). pose proof (H 3%nat ltac:(lia)).
  pose proof (cos_bounds (x 1%nat)). pose proof (cos_bounds (x 3%nat)). pose proof (sin_bounds (x 1%nat)). pose proof (sin_bounds (x 3%nat)).
  destruct k as [|[|[|k]]]; cbn [cosine]; lia.
Qed.

(** Both dimensions, with the final rounding. *)
Lemma inverse_error x y e0 e : (forall i j, -255 <= x i j <= 255) -> 0 <= e0 -> 0 <= e ->
  (forall i j, (i < 4)%nat -> (j < 4)%nat -> -4000 <= y i j <= 4000) ->
  - e0 <= y 0%nat 0%nat - forward x 0 0 <= e0 ->
  (forall i j, (i < 4)%nat -> (j < 4)%nat -> (i, j) <> (0, 0)%nat -> - e <= y i j - forward x i j <= e) ->
  forall r c, (r < 4)%nat -> (c < 4)%nat ->
  Z.abs ((both_ways cosine y r c + 4) / 8 - x r c) <= (e0 + 15 * e + 21) / 8.
Proof.
  intros H He0 He Y Y0 Yk r c Hr Hc. unfold both_ways.
  assert (S : forall j, (j < 4)%nat -> s16 (cosine r (fun i => y i j)) = cosine r (fun i => y i j)).
  { intros j Hj. apply s16_id. pose proof (cosine_small r (fun i => y i j) (fun i Hi => Y i j Hi Hj)). lia. }
  pose proof (row_inverse (x r) (fun j => s16 (cosine r (fun i => y i j))) (4 * e0 + 12 * e + 16) (16 * e + 16)
                (H r) ltac:(lia) ltac:(lia)) as R.
  assert (K : forall i k, -8160 <= fwd_row k (x i) <= 8160) by (intros; apply fwd_row_range, H).
  assert (A0 : - (4 * e0 + 12 * e + 16) <= 4 * s16 (cosine r (fun i => y i 0%nat)) - fwd_row 0 (x r) <= 4 * e0 + 12 * e + 16).
  { rewrite S by lia.
    apply (column_inverse (fun i => fwd_row 0 (x i)) (fun i => y i 0%nat) e0 e (fun i => K i 0%nat) He0 He Y0); [|exact Hr].
    intros k Hk. apply Yk; [lia|lia|]. intros E. injection E as E. lia. }
  assert (A : forall k, (0 < k < 4)%nat -> - (16 * e + 16) <= 4 * s16 (cosine r (fun i => y i k)) - fwd_row k (x r) <= 16 * e + 16).
  { intros k Hk. rewrite S by lia.
    pose proof (column_inverse (fun i => fwd_row k (x i)) (fun i => y i k) e e (fun i => K i k) He He) as Q.
    assert (Qn : forall i, (i < 4)%nat -> - e <= y i k - fwd_column i (fun i => fwd_row k (x i)) <= e).
    { intros i Hi. apply Yk; [lia|lia|]. intros E. injection E as E. lia. }
    specialize (Q (Qn 0%nat ltac:(lia)) (fun i Hi => Qn i ltac:(lia)) r Hr). cbn beta in Q. lia. }
  specialize (R A0 A c Hc). cbn beta in R. lia.
Qed.

(** * The inverse Walsh transform undoes the forward one *)

Lemma walsh_column_inverse x y e : (forall j, -32641 <= x j <= 32641) -> 0 <= e ->
  (forall k, (k < 4)%nat -> - e <= y k - whad_column k x <= e) ->
  forall r, (r < 4)%nat -> - (8 * e + 4) <= 2 * hadamard r y - x r <= 8 * e + 4.
Proof.
  intros H He Y r Hr. pose proof (H 0%nat). pose proof (H 1%nat). pose proof (H 2%nat). pose proof (H 3%nat).
  pose proof (Y 0%nat ltac:(lia)) as Y0. pose proof (Y 1%nat ltac:(lia)) as Y1. pose proof (Y 2%nat ltac:(lia)) as Y2. pose proof (Y 3%nat ltac:(lia)) as Y3.
  assert (E8 : forall v, -4 <= 8 * eighth v - v <= 4) by (intros v; unfold eighth; destruct (v <? 0) eqn:?; lia).
  clear Y. unfold whad_column in *.
  pose proof (E8 (hadamard 0 x)). pose proof (E8 (hadamard 1 x)). pose proof (E8 (hadamard 2 x)). pose proof (E8 (hadamard 3 x)).
  cbn [hadamard] in *. destruct r as [|[|[|[|]]]]; cbn [hadamard]; [..|lia]; lia.
Qed.

Lemma walsh_row_inverse x z e : 4 <= e ->
  (forall k, (k < 4)%nat -> - e <= 2 * z k - whad_row k x <= e) ->
  forall c, (c < 4)%nat -> - (4 * e + 1) <= 2 * (hadamard c z - 8 * x c) <= 4 * e + 1.
Proof.
  intros He Y r Hr.
  pose proof (Y 0%nat ltac:(lia)) as Y0. pose proof (Y 1%nat ltac:(lia)) as Y1. pose proof (Y 2%nat ltac:(lia)) as Y2. pose proof (Y 3%nat ltac:(lia)) as Y3.
  clear Y. cbn [whad_row] in *.
  destruct r as [|[|[|[|]]]]; cbn [hadamard]; [..|lia]; destruct (x 0%nat + x 2%nat =? 0); lia.
Qed.

Lemma walsh_error x y e : (forall i j, -2040 <= x i j <= 2040) -> 0 <= e <= 1000 ->
  (forall i j, (i < 4)%nat -> (j < 4)%nat -> - e <= y i j - forward_wht x i j <= e) ->
  forall r c, (r < 4)%nat -> (c < 4)%nat ->
  Z.abs (s16 ((both_ways hadamard y r c + 3) / 8) - x r c) <= 2 * e + 1.
Proof.
  intros H He Y r c Hr Hc. unfold both_ways.
  assert (K : forall i k, -32641 <= whad_row k (x i) <= 32641) by (intros; apply whad_row_range, H).
  assert (A : forall k, (k < 4)%nat -> - (8 * e + 4) <= 2 * hadamard r (fun i => y i k) - whad_row k (x r) <= 8 * e + 4).
  { intros k Hk. apply (walsh_column_inverse (fun i => whad_row k (x i)) (fun i => y i k) e (fun i => K i k) (proj1 He)); [|exact Hr].
    intros i Hi. apply Y; assumption. }
  assert (S : forall j, (j < 4)%nat -> s16 (hadamard r (fun i => y i j)) = hadamard r (fun i => y i j)).
  { intros j Hj. apply s16_id. specialize (A j Hj). specialize (K r j). lia. }
  pose proof (walsh_row_inverse (x r) (fun j => s16 (hadamard r (fun i => y i j))) (8 * e + 4) ltac:(lia)) as R.
  assert (B : forall k, (k < 4)%nat -> - (8 * e + 4) <= 2 * s16 (hadamard r (fun i => y i k)) - whad_row k (x r) <= 8 * e + 4).
  { intros k Hk. rewrite S by exact Hk. apply A, Hk. }
  specialize (R B c Hc). cbn beta in R. specialize (H r c).
  generalize dependent (hadamard c (fun j => s16 (hadamard r (fun i => y i j)))). intros w Hw.
  rewrite s16_id by lia. lia.
Qed.

(** * The search for a cheaper quantisation *)

Definition costs_ok (cs : costs) : Prop := 0 <= distortion_multiplier cs <= 100.

(** The largest squared error of one coefficient: below two steps of at most
    440. *)
Definition sse_max := 774400.

Lemma rdcost_small cs rate d : costs_ok cs -> 0 <= d <= 16 * sse_max -> rdcost cs rate d < u32_max.
Proof.
  intros [A B] D. unfold rdcost, u32_max, sse_max, wrap in *. change (2 ^ 32) with 4294967296.
  assert (0 <= d * distortion_multiplier cs <= 12390400 * 100) by nia.
  generalize dependent (d * distortion_multiplier cs). generalize (rate * rate_multiplier cs). intros. lia.
Qed.

Lemma cheaper_some c0 c1 : c0 < u32_max -> exists b, cheaper c0 c1 = Some b.
Proof. intros H. unfold cheaper. replace (c0 <? u32_max) with true by lia. eauto. Qed.

Lemma token_for_coeff_not_eob c : token_for_coeff c <> EOB_token.
Proof. unfold token_for_coeff, EOB_token. repeat match goal with |- context [if ?b then _ else _] => destruct b eqn:? end; lia. Qed.

Definition node_ok (idx : nat) (cand : Z -> Prop) (n : node) : Prop :=
  0 <= n_dist n <= (16 - Z.of_nat idx) * sse_max /\
  (n_token n = EOB_token \/ (cand (n_coeff n) /\ exists b, n_next n = Some b)).

Lemma trellis_node_ok cs type idx f orig c (P Q : Z -> Prop) next : costs_ok cs -> (idx < 16)%nat ->
  -32768 <= orig <= 32767 -> -32768 <= c * f <= 32767 -> -880 <= orig - c * f <= 880 -> -2048 <= c <= 2047 ->
  node_ok (S idx) P (fst next) -> node_ok (S idx) P (snd next) -> Q c ->
  exists n, trellis_node cs type idx f orig c next = Some n /\ node_ok idx Q n.
Proof.
  intros Hcs Hi Ho Hp Hd Hc N0 N1 HQ. unfold trellis_node. rewrite !i32_some by lia. cbn [obind].
  rewrite i32_some by lia. cbn [obind]. rewrite s16_id by lia.
  set (diff := orig - c * f) in *.
  assert (W : wrap 32 (diff * diff) = diff * diff) by (unfold wrap; apply Z.mod_small; change (2 ^ 32) with 4294967296; nia).
  rewrite W.
  assert (Dn : forall b, 0 <= n_dist (pick next b) <= (15 - Z.of_nat idx) * sse_max).
  { intros b. destruct N0 as [N0 _], N1 as [N1 _]. destruct b; cbn [pick]; lia. }
  assert (Ds : 0 <= diff * diff <= sse_max) by (unfold sse_max; nia).
  assert (Wd : forall b, wrap 32 (n_dist (pick next b) + diff * diff) = n_dist (pick next b) + diff * diff).
  { intros b. specialize (Dn b). unfold wrap. apply Z.mod_small. change (2 ^ 32) with 4294967296. unfold sse_max in *. nia. }
  assert (Db : forall b, 0 <= n_dist (pick next b) + diff * diff <= (16 - Z.of_nat idx) * sse_max).
  { intros b. specialize (Dn b). lia. }
  rewrite !Wd.
  match goal with |- context [cheaper (rdcost cs ?r ?d) ?c1] =>
    destruct (cheaper_some (rdcost cs r d) c1) as [best E]; [apply rdcost_small; [exact Hcs|]; specialize (Db false); unfold sse_max in *; nia|] end.
  rewrite E. cbn [obind].
  destruct (negb (c =? 0) || negb (n_token (pick next best) =? EOB_token)).
  - unfold coeff_base_cost. replace ((-2048 <=? c) && (c <=? 2047)) with true by lia. cbn [obind]. rewrite Wd.
    eexists. split; [reflexivity|]. split; cbn [n_dist n_token n_coeff n_next]; [apply Db|right; eauto].
  - eexists. split; [reflexivity|]. split; cbn [n_dist n_token]; [|left; reflexivity].
    specialize (Db false). specialize (Dn false). lia.
Qed.

(** The levels the search may choose from at a position. *)
Definition candidate (dc ac : Z) (coefs : list Z) (k : nat) (v : Z) : Prop :=
  let q := Z.quot (nth k coefs 0) (if (k =? 0)%nat then dc else ac) in v = q \/ v = q - Z.sgn q.

Definition factor_ok (coefs : list Z) (f : Z) : Prop :=
  4 <= f <= 440 /\ forall k, Z.abs (nth k coefs 0) <= Z.min 16320 (2040 * f).

Lemma quot_facts x f : 0 < f ->
  let q := Z.quot x f in
  Z.abs (q * f) <= Z.abs x /\ Z.abs (x - q * f) < f /\ (0 <= x -> 0 <= q) /\ (x <= 0 -> q <= 0).
Proof.
  intros Hf q. pose proof (Z.quot_rem' x f) as E. fold q in E.
  destruct (Z_le_gt_dec 0 x) as [H|H].
  - pose proof (Z.rem_bound_pos_pos x f Hf H) as R. generalize dependent (Z.rem x f). generalize dependent q. intros q m E R.
    assert (0 <= q) by nia. assert (0 <= f * q) by nia. rewrite (Z.mul_comm q f). repeat split; intros; lia || nia.
  - pose proof (Z.rem_bound_pos_neg x f Hf ltac:(lia)) as R. generalize dependent (Z.rem x f). generalize dependent q. intros q m E R.
    assert (q <= 0) by nia. assert (f * q <= 0) by nia. rewrite (Z.mul_comm q f). repeat split; intros; lia || nia.
Qed.

Lemma quot_small x f : 4 <= f -> Z.abs x <= 2040 * f -> Z.abs (Z.quot x f) <= 2040.
Proof. intros Hf Hx. destruct (quot_facts x f ltac:(lia)) as (A & _). generalize dependent (Z.quot x f). intros q A. nia. Qed.

Lemma towards_zero_spec q : -2048 <= q <= 2047 -> towards_zero q = q - Z.sgn q.
Proof. intros H. unfold towards_zero. destruct (q <? 0) eqn:E; rewrite s16_id by lia; lia. Qed.

Lemma node_ok_weaken idx (P Q : Z -> Prop) n : (forall v, P v -> Q v) -> node_ok idx P n -> node_ok idx Q n.
Proof. intros H [A [B|[B C]]]; split; auto. Qed.

Lemma trellis_levels_ok cs type dc ac coefs idx P next : costs_ok cs -> (idx < 16)%nat ->
  factor_ok coefs dc -> factor_ok coefs ac -> node_ok (S idx) P (fst next) -> node_ok (S idx) P (snd next) ->
  exists p, trellis_levels cs type dc ac coefs idx next = Some p /\
    node_ok idx (candidate dc ac coefs (zz idx)) (fst p) /\ node_ok idx (candidate dc ac coefs (zz idx)) (snd p).
Proof.
  intros Hcs Hi Fd Fa N0 N1. unfold trellis_levels.
  assert (Hz : (zz idx =? 0)%nat = (idx =? 0)%nat).
  { destruct (idx =? 0)%nat eqn:E; [apply Nat.eqb_eq in E; subst; reflexivity|].
    apply Nat.eqb_neq in E. apply Nat.eqb_neq. intros C. apply E. apply zz_inj; [lia|lia|exact C]. }
  unfold candidate. rewrite Hz.
  assert (F : factor_ok coefs (if (idx =? 0)%nat then dc else ac)) by (destruct (idx =? 0)%nat; assumption).
  generalize dependent (if (idx =? 0)%nat then dc else ac). intros f F. destruct F as [Hf F]. specialize (F (zz idx)).
  replace (f =? 0) with false by lia.
  set (orig := nth (zz idx) coefs 0) in *.
  pose proof (quot_small orig f ltac:(lia) ltac:(lia)) as Q. pose proof (quot_facts orig f ltac:(lia)) as (A & B & C & D).
  rewrite s16_id by lia. cbv zeta. generalize dependent (Z.quot orig f). intros q Q A B C D.
  rewrite towards_zero_spec by lia.
  assert (A' : -32768 <= q * f <= 32767) by lia.
  destruct (trellis_node_ok cs type idx f orig q P (fun v => v = q \/ v = q - Z.sgn q) next) as (n0 & E0 & K0); try assumption; try lia.
  rewrite E0. cbn [obind]. destruct (q =? 0) eqn:Eq; cbn [obind]; [exists (n0, n0); auto|].
  assert (-880 <= orig - (q - Z.sgn q) * f <= 880 /\ Z.abs ((q - Z.sgn q) * f) <= Z.abs orig).
  { destruct (Z_lt_le_dec 0 q) as [G|G].
    - rewrite Z.sgn_pos by lia. assert (0 <= (q - 1) * f) by nia. assert (0 <= orig) by nia. nia.
    - rewrite Z.sgn_neg by lia. assert ((q + 1) * f <= 0) by nia. assert (orig <= 0) by nia. nia. }
  destruct (trellis_node_ok cs type idx f orig (q - Z.sgn q) P (fun v => v = q \/ v = q - Z.sgn q) next) as (n1 & E1 & K1); try assumption; try lia.
  rewrite E1. cbn [obind]. exists (n0, n1). auto.
Qed.

Lemma trellis_build_ok cs type dc ac coefs n : forall first, costs_ok cs -> factor_ok coefs dc -> factor_ok coefs ac ->
  (first + n <= 16)%nat ->
  exists t, trellis_build cs type dc ac coefs first n = Some t /\ length t = S n /\
    forall i, (i <= n)%nat ->
      let p := nth i t (sentinel, sentinel) in
      node_ok (first + i) (candidate dc ac coefs (zz (first + i))) (fst p) /\
      node_ok (first + i) (candidate dc ac coefs (zz (first + i))) (snd p) /\
      (i = n -> p = (sentinel, sentinel)).
Proof.
  assert (Se : forall k P, (k <= 16)%nat -> node_ok k P sentinel).
  { intros k P Hk. split; [|left; reflexivity]. cbn [n_dist sentinel]. unfold sse_max. lia. }
  induction n as [|n IH]; intros first Hcs Fd Fa Hn; cbn [trellis_build].
  - eexists. split; [reflexivity|]. split; [reflexivity|]. intros i Hi. replace i with 0%nat by lia. cbn [nth fst snd].
    split; [apply Se; lia|]. split; [apply Se; lia|]. reflexivity.
  - destruct (IH (S first) Hcs Fd Fa ltac:(lia)) as (t & -> & Hl & Ht). cbn [obind].
    destruct t as [|next t]; [discriminate|].
    pose proof (Ht 0%nat ltac:(lia)) as (N0 & N1 & _). cbn [nth] in N0, N1. rewrite Nat.add_0_r in N0, N1.
    destruct (trellis_levels_ok cs type dc ac coefs first _ next Hcs ltac:(lia) Fd Fa N0 N1) as (p & -> & P0 & P1). cbn [obind].
    eexists. split; [reflexivity|]. split; [cbn in *; lia|].
    intros [|i] Hi; cbn [nth].
    + rewrite Nat.add_0_r. split; [exact P0|]. split; [exact P1|]. lia.
    + replace (first + S i)%nat with (S first + i)%nat by lia. specialize (Ht i ltac:(lia)). cbv zeta in Ht.
      destruct Ht as (A & B & C). split; [exact A|]. split; [exact B|]. intros E. apply C. lia.
Qed.

Lemma clear_from_spec i coefs : length coefs = 16%nat -> (i <= 16)%nat ->
  length (clear_from i coefs) = 16%nat /\
  forall k, (k < 16)%nat -> nth (zz k) (clear_from i coefs) 0 = if (k <? i)%nat then nth (zz k) coefs 0 else 0.
Proof.
  intros Hl Hi. unfold clear_from.
  assert (G : forall n j c, length c = 16%nat -> (j + n = 16)%nat ->
    length (fold_left (fun c k => list_set c (zz k) 0) (seq j n) c) = 16%nat /\
    forall k, (k < 16)%nat -> nth (zz k) (fold_left (fun c k => list_set c (zz k) 0) (seq j n) c) 0 = if (k <? j)%nat then nth (zz k) c 0 else 0).
  { induction n as [|n IH]; intros j c Hc Hj; cbn [seq fold_left].
    - split; [exact Hc|]. intros k Hk. replace (k <? j)%nat with true by lia. reflexivity.
    - destruct (IH (S j) (list_set c (zz j) 0)) as [A B]; [rewrite list_set_length; exact Hc|lia|].
      split; [exact A|]. intros k Hk. rewrite B by exact Hk. rewrite nth_list_set by (rewrite Hc; apply zz_lt; lia).
      destruct (zz k =? zz j)%nat eqn:E.
      + apply Nat.eqb_eq in E. apply zz_inj in E; [|lia|lia]. subst. replace (j <? j)%nat with false by lia. destruct (j <? S j)%nat; reflexivity.
      + assert (k <> j) by (intros ->; rewrite Nat.eqb_refl in E; discriminate).
        replace (k <? S j)%nat with (k <? j)%nat by lia. reflexivity. }
  apply G; [exact Hl|lia].
Qed.

Lemma trellis_walk_ok dc ac orig t : forall i choice c,
  length c = 16%nat -> (0 < length t)%nat ->
  (forall j, (j < length t)%nat ->
      let p := nth j t (sentinel, sentinel) in
      node_ok (i + j) (candidate dc ac orig (zz (i + j))) (fst p) /\
      node_ok (i + j) (candidate dc ac orig (zz (i + j))) (snd p) /\
      (S j = length t -> p = (sentinel, sentinel))) ->
  exists r, trellis_walk t i (Some choice) c = Some r /\ length r = 16%nat /\
    forall k, (k < 16)%nat ->
      if (k <? i)%nat then nth (zz k) r 0 = nth (zz k) c 0
      else nth (zz k) r 0 = 0 \/ candidate dc ac orig (zz k) (nth (zz k) r 0).
Proof.
  induction t as [|p t IH]; intros i choice c Hc Hl Ht; cbn [trellis_walk length] in *; [lia|].
  destruct (16 <=? i)%nat eqn:E16.
  - exists c. split; [reflexivity|]. split; [exact Hc|]. intros k Hk. replace (k <? i)%nat with true by lia. reflexivity.
  - pose proof (Ht 0%nat ltac:(lia)) as (N0 & N1 & Nl). cbn [nth] in *. rewrite Nat.add_0_r in *.
    assert (N : node_ok i (candidate dc ac orig (zz i)) (pick p choice)) by (destruct choice; assumption).
    destruct (n_token (pick p choice) =? EOB_token) eqn:Et.
    + destruct (clear_from_spec i c Hc ltac:(lia)) as [A B]. eexists. split; [reflexivity|]. split; [exact A|].
      intros k Hk. rewrite B by exact Hk. destruct (k <? i)%nat; auto.
    + destruct N as [_ [N|[Nc [b Nn]]]]; [lia|]. rewrite Nn.
      assert (Lt : t <> []).
      { intros ->. specialize (Nl eq_refl). subst p. cbn in Et. destruct choice; discriminate. }
      destruct (IH (S i) b (list_set c (zz i) (n_coeff (pick p choice)))) as (r & Er & Lr & Kr).
      * rewrite list_set_length. exact Hc.
      * destruct t; [congruence|]. cbn [length] in *. lia.
      * intros j Hj. specialize (Ht (S j) ltac:(lia)). cbn [nth] in Ht. replace (S i + j)%nat with (i + S j)%nat by lia.
        cbv zeta in *. destruct Ht as (A & B & C). split; [exact A|]. split; [exact B|]. intros G. apply C. lia.
      * exists r. split; [exact Er|]. split; [exact Lr|]. intros k Hk. specialize (Kr k Hk).
        assert (Kn : nth (zz k) (list_set c (zz i) (n_coeff (pick p choice))) 0 = if (k =? i)%nat then n_coeff (pick p choice) else nth (zz k) c 0).
        { rewrite nth_list_set by (rewrite Hc; apply zz_lt; lia). destruct (k =? i)%nat eqn:Ek.
          - apply Nat.eqb_eq in Ek. subst. rewrite Nat.eqb_refl. reflexivity.
          - destruct (zz k =? zz i)%nat eqn:Ez; [|reflexivity]. apply Nat.eqb_eq in Ez. apply zz_inj in Ez; lia. }
        destruct (k <? i)%nat eqn:Eki.
        -- replace (k <? S i)%nat with true in Kr by lia. rewrite Kr, Kn. replace (k =? i)%nat with false by lia. reflexivity.
        -- destruct (k <? S i)%nat eqn:Eks; [|exact Kr]. assert (k = i) by lia. subst k. right. rewrite Kr, Kn, Nat.eqb_refl. exact Nc.
Qed.

Lemma coded_length_bounds type coefs :
  let n := coded_length type coefs in
  (n <= 16)%nat /\ (n = 0%nat \/ (first_index type < n)%nat) /\
  forall k, (n <= k < 16)%nat -> (first_index type <= k)%nat -> nth (zz k) coefs 0 = 0.
Proof.
  cbv zeta. unfold coded_length. set (s := first_index type).
  assert (Hs : (s <= 1)%nat) by (unfold s, first_index; destruct (_ =? _); lia).
  destruct (Nat.eq_dec s 0) as [E|E].
  - rewrite E. edestruct (coded_length_from_spec coefs (16 - 0) 0 0) as (A & B & C & D); [lia|intros; lia|left; reflexivity|].
    split; [lia|]. split; [destruct D; lia|]. intros k Hk _. apply B. lia.
  - assert (s = 1%nat) by lia. rewrite H. cbn [Nat.sub].
    assert (G : forall n i a, (coded_length_from n i coefs a = a \/ (i < coded_length_from n i coefs a)%nat) /\ ((a <= i)%nat -> (coded_length_from n i coefs a <= i + n)%nat /\
        forall k, (coded_length_from n i coefs a <= k < i + n)%nat -> (i <= k)%nat -> nth (zz k) coefs 0 = 0)).
    { induction n as [|n IH]; intros i a; cbn [coded_length_from].
      - split; [auto|]. intros. split; [lia|]. intros. lia.
      - destruct (IH (S i) (if nth (zz i) coefs 0 =? 0 then a else S i)) as [A B]. split.
        + destruct (nth (zz i) coefs 0 =? 0); [destruct A; [left; exact H0|right; lia]|right; destruct A; lia].
        + intros Ha. destruct (nth (zz i) coefs 0 =? 0) eqn:E0.
          * destruct B as [B C]; [lia|]. split; [lia|]. intros k Hk Hi. destruct (Nat.eq_dec k i) as [->|]; [lia|]. apply C; lia.
          * destruct B as [B C]; [lia|]. split; [lia|]. intros k Hk Hi. apply C; [lia|]. destruct A; lia. }
    destruct (G 15%nat 1%nat 0%nat) as [A B]. destruct B as [B C]; [lia|]. split; [lia|]. split; [exact A|].
    intros k Hk Hk1. apply C; lia.
Qed.

Lemma trellis_ok cs type ctx dc ac coefs : costs_ok cs -> length coefs = 16%nat -> factor_ok coefs dc -> factor_ok coefs ac ->
  (type = Y_after_Y2 -> nth 0 coefs 0 = 0) ->
  exists r, trellis_quantize cs type ctx dc ac coefs = Some r /\ length r = 16%nat /\
    forall k, (k < 16)%nat -> nth k r 0 = 0 \/ candidate dc ac coefs k (nth k r 0).
Proof.
  intros Hcs Hl Fd Fa H0. unfold trellis_quantize.
  destruct (coded_length_bounds type coefs) as (L1 & L2 & L3). set (n := coded_length type coefs) in *.
  destruct (n =? 0)%nat eqn:En.
  - eexists. split; [reflexivity|]. split; [reflexivity|]. intros k Hk. left. rewrite nth_repeat. reflexivity.
  - set (s := first_index type) in *.
    assert (Hs : (s <= 1)%nat) by (unfold s, first_index; destruct (_ =? _); lia).
    destruct (trellis_build_ok cs type dc ac coefs (n - s) s Hcs Fd Fa ltac:(lia)) as (t & -> & Lt & Ht). cbn [obind].
    destruct t as [|p t]; [discriminate|].
    pose proof (Ht 0%nat ltac:(lia)) as (N0 & N1 & _). cbn [nth] in N0, N1. rewrite Nat.add_0_r in N0, N1.
    destruct N0 as [N0 _], N1 as [N1 _].
    match goal with |- context [cheaper (rdcost cs ?r ?d) ?c1] =>
      destruct (cheaper_some (rdcost cs r d) c1) as [b E]; [apply rdcost_small; [exact Hcs|]; cbn [pick]; unfold sse_max in *; lia|] end.
    rewrite E. cbn [obind].
    destruct (trellis_walk_ok dc ac coefs (p :: t) s b coefs Hl ltac:(cbn; lia)) as (r & Er & Lr & Kr).
    { intros j Hj. specialize (Ht j ltac:(lia)). cbv zeta in *. destruct Ht as (A & B & C).
      split; [exact A|]. split; [exact B|]. intros G. apply C. lia. }
    exists r. split; [exact Er|]. split; [exact Lr|]. intros k Hk.
    destruct (zz_surj k Hk) as (i & Hi & <-). specialize (Kr i Hi). destruct (i <? s)%nat eqn:Eis; [|exact Kr].
    assert (i = 0%nat) by lia. subst i. left. rewrite Kr. apply H0.
    unfold s, first_index in Eis. destruct (type =? Y_after_Y2) eqn:Et; [apply Z.eqb_eq, Et|discriminate].
Qed.
