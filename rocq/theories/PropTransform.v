(** C31: inverse transforms. *)
From Verif Require Import Base MVModel FrameModel RasterModel RasterProofs TransformModel.

Definition int16_ok (x : Z) : Prop := -32768 <= x <= 32767.

Lemma i32_some x : -2147483648 <= x <= 2147483647 -> i32 x = Some x.
Proof. intros H. unfold i32. replace (_ && _) with true by lia. reflexivity. Qed.

Lemma s16_range x : int16_ok (s16 x).
Proof. unfold int16_ok, s16. lia. Qed.

(** ** Independent description

    The Walsh-Hadamard matrix, and the two products of the cosine transform
    with sqrt(2)*cos(pi/8) and sqrt(2)*sin(pi/8) in 16-bit fixed point. *)
Definition hadamard (k : nat) (x : nat -> Z) : Z :=
  match k with
  | 0%nat => x 0%nat + x 1%nat + x 2%nat + x 3%nat
  | 1%nat => x 0%nat + x 1%nat - x 2%nat - x 3%nat
  | 2%nat => x 0%nat - x 1%nat - x 2%nat + x 3%nat
  | _ => x 0%nat - x 1%nat + x 2%nat - x 3%nat
  end.

Definition cos_part (x : Z) : Z := x + x * 20091 / 65536.
Definition sin_part (x : Z) : Z := x * 35468 / 65536.
Definition cosine (k : nat) (x : nat -> Z) : Z :=
  match k with
  | 0%nat => x 0%nat + x 2%nat + (cos_part (x 1%nat) + sin_part (x 3%nat))
  | 1%nat => x 0%nat - x 2%nat + (sin_part (x 1%nat) - cos_part (x 3%nat))
  | 2%nat => x 0%nat - x 2%nat - (sin_part (x 1%nat) - cos_part (x 3%nat))
  | _ => x 0%nat + x 2%nat - (cos_part (x 1%nat) + sin_part (x 3%nat))
  end.

(** Both dimensions: first down each column, stored in 16 bits, then along
    each row. [t k x] is output [k] of the one-dimensional transform of [x]. *)
Definition both_ways (t : nat -> (nat -> Z) -> Z) (c : nat -> nat -> Z) (row col : nat) : Z :=
  t col (fun j => s16 (t row (fun i => c i j))).
(** Coefficient in row i, column j. *)
Definition coef (c : list Z) (i j : nat) : Z := nth (4 * i + j) c 0.

Lemma walsh_pass_some x : (forall k, -32768 <= x k <= 32767) ->
  walsh_pass (x 0%nat) (x 1%nat) (x 2%nat) (x 3%nat) = Some (map (fun k => hadamard k x) [0; 1; 2; 3]%nat).
Proof.
  intros H. pose proof (H 0%nat). pose proof (H 1%nat). pose proof (H 2%nat). pose proof (H 3%nat). unfold walsh_pass.
  repeat (rewrite i32_some by lia; cbn [obind]). cbn [map hadamard]. do 2 f_equal; [lia|]. f_equal; [lia|]. f_equal; [lia|]. f_equal. lia.
Qed.

Lemma mul_20091_some a : -32768 <= a <= 32767 -> MUL_20091 a = Some (cos_part a).
Proof.
  intros H. unfold MUL_20091. rewrite i32_some by lia. cbn [obind].
  rewrite Z.shiftr_div_pow2 by lia. change (2 ^ 16) with 65536.
  rewrite i32_some by lia. unfold cos_part. f_equal. lia.
Qed.
Lemma mul_35468_some a : -32768 <= a <= 32767 -> MUL_35468 a = Some (sin_part a).
Proof.
  intros H. unfold MUL_35468. rewrite i32_some by lia. cbn [obind].
  rewrite Z.shiftr_div_pow2 by lia. change (2 ^ 16) with 65536. reflexivity.
Qed.
Lemma cos_part_range a : -32768 <= a <= 32767 -> -42815 <= cos_part a <= 42815.
Proof. unfold cos_part. intros. lia. Qed.
Lemma sin_part_range a : -32768 <= a <= 32767 -> -17735 <= sin_part a <= 17735.
Proof. unfold sin_part. intros. lia. Qed.

Lemma idct_pass_some x : (forall k, -32768 <= x k <= 32767) ->
  idct_pass (x 0%nat) (x 1%nat) (x 2%nat) (x 3%nat) = Some (map (fun k => cosine k x) [0; 1; 2; 3]%nat).
Proof.
  intros H. pose proof (H 0%nat) as H0. pose proof (H 1%nat) as H1. pose proof (H 2%nat) as H2. pose proof (H 3%nat) as H3. unfold idct_pass.
  rewrite !mul_20091_some, !mul_35468_some by assumption. cbn [map cosine].
  pose proof (cos_part_range _ H1). pose proof (cos_part_range _ H3).
  pose proof (sin_part_range _ H1). pose proof (sin_part_range _ H3).
  generalize dependent (cos_part (x 1%nat)). generalize dependent (cos_part (x 3%nat)).
  generalize dependent (sin_part (x 1%nat)). generalize dependent (sin_part (x 3%nat)). intros.
  repeat (rewrite i32_some by lia; cbn [obind]). reflexivity.
Qed.

Lemma cosine_range k x : (forall j, -32768 <= x j <= 32767) -> -130000 <= cosine k x <= 130000.
Proof.
  intros H. pose proof (H 0%nat). pose proof (H 1%nat) as H1. pose proof (H 2%nat). pose proof (H 3%nat) as H3.
  pose proof (cos_part_range _ H1). pose proof (cos_part_range _ H3).
  pose proof (sin_part_range _ H1). pose proof (sin_part_range _ H3).
  destruct k as [|[|[|k]]]; cbn [cosine]; lia.
Qed.
Lemma hadamard_range k x : (forall j, -32768 <= x j <= 32767) -> -131072 <= hadamard k x <= 131072.
Proof.
  intros H. pose proof (H 0%nat). pose proof (H 1%nat). pose proof (H 2%nat). pose proof (H 3%nat).
  destruct k as [|[|[|k]]]; cbn [hadamard]; lia.
Qed.

Lemma nth_int16 c k : Forall int16_ok c -> -32768 <= nth k c 0 <= 32767.
Proof.
  intros H. destruct (nth_in_or_default k c 0) as [I| ->]; [|lia].
  apply (proj1 (Forall_forall _ _) H _ I).
Qed.

(** The raster of results. *)
Definition rc16 : list (nat * nat) := flat_map (fun r => map (fun c => (r, c)) [0; 1; 2; 3]%nat) [0; 1; 2; 3]%nat.

Lemma iwht_formula c : Forall int16_ok c ->
  iwht c = Some (map (fun '(r, k) => s16 ((both_ways hadamard (coef c) r k + 3) / 8)) rc16).
Proof.
  intros H. unfold iwht.
  assert (P : forall j, (j < 4)%nat -> walsh_pass (nth16 c (Z.of_nat j)) (nth16 c (Z.of_nat j + 4)) (nth16 c (Z.of_nat j + 8)) (nth16 c (Z.of_nat j + 12))
     = Some (map (fun k => hadamard k (fun i => coef c i j)) [0; 1; 2; 3]%nat)).
  { intros j Hj. rewrite <- (walsh_pass_some (fun i => coef c i j)) by (intros; apply nth_int16, H).
    unfold nth16, coef. repeat f_equal; lia. }
  cbn [omap].
  change (walsh_pass (nth16 c 0) (nth16 c (0 + 4)) (nth16 c (0 + 8)) (nth16 c (0 + 12)))
    with (walsh_pass (nth16 c (Z.of_nat 0)) (nth16 c (Z.of_nat 0 + 4)) (nth16 c (Z.of_nat 0 + 8)) (nth16 c (Z.of_nat 0 + 12))).
  change (walsh_pass (nth16 c 1) (nth16 c (1 + 4)) (nth16 c (1 + 8)) (nth16 c (1 + 12)))
    with (walsh_pass (nth16 c (Z.of_nat 1)) (nth16 c (Z.of_nat 1 + 4)) (nth16 c (Z.of_nat 1 + 8)) (nth16 c (Z.of_nat 1 + 12))).
  change (walsh_pass (nth16 c 2) (nth16 c (2 + 4)) (nth16 c (2 + 8)) (nth16 c (2 + 12)))
    with (walsh_pass (nth16 c (Z.of_nat 2)) (nth16 c (Z.of_nat 2 + 4)) (nth16 c (Z.of_nat 2 + 8)) (nth16 c (Z.of_nat 2 + 12))).
  change (walsh_pass (nth16 c 3) (nth16 c (3 + 4)) (nth16 c (3 + 8)) (nth16 c (3 + 12)))
    with (walsh_pass (nth16 c (Z.of_nat 3)) (nth16 c (Z.of_nat 3 + 4)) (nth16 c (Z.of_nat 3 + 8)) (nth16 c (Z.of_nat 3 + 12))).
  rewrite !P by lia. cbn [obind map].
  assert (Q : forall r, walsh_pass (s16 (hadamard r (fun i => coef c i 0))) (s16 (hadamard r (fun i => coef c i 1)))
                                   (s16 (hadamard r (fun i => coef c i 2))) (s16 (hadamard r (fun i => coef c i 3)))
     = Some (map (fun k => both_ways hadamard (coef c) r k) [0; 1; 2; 3]%nat)).
  { intros r. apply (walsh_pass_some (fun j => s16 (hadamard r (fun i => coef c i j)))). intros; apply s16_range. }
  change (Z.to_nat 0) with 0%nat. change (Z.to_nat 1) with 1%nat. change (Z.to_nat 2) with 2%nat. change (Z.to_nat 3) with 3%nat.
  cbn [nth]. rewrite !Q. cbn [obind map concat app omap].
  assert (B : forall r k, -131072 <= both_ways hadamard (coef c) r k <= 131072).
  { intros. apply hadamard_range. intros; apply s16_range. }
  assert (S : forall r k, i32 (both_ways hadamard (coef c) r k + 3) = Some (both_ways hadamard (coef c) r k + 3))
    by (intros; apply i32_some; specialize (B r k); lia).
  rewrite !S. cbn [obind]. rewrite !Z.shiftr_div_pow2 by lia. reflexivity.
Qed.

Lemma idct_formula c : Forall int16_ok c ->
  idct_residue c = Some (map (fun '(r, k) => (both_ways cosine (coef c) r k + 4) / 8) rc16).
Proof.
  intros H. unfold idct_residue.
  assert (P : forall j, (j < 4)%nat -> idct_pass (nth16 c (Z.of_nat j)) (nth16 c (Z.of_nat j + 4)) (nth16 c (Z.of_nat j + 8)) (nth16 c (Z.of_nat j + 12))
     = Some (map (fun k => cosine k (fun i => coef c i j)) [0; 1; 2; 3]%nat)).
  { intros j Hj. rewrite <- (idct_pass_some (fun i => coef c i j)) by (intros; apply nth_int16, H).
    unfold nth16, coef. repeat f_equal; lia. }
  cbn [omap].
  change (idct_pass (nth16 c 0) (nth16 c (0 + 4)) (nth16 c (0 + 8)) (nth16 c (0 + 12)))
    with (idct_pass (nth16 c (Z.of_nat 0)) (nth16 c (Z.of_nat 0 + 4)) (nth16 c (Z.of_nat 0 + 8)) (nth16 c (Z.of_nat 0 + 12))).
  change (idct_pass (nth16 c 1) (nth16 c (1 + 4)) (nth16 c (1 + 8)) (nth16 c (1 + 12)))
    with (idct_pass (nth16 c (Z.of_nat 1)) (nth16 c (Z.of_nat 1 + 4)) (nth16 c (Z.of_nat 1 + 8)) (nth16 c (Z.of_nat 1 + 12))).
  change (idct_pass (nth16 c 2) (nth16 c (2 + 4)) (nth16 c (2 + 8)) (nth16 c (2 + 12)))
    with (idct_pass (nth16 c (Z.of_nat 2)) (nth16 c (Z.of_nat 2 + 4)) (nth16 c (Z.of_nat 2 + 8)) (nth16 c (Z.of_nat 2 + 12))).
  change (idct_pass (nth16 c 3) (nth16 c (3 + 4)) (nth16 c (3 + 8)) (nth16 c (3 + 12)))
    with (idct_pass (nth16 c (Z.of_nat 3)) (nth16 c (Z.of_nat 3 + 4)) (nth16 c (Z.of_nat 3 + 8)) (nth16 c (Z.of_nat 3 + 12))).
  rewrite !P by lia. cbn [obind map].
  assert (Q : forall r, idct_pass (s16 (cosine r (fun i => coef c i 0))) (s16 (cosine r (fun i => coef c i 1)))
                                   (s16 (cosine r (fun i => coef c i 2))) (s16 (cosine r (fun i => coef c i 3)))
     = Some (map (fun k => both_ways cosine (coef c) r k) [0; 1; 2; 3]%nat)).
  { intros r. apply (idct_pass_some (fun j => s16 (cosine r (fun i => coef c i j)))). intros; apply s16_range. }
  cbn [concat app].
  change (Z.to_nat 0) with 0%nat. change (Z.to_nat 1) with 1%nat. change (Z.to_nat 2) with 2%nat. change (Z.to_nat 3) with 3%nat.
  change (Z.to_nat (0 + 4)) with 4%nat. change (Z.to_nat (0 + 8)) with 8%nat. change (Z.to_nat (0 + 12)) with 12%nat.
  change (Z.to_nat (1 + 4)) with 5%nat. change (Z.to_nat (1 + 8)) with 9%nat. change (Z.to_nat (1 + 12)) with 13%nat.
  change (Z.to_nat (2 + 4)) with 6%nat. change (Z.to_nat (2 + 8)) with 10%nat. change (Z.to_nat (2 + 12)) with 14%nat.
  change (Z.to_nat (3 + 4)) with 7%nat. change (Z.to_nat (3 + 8)) with 11%nat. change (Z.to_nat (3 + 12)) with 15%nat.
  cbn [nth]. rewrite !Q. cbn [obind map concat app omap].
  assert (B : forall r k, -130000 <= both_ways cosine (coef c) r k <= 130000).
  { intros. apply cosine_range. intros; apply s16_range. }
  assert (S : forall r k, i32 (both_ways cosine (coef c) r k + 4) = Some (both_ways cosine (coef c) r k + 4))
    by (intros; apply i32_some; specialize (B r k); lia).
  rewrite !S. cbn [obind]. rewrite !Z.shiftr_div_pow2 by lia. reflexivity.
Qed.

(** Every block of 16-bit coefficients: no overflow, and the values are those
    of the two-dimensional transforms. *)
Theorem C31_iwht :
  forall c, length c = 16%nat -> Forall int16_ok c ->
  exists out, iwht c = Some out /\ length out = 16%nat /\ Forall int16_ok out /\
    forall r k, (r < 4)%nat -> (k < 4)%nat -> coef out r k = s16 ((both_ways hadamard (coef c) r k + 3) / 8).
Proof.
  intros c Hl H. rewrite iwht_formula by exact H. eexists. split; [reflexivity|]. split; [reflexivity|]. split.
  - apply Forall_forall. intros x Hx. apply in_map_iff in Hx. destruct Hx as ([r k] & <- & _). apply s16_range.
  - intros r k Hr Hk. destruct r as [|[|[|[|r]]]]; [| | | |lia]; (destruct k as [|[|[|[|k]]]]; [| | | |lia]); reflexivity.
Qed.

Theorem C31_idct :
  forall c, length c = 16%nat -> Forall int16_ok c ->
  exists res, idct_residue c = Some res /\ length res = 16%nat /\ Forall (fun x => -16250 <= x <= 16250) res /\
    forall r k, (r < 4)%nat -> (k < 4)%nat -> coef res r k = (both_ways cosine (coef c) r k + 4) / 8.
Proof.
  intros c Hl H. rewrite idct_formula by exact H. eexists. split; [reflexivity|]. split; [reflexivity|]. split.
  - apply Forall_forall. intros x Hx. apply in_map_iff in Hx. destruct Hx as ([r k] & <- & _).
    assert (-130000 <= both_ways cosine (coef c) r k <= 130000) by (apply cosine_range; intros; apply s16_range).
    generalize dependent (both_ways cosine (coef c) r k). intros. lia.
  - intros r k Hr Hk. destruct r as [|[|[|[|r]]]]; [| | | |lia]; (destruct k as [|[|[|[|k]]]]; [| | | |lia]); reflexivity.
Qed.

(** Adding to the picture: always pixels, only the block changes. *)
Lemma add_residue_spec p x0 y0 res : plane_ok p -> Forall (fun x => -16250 <= x <= 16250) res ->
  0 <= x0 -> 0 <= y0 -> x0 + 4 <= pl_w p -> y0 + 4 <= pl_h p ->
  exists p', add_residue x0 y0 res p = Some p' /\ plane_ok p' /\ same_dims p' p /\
    forall x y, inside p x y = true ->
      at_px p' x y = if (x0 <=? x) && (x <? x0 + 4) && (y0 <=? y) && (y <? y0 + 4)
                     then clamp255 (at_px p x y + nth16 res (4 * (y - y0) + (x - x0))) else at_px p x y.
Proof.
  intros [Hs Hb] Hr Hx Hy Hw Hh. unfold add_residue.
  destruct (ofold_rmw x0 y0 (fun c r v => let? s := i32 (v + nth16 res (4 * r + c)) in Some (clamp255 s))
              (fun c r v => clamp255 (v + nth16 res (4 * r + c))) (cells 4) (cells_nodup 4) p Hs) as (p' & E & Hs' & Hd & Ha).
  - intros c r H. apply cells_in in H. apply inside_iff. lia.
  - intros c r H. apply cells_in in H.
    assert (byte_ok (at_px p (x0 + c) (y0 + r))) as B by (apply at_px_byte; [split; assumption|apply inside_iff; lia]).
    assert (-16250 <= nth16 res (4 * r + c) <= 16250) as B2.
    { unfold nth16. destruct (nth_in_or_default (Z.to_nat (4 * r + c)) res 0) as [I| ->]; [|lia].
      apply (proj1 (Forall_forall _ _) Hr _ I). }
    unfold byte_ok in B. rewrite i32_some by lia. reflexivity.
  - exists p'. split.
    { erewrite <- E. clear. assert (G : forall l q, ofold (fun p '(c, r) => let? v := pget p (x0 + c) (y0 + r) in let? s := i32 (v + nth16 res (4 * r + c)) in pset p (x0 + c) (y0 + r) (clamp255 s)) l q
        = ofold (fun p '(c, r) => let? v := pget p (x0 + c) (y0 + r) in let? s := (let? s := i32 (v + nth16 res (4 * r + c)) in Some (clamp255 s)) in pset p (x0 + c) (y0 + r) s) l q).
      { induction l as [|[c r] l IH]; intros q; cbn [ofold]; [reflexivity|].
        destruct (pget q (x0 + c) (y0 + r)) as [v|]; cbn [obind]; [|reflexivity].
        destruct (i32 (v + nth16 res (4 * r + c))); cbn [obind]; [|reflexivity].
        destruct (pset _ _ _ _); cbn [obind]; [apply IH|reflexivity]. }
      apply G. }
    assert (A : forall x y, inside p x y = true ->
      at_px p' x y = if (x0 <=? x) && (x <? x0 + 4) && (y0 <=? y) && (y <? y0 + 4)
                     then clamp255 (at_px p x y + nth16 res (4 * (y - y0) + (x - x0))) else at_px p x y).
    { intros x y Hi. destruct (Ha x y Hi) as [A1 A2].
      destruct ((x0 <=? x) && (x <? x0 + 4) && (y0 <=? y) && (y <? y0 + 4)) eqn:C.
      - apply A1, cells_in. lia.
      - apply A2. rewrite cells_in. lia. }
    split; [|split; [exact Hd|exact A]].
    apply plane_ok_at; [exact Hs'|]. intros x y Hi. rewrite (inside_dims p' p x y Hd) in Hi. rewrite A by exact Hi.
    assert (byte_ok (at_px p x y)) by (apply at_px_byte; [split; assumption|exact Hi]).
    destruct (_ && _); [|assumption]. unfold byte_ok, clamp255.
    repeat match goal with |- context [if ?c then _ else _] => destruct c eqn:? end; lia.
Qed.

Theorem C31_idct_add :
  forall p x0 y0 c, plane_ok p -> length c = 16%nat -> Forall int16_ok c ->
  0 <= x0 -> 0 <= y0 -> x0 + 4 <= pl_w p -> y0 + 4 <= pl_h p ->
  exists p', idct_add x0 y0 c p = Some p' /\ plane_ok p' /\ same_dims p' p /\
    forall x y, inside p x y = true ->
      at_px p' x y =
      if (x0 <=? x) && (x <? x0 + 4) && (y0 <=? y) && (y <? y0 + 4)
      then Z.max 0 (Z.min 255 (at_px p x y + (both_ways cosine (coef c) (Z.to_nat (y - y0)) (Z.to_nat (x - x0)) + 4) / 8))
      else at_px p x y.
Proof.
  intros p x0 y0 c Hp Hl Hc Hx Hy Hw Hh.
  destruct (C31_idct c Hl Hc) as (res & E & Hrl & Hr & Hf).
  unfold idct_add. rewrite E. cbn [obind].
  destruct (add_residue_spec p x0 y0 res Hp Hr Hx Hy Hw Hh) as (p' & E' & Hok & Hd & Ha).
  exists p'. split; [exact E'|]. split; [exact Hok|]. split; [exact Hd|].
  intros x y Hi. rewrite Ha by exact Hi.
  destruct ((x0 <=? x) && (x <? x0 + 4) && (y0 <=? y) && (y <? y0 + 4)) eqn:C; [|reflexivity].
  rewrite <- Hf by lia. unfold coef, nth16.
  replace (Z.to_nat (4 * (y - y0) + (x - x0))) with (4 * Z.to_nat (y - y0) + Z.to_nat (x - x0))%nat by lia.
  generalize (at_px p x y + nth (4 * Z.to_nat (y - y0) + Z.to_nat (x - x0)) res 0). intros z.
  unfold clamp255. destruct (z <? 0) eqn:?, (255 <? z) eqn:?; lia.
Qed.

(** A block that only has a DC coefficient: flat. *)
Theorem C31_dc_only :
  forall dc, int16_ok dc ->
  idct_residue (dc :: repeat 0 15) = Some (repeat ((dc + 4) / 8) 16) /\
  iwht (dc :: repeat 0 15) = Some (repeat ((dc + 3) / 8) 16).
Proof.
  intros dc H.
  assert (F : Forall int16_ok (dc :: repeat 0 15)).
  { constructor; [exact H|]. apply Forall_forall. intros x Hx. apply repeat_spec in Hx. subst. unfold int16_ok. lia. }
  unfold int16_ok in H.
  rewrite idct_formula, iwht_formula by exact F.
  assert (S : s16 dc = dc) by (unfold s16; rewrite Z.mod_small; lia).
  split; f_equal; cbn -[Z.add Z.mul Z.div s16]; unfold coef; cbn -[Z.add Z.mul Z.div s16];
    unfold cos_part, sin_part; rewrite ?Z.mul_0_l, ?Z.div_0_l, ?Z.add_0_r, ?Z.sub_0_r, ?Z.add_0_l by lia;
    change (s16 0) with 0; rewrite S, ?Z.mul_0_l, ?Z.div_0_l, ?Z.add_0_r, ?Z.sub_0_r, ?Z.add_0_l by lia; [reflexivity|].
  assert (S3 : s16 ((dc + 3) / 8) = (dc + 3) / 8) by (unfold s16; rewrite Z.mod_small; lia).
  rewrite !S3. reflexivity.
Qed.

Example C31_example :
  idct_residue [1000; -300; 20; 7; 450; 0; -9; 3; 0; 0; 0; 1; -80; 2; 0; 0] =
    Some [146; 170; 214; 242; 121; 145; 188; 219; 36; 57; 99; 133; 12; 32; 74; 110] /\
  iwht (repeat 32767 16) = Some (-2 :: repeat 0 15) /\
  option_map pl_px (idct_add 0 0 (-2000 :: repeat 0 15) (mkPlane 4 4 (repeat 200 16))) = Some (repeat 0 16).
Proof. repeat split; vm_compute; reflexivity. Qed.

Print Assumptions C31_iwht.
Print Assumptions C31_idct.
Print Assumptions C31_idct_add.
Print Assumptions C31_dc_only.
