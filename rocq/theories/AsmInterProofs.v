(** Symbolic execution of the assembled interpolation filters. *)
From Verif Require Import Base MVModel FrameModel RasterModel PredictModel VarianceModel SimdModel AsmInterModel.
From Verif Require Import SimdProofs AsmTransformProofs.

(** * One lane *)

(** The portable value: six samples around position 0. *)
Definition tap6 (k05 k13 k24 : Z * Z) (v : Z -> Z) : Z :=
  clamp255 ((v (-2) * fst k05 + v (-1) * fst k13 + v 0 * fst k24 + v 1 * snd k13 + v 2 * snd k24 + v 3 * snd k05 + 64) / 128).

Definition byte_pair (p : Z * Z) : Prop := -128 <= fst p < 128 /\ -128 <= snd p < 128.
Definition good (k05 k13 k24 : Z * Z) : Prop :=
  byte_pair k05 /\ byte_pair k13 /\ byte_pair k24 /\
  (forall a f, 0 <= a < 256 -> 0 <= f < 256 -> 0 <= a * fst k05 + f * snd k05 <= 1530) /\
  (forall a f, 0 <= a < 256 -> 0 <= f < 256 -> -8192 <= a * fst k13 + f * snd k13 <= 31500) /\
  (forall a f, 0 <= a < 256 -> 0 <= f < 256 -> -8192 <= a * fst k24 + f * snd k24 <= 31500) /\
  (forall a f c e, 0 <= a < 256 -> 0 <= f < 256 -> 0 <= c < 256 -> 0 <= e < 256 ->
     a * fst k05 + f * snd k05 + (c * fst k24 + e * snd k24) <= 31500).

Lemma good_at : forall i, 1 <= i <= 7 -> good (pair_at k0_k5 i) (pair_at k1_k3 i) (pair_at k2_k4 i).
Proof.
  intros i Hi. assert (C : i = 1 \/ i = 2 \/ i = 3 \/ i = 4 \/ i = 5 \/ i = 6 \/ i = 7) by lia.
  repeat (destruct C as [-> |C]); try subst i; unfold good, byte_pair;
    repeat match goal with |- context [pair_at ?t ?i] => let x := eval vm_compute in (pair_at t i) in change (pair_at t i) with x end;
    cbn [fst snd]; repeat split; intros; lia.
Qed.

Lemma s8_lo8 : forall k, -128 <= k < 128 -> s8 (lo8 k) = k.
Proof. intros. unfold s8, lo8. lia. Qed.

Lemma clamp_sat : forall t, -32768 <= t -> clamp255 (sar 7 (Z.min 32767 t)) = clamp255 (t / 128).
Proof. intros t T. rewrite sar_div by lia. change (2 ^ 7) with 128. unfold clamp255.
  destruct (Z_le_dec t 32767).
  - rewrite Z.min_r by assumption. reflexivity.
  - rewrite Z.min_l by lia. change (32767 / 128) with 255. replace (t / 128 <? 0) with false by lia.
    destruct (255 <? t / 128) eqn:E; [reflexivity|]. cbn. lia.
Qed.

Section Lanes.
  Variables (k05 k13 k24 : Z * Z) (v : Z -> Z) (a b c d e f : Z).
  Hypothesis G : good k05 k13 k24.
  Hypothesis V : forall j, 0 <= v j < 256.
  Hypothesis Ea : a = v (-2).
  Hypothesis Eb : b = v (-1).
  Hypothesis Ec : c = v 0.
  Hypothesis Ed : d = v 1.
  Hypothesis Ee : e = v 2.
  Hypothesis Ef : f = v 3.
  Let P := sat16 (a * s8 (lo8 (fst k05)) + f * s8 (lo8 (snd k05))).
  Let R := sat16 (b * s8 (lo8 (fst k13)) + d * s8 (lo8 (snd k13))).
  Let Q := sat16 (c * s8 (lo8 (fst k24)) + e * s8 (lo8 (snd k24))).

  Lemma lane_facts : exists p r q, P = p /\ R = r /\ Q = q /\
    0 <= p <= 1530 /\ -8192 <= r <= 31500 /\ -8192 <= q <= 31500 /\ p + q <= 31500 /\
    tap6 k05 k13 k24 v = clamp255 ((p + r + q + 64) / 128).
  Proof.
    destruct G as ((B1 & B2) & (B3 & B4) & (B5 & B6) & GP & GR & GQ & GS).
    specialize (GP a f). specialize (GR b d). specialize (GQ c e). specialize (GS a f c e).
    pose proof (V (-2)). pose proof (V (-1)). pose proof (V 0). pose proof (V 1). pose proof (V 2). pose proof (V 3).
    rewrite <- Ea, <- Eb, <- Ec, <- Ed, <- Ee, <- Ef in *.
    exists (a * fst k05 + f * snd k05), (b * fst k13 + d * snd k13), (c * fst k24 + e * snd k24).
    unfold P, R, Q. rewrite !s8_lo8 by assumption. unfold tap6. rewrite <- Ea, <- Eb, <- Ec, <- Ed, <- Ee, <- Ef.
    repeat split; try (unfold sat16; lia); try lia.
    f_equal. f_equal. ring.
  Qed.

  (** The orders in which the six loops add. *)
  Lemma lane_h8_six : clamp255 (sar 7 (sat16 (sat16 (P + Q) + sat16 (R + 64)))) = tap6 k05 k13 k24 v.
  Proof. destruct lane_facts as (p & r & q & -> & -> & -> & ? & ? & ? & ? & ->). rewrite <- clamp_sat by lia. do 2 f_equal. unfold sat16. lia. Qed.
  Lemma lane_h16 : clamp255 (sar 7 (sat16 (sat16 (sat16 (P + Q) + R) + 64))) = tap6 k05 k13 k24 v.
  Proof. destruct lane_facts as (p & r & q & -> & -> & -> & ? & ? & ? & ? & ->). rewrite <- clamp_sat by lia. do 2 f_equal. unfold sat16. lia. Qed.
  Lemma lane_h4_six : clamp255 (sar 7 (sat16 (sat16 (sat16 (P + Q) + 64) + R))) = tap6 k05 k13 k24 v.
  Proof. destruct lane_facts as (p & r & q & -> & -> & -> & ? & ? & ? & ? & ->). rewrite <- clamp_sat by lia. do 2 f_equal. unfold sat16. lia. Qed.
  Lemma lane_v_six : clamp255 (sar 7 (sat16 (sat16 (sat16 (R + Q) + P) + 64))) = tap6 k05 k13 k24 v.
  Proof. destruct lane_facts as (p & r & q & -> & -> & -> & ? & ? & ? & ? & ->). rewrite <- clamp_sat by lia. do 2 f_equal. unfold sat16. lia. Qed.
End Lanes.

(** Four taps. *)
Section Four.
  Variables (k13 k24 : Z * Z) (v : Z -> Z) (b c d e : Z).
  Hypothesis G : good (0, 0) k13 k24.
  Hypothesis V : forall j, 0 <= v j < 256.
  Hypothesis Eb : b = v (-1).
  Hypothesis Ec : c = v 0.
  Hypothesis Ed : d = v 1.
  Hypothesis Ee : e = v 2.
  Let R := sat16 (b * s8 (lo8 (fst k13)) + d * s8 (lo8 (snd k13))).
  Let Q := sat16 (c * s8 (lo8 (fst k24)) + e * s8 (lo8 (snd k24))).

  Lemma four_facts : exists r q, R = r /\ Q = q /\ -8192 <= r <= 31500 /\ -8192 <= q <= 31500 /\
    tap6 (0, 0) k13 k24 v = clamp255 ((r + q + 64) / 128).
  Proof.
    destruct (lane_facts (0, 0) k13 k24 v _ _ _ _ _ _ G V eq_refl Eb Ec Ed Ee eq_refl) as (p & r & q & E1 & E2 & E3 & B1 & B2 & B3 & B4 & E).
    exists r, q. repeat split; try assumption; try lia. rewrite E. f_equal. f_equal.
    assert (p = 0); [|lia]. rewrite <- E1. cbn [fst snd]. change (s8 (lo8 0)) with 0. rewrite !Z.mul_0_r. reflexivity.
  Qed.
  Lemma lane_h_four : clamp255 (sar 7 (sat16 (sat16 (Q + 64) + R))) = tap6 (0, 0) k13 k24 v.
  Proof. destruct four_facts as (r & q & -> & -> & ? & ? & ->). rewrite <- clamp_sat by lia. do 2 f_equal. unfold sat16. lia. Qed.
  Lemma lane_v_four : clamp255 (sar 7 (sat16 (sat16 (R + Q) + 64))) = tap6 (0, 0) k13 k24 v.
  Proof. destruct four_facts as (r & q & -> & -> & ? & ? & ->). rewrite <- clamp_sat by lia. do 2 f_equal. unfold sat16. lia. Qed.
  Lemma lane_v16_four : clamp255 (sar 7 (sat16 (sat16 (R + 64) + Q))) = tap6 (0, 0) k13 k24 v.
  Proof. destruct four_facts as (r & q & -> & -> & ? & ? & ->). rewrite <- clamp_sat by lia. do 2 f_equal. unfold sat16. lia. Qed.
End Four.

(** * Rows in memory *)

(** After [r] rows of [w] bytes, row i holding f i; nothing else differs from
    [m0]. *)
Definition filled (m0 : nat -> Z -> Z) (d : nat) (o pitch w : Z) (f : Z -> Z -> Z) (r : Z) (m : nat -> Z -> Z) : Prop :=
  (forall i c, 0 <= i < r -> 0 <= c < w -> m d (o + i * pitch + c) = f i c) /\
  (forall s a, s <> d \/ (forall i c, 0 <= i < r -> 0 <= c < w -> a <> o + i * pitch + c) -> m s a = m0 s a).

Lemma filled_0 : forall m d o pitch w f, filled m d o pitch w f 0 m.
Proof. intros. split; [intros; lia|reflexivity]. Qed.
Lemma filled_step : forall m0 d o pitch w f r m m' l,
  filled m0 d o pitch w f r m -> 0 <= r -> w <= pitch -> zlen l = w -> (forall c, 0 <= c < w -> nth (Z.to_nat c) l 0 = f r c) ->
  (forall s a, m' s a = poke m d (o + r * pitch) l s a) -> filled m0 d o pitch w f (r + 1) m'.
Proof.
  intros m0 d o pitch w f r m m' l [F1 F2] R W Ln Fl E. split.
  - intros i c I C. rewrite E. destruct (Z.eq_dec i r) as [->|N].
    + rewrite poke_in by lia. replace (o + r * pitch + c - (o + r * pitch)) with c by ring. apply Fl, C.
    + rewrite poke_out; [apply F1; lia|]. right. left. nia.
  - intros s a A. rewrite E, poke_out.
    + apply F2. destruct A as [A|A]; [left; exact A|right; intros i c I C; apply A; lia].
    + destruct A as [A|A]; [left; exact A|right].
      destruct (Z_lt_dec a (o + r * pitch)); [left; lia|right]. rewrite Ln.
      destruct (Z_le_dec (o + r * pitch + w) a); [assumption|exfalso].
      apply (A r (a - (o + r * pitch))); lia.
Qed.
Lemma poke_app : forall m d o l1 l2 s a, poke (poke m d o l1) d (o + zlen l1) l2 s a = poke m d o (l1 ++ l2) s a.
Proof.
  intros m d o l1 l2 s a. assert (0 <= zlen l1) by (unfold zlen; lia). assert (0 <= zlen l2) by (unfold zlen; lia).
  assert (Z12 : zlen (l1 ++ l2) = zlen l1 + zlen l2) by (unfold zlen; rewrite app_length; lia).
  destruct (Nat.eq_dec s d) as [->|N]; [|rewrite !poke_out by (left; exact N); reflexivity].
  destruct (Z_lt_dec a o); [rewrite !poke_out by lia; reflexivity|].
  destruct (Z_lt_dec a (o + zlen l1)).
  { rewrite poke_out, !poke_in by lia. rewrite app_nth1; [reflexivity|unfold zlen in *; lia]. }
  destruct (Z_lt_dec a (o + zlen l1 + zlen l2)).
  { rewrite !poke_in by lia. rewrite app_nth2 by (unfold zlen in *; lia). f_equal. unfold zlen in *. lia. }
  rewrite !poke_out by lia. reflexivity.
Qed.

(** * Loops *)

Lemma loop_nz_rows : forall L args ctr body (I : Z -> machine -> Prop) h,
  (forall r st, 0 <= r < h -> I r st -> exists st', run L args body st = Some st' /\ I (r + 1) st' /\ reg st' ctr = Int (h - (r + 1))) ->
  forall n st, Z.of_nat n < h -> I (h - 1 - Z.of_nat n) st -> exists st', loop_nz (S n) L args ctr body st = Some st' /\ I h st'.
Proof.
  intros L args ctr body I h Step. induction n as [|n IH]; intros st N H0.
  - destruct (Step (h - 1 - Z.of_nat 0) st) as (st' & E & H1 & C); [lia|exact H0|].
    exists st'. cbn [loop_nz]. rewrite E. cbn [obind]. rewrite C. cbn [as_int obind].
    replace (h - (h - 1 - Z.of_nat 0 + 1) =? 0) with true by lia. split; [reflexivity|].
    replace h with (h - 1 - Z.of_nat 0 + 1) by lia. exact H1.
  - destruct (Step (h - 1 - Z.of_nat (S n)) st) as (st' & E & H1 & C); [lia|exact H0|].
    destruct (IH st') as (st2 & E2 & H2); [lia| |].
    { replace (h - 1 - Z.of_nat n) with (h - 1 - Z.of_nat (S n) + 1) by lia. exact H1. }
    exists st2. split; [|exact H2]. change (loop_nz (S (S n)) L args ctr body st) with
      (let? s := run L args body st in let? z := as_int (reg s ctr) in if z =? 0 then Some s else loop_nz (S n) L args ctr body s).
    rewrite E. cbn [obind]. rewrite C. cbn [as_int obind].
    replace (h - (h - 1 - Z.of_nat (S n) + 1) =? 0) with false by lia. exact E2.
Qed.

Definition hstate (s : nat) (off ss : Z) (d : nat) (o pitch n : Z) (vs : list vec) (m : nat -> Z -> Z) : machine :=
  mkMachine ([Int ss; Int n; Int pitch; Int 0; Int 0; Ptr s off; Ptr d o; Int 0] ++ repeat (Int 0) 8) vs m.
Definition vstate (s : nat) (off ss : Z) (d : nat) (o pitch n : Z) (vs : list vec) (m : nat -> Z -> Z) : machine :=
  mkMachine ([Ptr s (off + ss); Int n; Int ss; Int 0; Int 0; Ptr s off; Ptr d o; Int 0; Int pitch] ++ repeat (Int 0) 7) vs m.

Lemma machine_eq : forall g g' v v' m m', g = g' -> v = v' -> m = m' -> mkMachine g v m = mkMachine g' v' m'.
Proof. intros. subst. reflexivity. Qed.
Lemma cons_eq : forall (x y : Z) l l', x = y -> l = l' -> x :: l = y :: l'.
Proof. intros. subst. reflexivity. Qed.

(** The samples of a row. *)
Definition hrow (w : nat) (k05 k13 k24 : Z * Z) (m : nat -> Z -> Z) (s : nat) (off : Z) : list Z :=
  map (fun c => tap6 k05 k13 k24 (fun j => m s (off + Z.of_nat c + j))) (seq 0 w).
Definition vrow (w : nat) (k05 k13 k24 : Z * Z) (m : nat -> Z -> Z) (s : nat) (off ss : Z) : list Z :=
  map (fun c => tap6 k05 k13 k24 (fun j => m s (off + (j + 2) * ss + Z.of_nat c))) (seq 0 w).

Ltac in_memory := cbn beta; apply f_equal; lia.
Ltac lanes lem := repeat (apply cons_eq; [apply lem; [assumption | intros; cbn beta; match goal with B : bytes_ok _ |- _ => apply B end | in_memory ..]|]); reflexivity.

Lemma poke_eq : forall m d o o' l l' s a, o = o' -> l = l' -> poke m d o l s a = poke m d o' l' s a.
Proof. intros. subst. reflexivity. Qed.

Ltac state_eq := apply f_equal, machine_eq; [repeat (f_equal; try lia)|reflexivity|reflexivity].

(** * The rows *)

Definition T (p : Z * Z) : vec := taps_vec 8 p.
Definition T4 (p : Z * Z) : vec := taps_vec 4 p.
Definition others (n : nat) : list vec := repeat (Vb []) n.

Definition V_h8_six (k05 k13 k24 : Z * Z) (vs : list vec) : Prop :=
  exists x0 x1 x2 x3, vs = [x0; x1; x2; x3; T k05; T k24; T k13; rd] ++ others 16.
Lemma h8_six_row_run : forall L args k05 k13 k24 s off ss d o pitch n vs m,
  good k05 k13 k24 -> bytes_ok m -> V_h8_six k05 k13 k24 vs ->
  0 <= off - 2 -> off + 11 <= extent L s -> 0 <= o + pitch -> o + pitch + 8 <= extent L d ->
  exists vs' m', run L args h8_six_row (hstate s off ss d o pitch n vs m) = Some (hstate s (off + ss) ss d (o + pitch) pitch (n - 1) vs' m') /\
    V_h8_six k05 k13 k24 vs' /\ forall s' a, m' s' a = poke m d (o + pitch) (hrow 8 k05 k13 k24 m s off) s' a.
Proof.
  intros L args k05 k13 k24 s off ss d o pitch n vs m G Bm (x0 & x1 & x2 & x3 & ->) O1 O2 O3 O4.
  eexists _, _. split; [|split].
  - unfold h8_six_row, hstate, T, T4, others. cbn [app repeat].
    do 19 vstep ltac:(side). cbn [run]. state_eq.
  - eexists _, _, _, _. reflexivity.
  - intros s' a. cbv beta. apply poke_eq; [lia|].
    unfold hrow. cbn [seq map]. lanes lane_h8_six.
Qed.

Definition V_h8_four (k13 k24 : Z * Z) (vs : list vec) : Prop :=
  exists x0 x1 x2, vs = [x0; x1; x2; shuf2bfrom1; shuf3bfrom1; T k24; T k13; rd] ++ others 16.
Lemma h8_four_row_run : forall L args k13 k24 s off ss d o pitch n vs m,
  good (0, 0) k13 k24 -> bytes_ok m -> V_h8_four k13 k24 vs ->
  0 <= off - 2 -> off + 11 <= extent L s -> 0 <= o + pitch -> o + pitch + 8 <= extent L d ->
  exists vs' m', run L args h8_four_row (hstate s off ss d o pitch n vs m) = Some (hstate s (off + ss) ss d (o + pitch) pitch (n - 1) vs' m') /\
    V_h8_four k13 k24 vs' /\ forall s' a, m' s' a = poke m d (o + pitch) (hrow 8 (0, 0) k13 k24 m s off) s' a.
Proof.
  intros L args k13 k24 s off ss d o pitch n vs m G Bm (x0 & x1 & x2 & ->) O1 O2 O3 O4.
  eexists _, _. split; [|split].
  - unfold h8_four_row, hstate, T, T4, others. cbn [app repeat].
    do 16 vstep ltac:(side). cbn [run]. state_eq.
  - eexists _, _, _. reflexivity.
  - intros s' a. cbv beta. apply poke_eq; [lia|].
    unfold hrow. cbn [seq map]. lanes lane_h_four.
Qed.

Definition V_h16 (k05 k13 k24 : Z * Z) (vs : list vec) : Prop :=
  exists x0 x1 x2 x3 x7, vs = [x0; x1; x2; x3; T k05; T k24; T k13; x7] ++ others 16.
Lemma h16_row_run : forall L args k05 k13 k24 s off ss d o pitch n vs m,
  good k05 k13 k24 -> bytes_ok m -> V_h16 k05 k13 k24 vs ->
  0 <= off - 2 -> off + 19 <= extent L s -> 0 <= o -> o + 16 <= extent L d -> (base L d + (o)) mod 16 = 0 ->
  exists vs' m', run L args h16_row (hstate s off ss d o pitch n vs m) = Some (hstate s (off + ss) ss d (o + pitch) pitch (n - 1) vs' m') /\
    V_h16 k05 k13 k24 vs' /\ forall s' a, m' s' a = poke m d (o) (hrow 16 k05 k13 k24 m s off) s' a.
Proof.
  intros L args k05 k13 k24 s off ss d o pitch n vs m G Bm (x0 & x1 & x2 & x3 & x7 & ->) O1 O2 O3 O4 Al.
  eexists _, _. split; [|split].
  - unfold h16_row, hstate, T, T4, others. cbn [app repeat].
    do 35 vstep ltac:(side). cbn [run]. state_eq.
  - eexists _, _, _, _, _. reflexivity.
  - intros s' a. cbv beta. apply poke_eq; [lia|].
    unfold hrow. cbn [seq map]. lanes lane_h16.
Qed.

Definition V_h4_six (k05 k13 k24 : Z * Z) (vs : list vec) : Prop :=
  exists x0 x1 x2 x3, vs = [x0; x1; x2; x3; T k05; T k24; T k13; rd] ++ others 16.
Lemma h4_six_row_run : forall L args k05 k13 k24 s off ss d o pitch n vs m,
  good k05 k13 k24 -> bytes_ok m -> V_h4_six k05 k13 k24 vs ->
  0 <= off - 2 -> off + 14 <= extent L s -> 0 <= o -> o + 4 <= extent L d ->
  exists vs' m', run L args h4_six_row (hstate s off ss d o pitch n vs m) = Some (hstate s (off + ss) ss d (o + pitch) pitch (n - 1) vs' m') /\
    V_h4_six k05 k13 k24 vs' /\ forall s' a, m' s' a = poke m d (o) (hrow 4 k05 k13 k24 m s off) s' a.
Proof.
  intros L args k05 k13 k24 s off ss d o pitch n vs m G Bm (x0 & x1 & x2 & x3 & ->) O1 O2 O3 O4.
  eexists _, _. split; [|split].
  - unfold h4_six_row, hstate, T, T4, others. cbn [app repeat].
    do 19 vstep ltac:(side). cbn [run]. state_eq.
  - eexists _, _, _, _. reflexivity.
  - intros s' a. cbv beta. apply poke_eq; [lia|].
    unfold hrow. cbn [seq map]. lanes lane_h4_six.
Qed.

Definition V_h4_four (k13 k24 : Z * Z) (vs : list vec) : Prop :=
  exists x1 x2 x3, vs = [shuf2b; x1; x2; shuf3b; x3; T k24; T k13; rd] ++ others 16.
Lemma h4_four_row_run : forall L args k13 k24 s off ss d o pitch n vs m,
  good (0, 0) k13 k24 -> bytes_ok m -> V_h4_four k13 k24 vs ->
  0 <= off - 2 -> off + 14 <= extent L s -> 0 <= o -> o + 4 <= extent L d ->
  exists vs' m', run L args h4_four_row (hstate s off ss d o pitch n vs m) = Some (hstate s (off + ss) ss d (o + pitch) pitch (n - 1) vs' m') /\
    V_h4_four k13 k24 vs' /\ forall s' a, m' s' a = poke m d (o) (hrow 4 (0, 0) k13 k24 m s off) s' a.
Proof.
  intros L args k13 k24 s off ss d o pitch n vs m G Bm (x1 & x2 & x3 & ->) O1 O2 O3 O4.
  eexists _, _. split; [|split].
  - unfold h4_four_row, hstate, T, T4, others. cbn [app repeat].
    do 14 vstep ltac:(side). cbn [run]. state_eq.
  - eexists _, _, _. reflexivity.
  - intros s' a. cbv beta. apply poke_eq; [lia|].
    unfold hrow. cbn [seq map]. lanes lane_h_four.
Qed.

Definition V_v8_six (k05 k13 k24 : Z * Z) (vs : list vec) : Prop :=
  exists x0 x1 x2 x3 x4, vs = [x0; x1; x2; x3; x4; T k05; T k24; T k13] ++ others 16.
Lemma v8_six_row_run : forall L args k05 k13 k24 s off ss d o pitch n vs m,
  good k05 k13 k24 -> bytes_ok m -> V_v8_six k05 k13 k24 vs ->
  0 <= off -> 0 <= ss -> off + 5 * ss + 8 <= extent L s -> 0 <= o -> o + 8 <= extent L d ->
  exists vs' m', run L args v8_six_row (vstate s off ss d o pitch n vs m) = Some (vstate s (off + ss) ss d (o + pitch) pitch (n - 1) vs' m') /\
    V_v8_six k05 k13 k24 vs' /\ forall s' a, m' s' a = poke m d (o) (vrow 8 k05 k13 k24 m s off ss) s' a.
Proof.
  intros L args k05 k13 k24 s off ss d o pitch n vs m G Bm (x0 & x1 & x2 & x3 & x4 & ->) O1 O2 O3 O4 O5.
  eexists _, _. split; [|split].
  - unfold v8_six_row, vstate, T, T4, others. cbn [app repeat].
    do 23 vstep ltac:(side). cbn [run]. state_eq.
  - eexists _, _, _, _, _. reflexivity.
  - intros s' a. cbv beta. apply poke_eq; [lia|].
    unfold vrow. cbn [seq map]. lanes lane_v_six.
Qed.

Definition V_v8_four (k13 k24 : Z * Z) (vs : list vec) : Prop :=
  exists x0 x1 x2 x3 x4, vs = [x0; x1; x2; x3; x4; rd; T k24; T k13] ++ others 16.
Lemma v8_four_row_run : forall L args k13 k24 s off ss d o pitch n vs m,
  good (0, 0) k13 k24 -> bytes_ok m -> V_v8_four k13 k24 vs ->
  0 <= off -> 0 <= ss -> off + 5 * ss + 8 <= extent L s -> 0 <= o -> o + 8 <= extent L d ->
  exists vs' m', run L args v8_four_row (vstate s off ss d o pitch n vs m) = Some (vstate s (off + ss) ss d (o + pitch) pitch (n - 1) vs' m') /\
    V_v8_four k13 k24 vs' /\ forall s' a, m' s' a = poke m d (o) (vrow 8 (0, 0) k13 k24 m s off ss) s' a.
Proof.
  intros L args k13 k24 s off ss d o pitch n vs m G Bm (x0 & x1 & x2 & x3 & x4 & ->) O1 O2 O3 O4 O5.
  eexists _, _. split; [|split].
  - unfold v8_four_row, vstate, T, T4, others. cbn [app repeat].
    do 17 vstep ltac:(side). cbn [run]. state_eq.
  - eexists _, _, _, _, _. reflexivity.
  - intros s' a. cbv beta. apply poke_eq; [lia|].
    unfold vrow. cbn [seq map]. lanes lane_v_four.
Qed.

Definition V_v4_six (k05 k13 k24 : Z * Z) (vs : list vec) : Prop :=
  exists x0 x1 x2 x3 x4, vs = others 16 ++ [x0; x1; x2; x3; x4; T4 k05; T4 k24; T4 k13].
Lemma v4_six_row_run : forall L args k05 k13 k24 s off ss d o pitch n vs m,
  good k05 k13 k24 -> bytes_ok m -> V_v4_six k05 k13 k24 vs ->
  0 <= off -> 0 <= ss -> off + 5 * ss + 4 <= extent L s -> 0 <= o -> o + 4 <= extent L d ->
  exists vs' m', run L args v4_six_row (vstate s off ss d o pitch n vs m) = Some (vstate s (off + ss) ss d (o + pitch) pitch (n - 1) vs' m') /\
    V_v4_six k05 k13 k24 vs' /\ forall s' a, m' s' a = poke m d (o) (vrow 4 k05 k13 k24 m s off ss) s' a.
Proof.
  intros L args k05 k13 k24 s off ss d o pitch n vs m G Bm (x0 & x1 & x2 & x3 & x4 & ->) O1 O2 O3 O4 O5.
  eexists _, _. split; [|split].
  - unfold v4_six_row, vstate, T, T4, others. cbn [app repeat].
    do 23 vstep ltac:(side). cbn [run]. state_eq.
  - eexists _, _, _, _, _. reflexivity.
  - intros s' a. cbv beta. apply poke_eq; [lia|].
    unfold vrow. cbn [seq map]. lanes lane_v_six.
Qed.

Definition V_v4_four (k13 k24 : Z * Z) (vs : list vec) : Prop :=
  exists x0 x1 x2 x3 x4, vs = others 16 ++ [x0; x1; x2; x3; x4; rd4; T4 k24; T4 k13].
Lemma v4_four_row_run : forall L args k13 k24 s off ss d o pitch n vs m,
  good (0, 0) k13 k24 -> bytes_ok m -> V_v4_four k13 k24 vs ->
  0 <= off -> 0 <= ss -> off + 5 * ss + 4 <= extent L s -> 0 <= o -> o + 4 <= extent L d ->
  exists vs' m', run L args v4_four_row (vstate s off ss d o pitch n vs m) = Some (vstate s (off + ss) ss d (o + pitch) pitch (n - 1) vs' m') /\
    V_v4_four k13 k24 vs' /\ forall s' a, m' s' a = poke m d (o) (vrow 4 (0, 0) k13 k24 m s off ss) s' a.
Proof.
  intros L args k13 k24 s off ss d o pitch n vs m G Bm (x0 & x1 & x2 & x3 & x4 & ->) O1 O2 O3 O4 O5.
  eexists _, _. split; [|split].
  - unfold v4_four_row, vstate, T, T4, others. cbn [app repeat].
    do 17 vstep ltac:(side). cbn [run]. state_eq.
  - eexists _, _, _, _, _. reflexivity.
  - intros s' a. cbv beta. apply poke_eq; [lia|].
    unfold vrow. cbn [seq map]. lanes lane_v_four.
Qed.

Definition V_v16_four (k13 k24 : Z * Z) (vs : list vec) : Prop :=
  exists x0 x1 x2 x3 x4 x5, vs = [x0; x1; x2; x3; x4; x5; T k24; T k13] ++ others 16.
Lemma v16_four_row_run : forall L args k13 k24 s off ss d o pitch n vs m,
  good (0, 0) k13 k24 -> bytes_ok m -> V_v16_four k13 k24 vs ->
  0 <= off -> 0 <= ss -> off + 5 * ss + 16 <= extent L s -> 0 <= o -> o + 16 <= extent L d -> (base L d + (o)) mod 16 = 0 ->
  exists vs' m', run L args v16_four_row (vstate s off ss d o pitch n vs m) = Some (vstate s (off + ss) ss d (o + pitch) pitch (n - 1) vs' m') /\
    V_v16_four k13 k24 vs' /\ forall s' a, m' s' a = poke m d (o) (vrow 16 (0, 0) k13 k24 m s off ss) s' a.
Proof.
  intros L args k13 k24 s off ss d o pitch n vs m G Bm (x0 & x1 & x2 & x3 & x4 & x5 & ->) O1 O2 O3 O4 O5 Al.
  eexists _, _. split; [|split].
  - unfold v16_four_row, vstate, T, T4, others. cbn [app repeat].
    do 31 vstep ltac:(side). cbn [run]. state_eq.
  - eexists _, _, _, _, _, _. reflexivity.
  - intros s' a. cbv beta. apply poke_eq; [lia|].
    unfold vrow. cbn [seq map].
    repeat (apply cons_eq; [lazymatch goal with |- clamp255 (sar 7 (sat16 (sat16 (_ + 64) + _))) = _ => apply lane_v16_four | |- _ => apply lane_v_four end; [assumption | intros; cbn beta; apply Bm | in_memory ..]|]). reflexivity.
Qed.


Definition V_v16_six (k05 k13 k24 : Z * Z) (vs : list vec) : Prop :=
  exists x0 x1 x2 x3 x4, vs = [x0; x1; x2; x3; x4; T k05; T k24; T k13] ++ others 16.
Lemma v16_six_row_run : forall L args k05 k13 k24 s off ss d o pitch n vs m,
  good k05 k13 k24 -> bytes_ok m -> s <> d -> V_v16_six k05 k13 k24 vs ->
  0 <= off -> 0 <= ss -> off + 5 * ss + 16 <= extent L s -> 0 <= o -> o + 16 <= extent L d ->
  exists vs' m', run L args v16_six_row (vstate s off ss d o pitch n vs m) = Some (vstate s (off + ss) ss d (o + pitch) pitch (n - 1) vs' m') /\
    V_v16_six k05 k13 k24 vs' /\ forall s' a, m' s' a = poke m d (o) (vrow 16 k05 k13 k24 m s off ss) s' a.
Proof.
  intros L args k05 k13 k24 s off ss d o pitch n vs m G Bm N (x0 & x1 & x2 & x3 & x4 & ->) O1 O2 O3 O4 O5.
  eexists _, _. split; [|split].
  - unfold v16_six_row, vstate, T, T4, others. cbn [app repeat].
    do 40 (vstep ltac:(side); rewrite ?poke_out by (left; exact N)). cbn [run]. state_eq.
  - eexists _, _, _, _, _. reflexivity.
  - intros s' a. cbv beta. rewrite <- (firstn_skipn 8 (vrow 16 k05 k13 k24 m s off ss)), <- poke_app.
    unfold vrow. cbn [seq map firstn skipn].
    match goal with |- poke (poke m d ?o1 ?l1) d ?o2 ?l2 s' a = poke (poke m d o ?l3) d ?o4 ?l4 s' a =>
      assert (El : l1 = l3) by (lanes lane_v_six); assert (Er : l2 = l4) by (lanes lane_v_six);
      assert (Eo : o1 = o) by lia; assert (Ep : o2 = o4) by (unfold zlen; cbn [length]; lia) end.
    rewrite El, Er, Eo, Ep. reflexivity.
Qed.

