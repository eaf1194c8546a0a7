(** The arithmetic of the vector loop filter in one lane. *)
From Verif Require Import Base MVModel RasterModel PredictProofs VarianceModel SimdModel SimdProofs AsmLoopFilterModel AsmLoopFilterProofs.
From Verif Require LoopFilterModel.
From Verif Require Import PropLoopFilter.

(** * Bits *)
Lemma sweep2 : forall (P : Z -> Z -> bool), forallb (fun x => forallb (P x) (range 0 256)) (range 0 256) = true ->
  forall x y, byte_ok x -> byte_ok y -> P x y = true.
Proof.
  intros P F x y Hx Hy. unfold byte_ok in *.
  apply (sweep (P x) 0 256); [|lia]. apply (sweep (fun x => forallb (P x) (range 0 256)) 0 256 x F). lia.
Qed.
Lemma lor_excess : forall a b, Z.lor (Z.max 0 (a - b)) (Z.max 0 (b - a)) = Z.abs (a - b).
Proof.
  intros a b. destruct (Z_le_gt_dec a b).
  - rewrite (Z.max_l 0 (a - b)) by lia. rewrite Z.lor_0_l. lia.
  - rewrite (Z.max_l 0 (b - a)) by lia. rewrite Z.lor_0_r. lia.
Qed.
Lemma lor_zero : forall a b, (Z.lor a b =? 0) = (a =? 0) && (b =? 0).
Proof.
  intros a b. destruct (Z.eqb_spec (Z.lor a b) 0) as [E|E].
  - apply Z.lor_eq_0_iff in E. destruct E as [-> ->]. reflexivity.
  - destruct (Z.eqb_spec a 0) as [->|]; [|reflexivity]. destruct (Z.eqb_spec b 0) as [->|]; [|reflexivity]. contradiction E. reflexivity.
Qed.
Lemma land_fe : forall a, byte_ok a -> Z.land a 254 = 2 * (a / 2).
Proof. intros a H. apply Z.eqb_eq. unfold byte_ok in H. apply (sweep (fun a => Z.land a 254 =? 2 * (a / 2)) 0 256); [vm_compute; reflexivity|lia]. Qed.
Lemma land_1f : forall a, byte_ok a -> Z.land a 31 = a mod 32.
Proof. intros a H. apply Z.eqb_eq. unfold byte_ok in H. apply (sweep (fun a => Z.land a 31 =? a mod 32) 0 256); [vm_compute; reflexivity|lia]. Qed.
Lemma lxor_80 : forall a, byte_ok a -> s8 (Z.lxor a 128) = u2s a.
Proof. intros a H. apply Z.eqb_eq. unfold byte_ok in H. apply (sweep (fun a => s8 (Z.lxor a 128) =? u2s a) 0 256); [vm_compute; reflexivity|lia]. Qed.
Lemma lxor_80_byte : forall a, byte_ok a -> byte_ok (Z.lxor a 128).
Proof.
  intros a H. unfold byte_ok in *. enough ((0 <=? Z.lxor a 128) && (Z.lxor a 128 <=? 255) = true) by lia.
  apply (sweep (fun a => (0 <=? Z.lxor a 128) && (Z.lxor a 128 <=? 255)) 0 256); [vm_compute; reflexivity|lia].
Qed.
Lemma lxor_back : forall t, Z.lxor (lo8 (sat8 t)) 128 = s2u t.
Proof.
  intros t. assert (R : -128 <= sat8 t <= 127) by (unfold sat8; lia). change (sat8 t) with (c8 t) in *. unfold s2u.
  apply Z.eqb_eq. apply (sweep (fun x => Z.lxor (lo8 x) 128 =? x + 128) (-128) 256); [vm_compute; reflexivity|lia].
Qed.
Lemma s8_lo8 : forall t, s8 (lo8 (sat8 t)) = c8 t.
Proof. intros. unfold s8, lo8, sat8, c8. lia. Qed.
Lemma lo8_sat_byte : forall t, byte_ok (lo8 (sat8 t)).
Proof. intros. unfold byte_ok, lo8. lia. Qed.
Lemma byte_halves : forall a, byte_ok a -> lo8 (s8 a) = a.
Proof. unfold byte_ok, lo8, s8. lia. Qed.

(** Halving the bytes of a register with psrlw. *)
Lemma half_word : forall a b, 0 <= a < 128 -> 0 <= b < 128 -> s16 ((word (2 * a) (2 * b) mod 65536) / 2) = a + 256 * b.
Proof.
  intros a b Ha Hb. assert (W : word (2 * a) (2 * b) mod 65536 = 2 * (a + 256 * b)) by (unfold word, s16; lia).
  rewrite W, Z.mul_comm, Z.div_mul by lia. apply s16_small. lia.
Qed.
Lemma even_byte : forall a, byte_ok a -> a mod 2 = 0 -> a = 2 * (a / 2) /\ 0 <= a / 2 < 128.
Proof. unfold byte_ok. lia. Qed.
Lemma halved : forall x w i, (i < 16)%nat -> (forall j, (j < 16)%nat -> byte_ok (x j)) -> (forall j, (j < 16)%nat -> x j mod 2 = 0) ->
  (forall k, w k = s16 (Z.shiftr (word (x (2 * k)%nat) (x (2 * k + 1)%nat) mod 65536) 1)) -> byte_of w i = x i / 2.
Proof.
  intros x w i Hi R Ev E. unfold byte_of. rewrite E. rewrite sr1.
  pose proof (Nat.div2_odd i) as D. rewrite <- Nat.negb_even in D.
  assert (H1 : (2 * Nat.div2 i < 16)%nat) by (destruct (negb (Nat.even i)); cbn [Nat.b2n] in D; lia).
  assert (H2 : (2 * Nat.div2 i + 1 < 16)%nat) by lia.
  destruct (even_byte _ (R (2 * Nat.div2 i)%nat H1) (Ev _ H1)) as [E1 R1].
  destruct (even_byte _ (R (2 * Nat.div2 i + 1)%nat H2) (Ev _ H2)) as [E2 R2].
  rewrite E1, E2, half_word by assumption.
  destruct (Nat.even i); cbn [negb Nat.b2n] in D.
  - replace (2 * Nat.div2 i)%nat with i in * by lia. unfold lo8. clear - R1 R2. lia.
  - replace (2 * Nat.div2 i + 1)%nat with i in * by lia. unfold hi8. clear - R1 R2. lia.
Qed.
(** pand with 0xfe, then psrlw by 1. *)
Lemma halves : forall y x w i, (i < 16)%nat -> (forall j, (j < 16)%nat -> byte_ok (y j)) -> (forall j, (j < 16)%nat -> x j = Z.land (y j) 254) ->
  (forall k, w k = s16 (Z.shiftr (word (x (2 * k)%nat) (x (2 * k + 1)%nat) mod 65536) 1)) -> byte_of w i = y i / 2.
Proof.
  intros y x w i Hi R X E. rewrite (halved x w i Hi); [| | |exact E].
  - rewrite X, land_fe by auto. rewrite Z.mul_comm, Z.div_mul by lia. reflexivity.
  - intros j J. rewrite X, land_fe by auto. specialize (R j J). unfold byte_ok in *. clear - R. lia.
  - intros j J. rewrite X, land_fe by auto. clear. lia.
Qed.

(** Two registers of words. *)
Lemma join_ok : forall f g F i, (i < 16)%nat -> (forall k, (k < 8)%nat -> f k = F k) -> (forall k, (k < 8)%nat -> g k = F (8 + k)%nat) -> join f g i = F i.
Proof.
  intros f g F i I A C. unfold join. destruct (Nat.ltb_spec i 8); [apply A; lia|]. rewrite C by lia. f_equal. lia.
Qed.
(** A signed shift by three from a shift of words by eleven. *)
Lemma shift3 : forall lo v, byte_ok lo -> sar 11 (word lo v) = s8 v / 8.
Proof. intros lo v R. rewrite sar_div by lia. change (2 ^ 11) with 2048. unfold byte_ok in R. unfold word, s16, s8. lia. Qed.
Lemma times9 : forall v, s16 (Z.shiftr (word 0 v * 2304) 16) = s8 v * 9.
Proof. intros. rewrite Z.shiftr_div_pow2 by lia. change (2 ^ 16) with 65536. unfold word, s16, s8. lia. Qed.

(** * Masks *)
Definition on (b : bool) : Z := if b then 255 else 0.

Lemma mask_lane : forall I E p3 p2 p1 p0 q0 q1 q2 q3, E < 255 ->
  byte_ok p0 -> byte_ok q0 -> byte_ok p1 -> byte_ok q1 ->
  let M := Z.max (Z.max (Z.max (Z.max (Z.max (Z.max (Z.max (Z.abs (q2 - q3)) (Z.abs (q1 - q2))) (Z.abs (q0 - q1)))
             (Z.max 0 (p2 - p3))) (Z.max 0 (p3 - p2))) (Z.max 0 (p2 - p1))) (Z.max 0 (p1 - p2))) (Z.abs (p1 - p0)) in
  let e := Z.max 0 (Z.min 255 (Z.min 255 (Z.abs (p0 - q0) + Z.abs (p0 - q0)) + Z.abs (p1 - q1) / 2) - E) in
  (if Z.lor (Z.max 0 (M - I)) e =? 0 then 255 else 0) = on (LoopFilterModel.filter_mask I E p3 p2 p1 p0 q0 q1 q2 q3 =? (-1)) /\
  (LoopFilterModel.filter_mask I E p3 p2 p1 p0 q0 q1 q2 q3 = -1 -> e = 0).
Proof.
  intros I E p3 p2 p1 p0 q0 q1 q2 q3 HE H1 H2 H3 H4 M e. unfold byte_ok in *. rewrite lor_zero.
  destruct (filter_mask_cases I E p3 p2 p1 p0 q0 q1 q2 q3) as [(S & ->)|(S & ->)]; unfold smooth in S; cbn [Z.eqb Pos.eqb on].
  - destruct S as (A1 & A2 & A3 & A4 & A5 & A6 & A7).
    assert (Z0 : e = 0).
    { unfold e. clear - A7. revert A7. generalize (Z.abs (p0 - q0)), (Z.abs (p1 - q1) / 2). intros u v. lia. }
    assert (G : M <= I).
    { unfold M. clear - A1 A2 A3 A4 A5 A6. repeat apply Z.max_lub; lia. }
    rewrite Z0. clearbody M. clear - G. replace (Z.max 0 (M - I) =? 0) with true by lia. split; reflexivity.
  - split; [|discriminate]. destruct ((Z.max 0 (M - I) =? 0) && (e =? 0)) eqn:C; [|reflexivity]. exfalso. apply S.
    apply andb_prop in C. destruct C as [C0 C1]. apply Z.eqb_eq in C0, C1.
    assert (G : M <= I) by (clearbody M; clear - C0; lia). clear C0 S.
    assert (G2 : Z.abs (p0 - q0) * 2 + Z.abs (p1 - q1) / 2 <= E).
    { unfold e in C1. clear - C1 HE. assert (0 <= Z.abs (p1 - q1) / 2) by lia. revert H C1.
      generalize (Z.abs (p0 - q0)), (Z.abs (p1 - q1) / 2). intros u v. lia. }
    unfold M in G. repeat rewrite Z.max_lub_iff in G. clear M e C1. clear - G G2. lia.
Qed.
Lemma hev_lane : forall I T p1 p0 q0 q1, 0 <= T -> I <= 127 -> Z.abs (p1 - p0) <= I -> Z.abs (q1 - q0) <= I ->
  Z.lxor (if lo8 (Z.max 0 (Z.abs (q0 - q1) - T) + Z.max 0 (Z.abs (p1 - p0) - T)) =? 0 then 255 else 0) 255
  = on (variance T p1 p0 q0 q1).
Proof.
  intros I T p1 p0 q0 q1 HT HI H1 H2. unfold variance.
  destruct (T <? Z.abs (p1 - p0)) eqn:A, (T <? Z.abs (q1 - q0)) eqn:C; cbn [orb on];
    match goal with |- Z.lxor (if ?b then _ else _) _ = _ => destruct b eqn:D end; try reflexivity; exfalso; unfold lo8 in D; lia.
Qed.
Lemma three_adds : forall f D, -128 <= f <= 127 -> c8 (c8 (c8 (f + c8 D) + c8 D) + c8 D) = c8 (f + 3 * D).
Proof. intros. unfold c8. lia. Qed.

(** * Taps *)
Lemma land_255 : forall y, byte_ok y -> Z.land 255 y = y.
Proof. intros y H. apply Z.eqb_eq. unfold byte_ok in H. apply (sweep (fun y => Z.land 255 y =? y) 0 256); [vm_compute; reflexivity|lia]. Qed.
Lemma gate : forall (a h : bool) hv y, (a = true -> hv = on h) -> hv = 0 \/ hv = 255 -> byte_ok y ->
  s8 (Z.land (Z.land (on a) y) hv) = (if a && h then s8 y else 0) /\
  s8 (Z.land (Z.lnot hv) (Z.land (on a) y)) = (if a && negb h then s8 y else 0).
Proof.
  intros a h hv y A C Y. destruct a; cbn [on andb].
  - rewrite A by reflexivity. rewrite land_255 by exact Y. destruct h; cbn [on negb].
    + split; [rewrite Z.land_comm, land_255 by exact Y; reflexivity|].
      apply Z.eqb_eq. unfold byte_ok in Y. apply (sweep (fun y => s8 (Z.land (Z.lnot 255) y) =? 0) 0 256); [vm_compute; reflexivity|lia].
    + split; [rewrite Z.land_0_r; reflexivity|]. change (Z.lnot 0) with (-1). rewrite Z.land_m1_l. reflexivity.
  - rewrite !Z.land_0_l, ?Z.land_0_r. split; reflexivity.
Qed.
Lemma s8_range : forall v, -128 <= s8 v <= 127.
Proof. intros. unfold s8. lia. Qed.
Lemma tap9 : forall v, sar 7 (add16 (s8 v * 9) 63) = (s8 v * 9 + 63) / 128.
Proof. intros v. pose proof (s8_range v). rewrite sar_div by lia. unfold add16. rewrite s16_small by lia. reflexivity. Qed.
Lemma tap18 : forall v, sar 7 (add16 (s8 v * 9) (add16 (s8 v * 9) 63)) = (s8 v * 18 + 63) / 128.
Proof. intros v. pose proof (s8_range v). rewrite sar_div by lia. unfold add16. rewrite !s16_small by (rewrite ?s16_small; lia). change (2 ^ 7) with 128. f_equal. lia. Qed.
Lemma tap27 : forall v, sar 7 (add16 (add16 (s8 v * 9) (s8 v * 9)) (add16 (s8 v * 9) 63)) = (s8 v * 27 + 63) / 128.
Proof. intros v. pose proof (s8_range v). rewrite sar_div by lia. unfold add16. rewrite !s16_small by (rewrite ?s16_small; rewrite ?s16_small; lia). change (2 ^ 7) with 128. f_equal. lia. Qed.
Lemma c8_eighth : forall t, c8 (c8 t / 8) = c8 t / 8.
Proof. intros. apply c8_id. pose proof (c8_range t). lia. Qed.
Lemma byte_of_byte : forall w i, byte_ok (byte_of w i).
Proof. intros. unfold byte_of, byte_ok, lo8, hi8. destruct (Nat.even i); lia. Qed.
Lemma eighth_lane : forall lo v t, byte_ok lo -> sar 11 (word lo (lo8 (sat8 (s8 v + t)))) = c8 (s8 v + t) / 8.
Proof. intros. rewrite shift3 by assumption. rewrite s8_lo8. reflexivity. Qed.

Lemma on_cases : forall b, on b = 0 \/ on b = 255.
Proof. destruct b; auto. Qed.

Definition vmask (I E : Z) (c : Z -> Z) : bool := LoopFilterModel.filter_mask I E (c (-4)) (c (-3)) (c (-2)) (c (-1)) (c 0) (c 1) (c 2) (c 3) =? (-1).
Definition vhev (T : Z) (c : Z -> Z) : bool := variance T (c (-2)) (c (-1)) (c 0) (c 1).
(** The pixels across an edge, numbered from -4 to 3. *)
Definition mb_out (I E T : Z) (c : Z -> Z) (n : Z) : Z :=
  if vmask I E c then pick6 (mb_edge (vhev T c) (c (-3)) (c (-2)) (c (-1)) (c 0) (c 1) (c 2)) n else c n.
Definition sb_out (I E T : Z) (c : Z -> Z) (n : Z) : Z :=
  if vmask I E c then pick4 (sub_edge (vhev T c) (c (-2)) (c (-1)) (c 0) (c 1)) n else c n.

Section lanes.
  Variables (C : nat -> Z -> Z) (I E T : Z).
  Hypothesis C_byte : forall i n, byte_ok (C i n).

  (** What the first half of the code leaves in a lane. *)
  Definition lane_masks (mk hv ex q0 p0 : nat -> Z) : Prop := forall i, (i < 16)%nat ->
    mk i = on (vmask I E (C i)) /\ (vmask I E (C i) = true -> hv i = on (vhev T (C i))) /\
    (hv i = 0 \/ hv i = 255) /\ byte_ok (ex i) /\ q0 i = C i 0 /\ p0 i = C i (-1).

  (** The filter value, where there is high variance and where there is not. *)
  Definition lane_value (i : nat) : Z := c8 (c8 (u2s (C i (-2)) - u2s (C i 1)) + 3 * (u2s (C i 0) - u2s (C i (-1)))).
  Definition lane_high (i : nat) : Z := if vmask I E (C i) && vhev T (C i) then lane_value i else 0.
  Definition lane_low (i : nat) : Z := if vmask I E (C i) && negb (vhev T (C i)) then lane_value i else 0.
  Definition lane_split_values (z h l q0 p0 q1 : nat -> Z) : Prop := forall i, (i < 16)%nat ->
    z i = 0 /\ s8 (h i) = lane_high i /\ s8 (l i) = lane_low i /\ s8 (q0 i) = u2s (C i 0) /\ s8 (p0 i) = u2s (C i (-1)) /\ byte_ok (q1 i).
  Definition lane_tapped (c a9 a18 a27 q0 p0 : nat -> Z) : Prop := forall i, (i < 16)%nat ->
    c i = 128 /\ s8 (a9 i) = c8 ((lane_low i * 9 + 63) / 128) /\ s8 (a18 i) = c8 ((lane_low i * 18 + 63) / 128) /\ s8 (a27 i) = c8 ((lane_low i * 27 + 63) / 128) /\
    s8 (q0 i) = c8 (u2s (C i 0) - c8 (lane_high i + 4) / 8) /\ s8 (p0 i) = c8 (u2s (C i (-1)) + c8 (lane_high i + 3) / 8).
  Definition lane_out (i : nat) (n : Z) : Z := mb_out I E T (C i) n.
  (** The values that the last part writes. *)
  Lemma lane_out_values : forall i,
    s2u (u2s (C i (-3)) + c8 ((lane_low i * 9 + 63) / 128)) = lane_out i (-3) /\
    s2u (u2s (C i (-2)) + c8 ((lane_low i * 18 + 63) / 128)) = lane_out i (-2) /\
    s2u (c8 (u2s (C i (-1)) + c8 (lane_high i + 3) / 8) + c8 ((lane_low i * 27 + 63) / 128)) = lane_out i (-1) /\
    s2u (c8 (u2s (C i 0) - c8 (lane_high i + 4) / 8) - c8 ((lane_low i * 27 + 63) / 128)) = lane_out i 0 /\
    s2u (u2s (C i 1) - c8 ((lane_low i * 18 + 63) / 128)) = lane_out i 1 /\
    s2u (u2s (C i 2) - c8 ((lane_low i * 9 + 63) / 128)) = lane_out i 2.
  Proof.
    intros i. pose proof (C_byte i) as R. unfold lane_out, mb_out, lane_low, lane_high.
    assert (Z1 : forall x, c8 ((0 * x + 63) / 128) = 0) by (intros; rewrite Z.mul_0_l; reflexivity).
    assert (U : forall x, s2u (c8 x) = s2u x) by (intros; unfold s2u, c8; lia).
    assert (V : forall n, c8 (u2s (C i n)) = u2s (C i n)) by (intros n; specialize (R n); unfold byte_ok, u2s, c8 in *; lia).
    destruct (vmask I E (C i)); cbn [andb].
    - unfold mb_edge, common. fold (lane_value i). destruct (vhev T (C i)); cbn [negb fst snd]; unfold pick6; cbn [Z.eqb Pos.eqb];
        rewrite ?Z1, ?Z.add_0_r, ?Z.sub_0_r, ?U, ?s2u_u2s by apply R.
      + do 5 (split; [reflexivity|]). reflexivity.
      + change (c8 (0 + 3) / 8) with 0. change (c8 (0 + 4) / 8) with 0. rewrite ?Z.add_0_r, ?Z.sub_0_r, ?V, ?U, ?V.
        rewrite !(Z.mul_comm (lane_value i)). do 5 (split; [reflexivity|]). reflexivity.
    - rewrite !Z1. change (c8 (0 + 3) / 8) with 0. change (c8 (0 + 4) / 8) with 0. rewrite !Z.add_0_r, !Z.sub_0_r, !U, !s2u_u2s by apply R.
      do 5 (split; [reflexivity|]). reflexivity.
  Qed.
End lanes.
