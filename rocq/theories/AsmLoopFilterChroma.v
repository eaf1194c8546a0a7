(** Calls of the vector loop filter across horizontal edges of chroma. *)
From Verif Require Import Base MVModel RasterModel PredictProofs VarianceModel SimdModel SimdProofs AsmLoopFilterModel AsmLoopFilterProofs.
From Verif Require LoopFilterModel.
From Verif Require Import PropLoopFilter AsmLoopFilterLanes AsmLoopFilterCalls.

(** Two rows of eight bytes in a register. *)
Lemma hi_B : forall f g t, Vb (firstn 8 (bytes (Vb (map f (seq 0 8) ++ t))) ++ map g (seq 0 8)) = B (fun i => join f g i).
Proof. reflexivity. Qed.
Definition put8 (m : nat -> Z -> Z) (s : nat) (o : Z) (f : nat -> Z) : nat -> Z -> Z := poke m s o (map f (seq 0 8)).
Lemma put8_lo : forall m s o f, poke m s o (firstn 8 (bytes (B f))) = put8 m s o f. Proof. reflexivity. Qed.
Lemma put8_hi : forall m s o f, poke m s o (skipn 8 (bytes (B f))) = put8 m s o (fun i => f (8 + i)%nat). Proof. reflexivity. Qed.
Lemma put8_in : forall m s o f a i, (i < 8)%nat -> a = o + Z.of_nat i -> put8 m s o f s a = f i.
Proof.
  intros m s o f a i I ->. unfold put8. rewrite poke_in by (unfold zlen; rewrite map_length, seq_length; lia).
  replace (Z.to_nat (o + Z.of_nat i - o)) with i by lia.
  rewrite (nth_indep _ 0 (f 0%nat)) by (rewrite map_length, seq_length; exact I).
  rewrite map_nth, seq_nth by exact I. reflexivity.
Qed.
Lemma put8_out : forall m s o f s' a, s' <> s \/ a < o \/ o + 8 <= a -> put8 m s o f s' a = m s' a.
Proof. intros. unfold put8. apply poke_out. unfold zlen. rewrite map_length, seq_length. exact H. Qed.

Ltac aside8 :=
  repeat match goal with H : forall i : nat, _ |- _ => clear H end;
  solve [unfold zlen; cbn [length map seq firstn skipn bytes B]; lia | lia | intros _; lia | discriminate].

(** Filter value, common adjustments and outer adjustment of an inner edge. *)
Section inner_lanes.
  Variables (C : nat -> Z -> Z) (I E T : Z).
  Hypothesis C_byte : forall i n, byte_ok (C i n).
  Definition inner_value (i : nat) : Z :=
    if vmask I E (C i) then c8 ((if vhev T (C i) then c8 (u2s (C i (-2)) - u2s (C i 1)) else 0) + 3 * (u2s (C i 0) - u2s (C i (-1)))) else 0.
  Definition inner_outer (i : nat) : Z := if vmask I E (C i) && negb (vhev T (C i)) then (c8 (inner_value i + 4) / 8 + 1) / 2 else 0.
  Definition inner_masked (r0 x q0 hv r5 p0 q1 : nat -> Z) : Prop := forall i, (i < 16)%nat ->
    byte_ok (r0 i) /\ s8 (x i) = inner_value i /\ s8 (q0 i) = u2s (C i 0) /\ (vmask I E (C i) = true -> hv i = on (vhev T (C i))) /\
    (hv i = 0 \/ hv i = 255) /\ byte_ok (r5 i) /\ s8 (p0 i) = u2s (C i (-1)) /\ s8 (q1 i) = u2s (C i 1).
  Definition inner_adjusted (a t q0 hv h p0 q1 : nat -> Z) : Prop := forall i, (i < 16)%nat ->
    s8 (a i) = c8 (inner_value i + 4) / 8 /\ t i = 128 /\ s8 (q0 i) = u2s (C i 0) /\ s8 (Z.land (Z.lnot (hv i)) (h i)) = inner_outer i /\
    (byte_ok (p0 i) /\ s8 (p0 i) = c8 (u2s (C i (-1)) + c8 (inner_value i + 3) / 8)) /\ s8 (q1 i) = u2s (C i 1).
  Lemma inner_out_values : forall i,
    s2u (u2s (C i (-2)) + inner_outer i) = sb_out I E T (C i) (-2) /\
    s2u (c8 (u2s (C i (-1)) + c8 (inner_value i + 3) / 8)) = sb_out I E T (C i) (-1) /\
    s2u (u2s (C i 0) - c8 (inner_value i + 4) / 8) = sb_out I E T (C i) 0 /\
    s2u (u2s (C i 1) - inner_outer i) = sb_out I E T (C i) 1.
  Proof.
    intros i. pose proof (C_byte i) as R. unfold sb_out, inner_outer, inner_value.
    assert (U : forall x, s2u (c8 x) = s2u x) by (intros; unfold s2u, c8; lia).
    destruct (vmask I E (C i)); cbn [andb].
    - unfold sub_edge, common. destruct (vhev T (C i)); cbn [negb fst snd]; unfold pick4; cbn [Z.eqb Pos.eqb]; rewrite U;
        do 3 (split; [reflexivity|]); reflexivity.
    - change (c8 (0 + 3) / 8) with 0. change (c8 (0 + 4) / 8) with 0. rewrite !Z.add_0_r, !Z.sub_0_r, !U, !s2u_u2s by apply R.
      do 3 (split; [reflexivity|]); reflexivity.
  Qed.
End inner_lanes.
Lemma land_on : forall y (h : bool), byte_ok y -> s8 (Z.land y (on h)) = if h then s8 y else 0.
Proof. intros y h R. destruct h; unfold on; [rewrite Z.land_comm, land_255 by exact R; reflexivity|rewrite Z.land_0_r; reflexivity]. Qed.
Lemma lxor_s2u : forall y, byte_ok y -> Z.lxor y 128 = s2u (s8 y).
Proof. intros y R. apply Z.eqb_eq. unfold byte_ok in R. apply (sweep (fun y => Z.lxor y 128 =? s2u (s8 y)) 0 256); [vm_compute; reflexivity|lia]. Qed.
Lemma half_up : forall t, sar 1 (sat16 (c8 t / 8 + 1)) = (c8 t / 8 + 1) / 2.
Proof. intros t. pose proof (c8_range t). rewrite sar_div by lia. unfold sat16. change (2 ^ 1) with 2. f_equal. lia. Qed.
Lemma c8_half : forall t, c8 ((c8 t / 8 + 1) / 2) = (c8 t / 8 + 1) / 2.
Proof. intros t. pose proof (c8_range t). apply c8_id. lia. Qed.
Lemma outer_lane : forall (a h : bool) hv y w, (a = true -> hv = on h) -> hv = 0 \/ hv = 255 -> byte_ok y -> s8 y = (c8 (w + 4) / 8 + 1) / 2 -> (a = false -> w = 0) ->
  s8 (Z.land (Z.lnot hv) y) = if a && negb h then (c8 (w + 4) / 8 + 1) / 2 else 0.
Proof.
  intros a h hv y w A B R Y W0.
  assert (Z0 : Z.land (Z.lnot 0) y = y) by (change (Z.lnot 0) with (-1); apply Z.land_m1_l).
  assert (Z1 : Z.land (Z.lnot 255) y = 0).
  { apply Z.eqb_eq. unfold byte_ok in R. apply (sweep (fun y => Z.land (Z.lnot 255) y =? 0) 0 256); [vm_compute; reflexivity|lia]. }
  destruct a; cbn [andb].
  - rewrite (A eq_refl). destruct h; unfold on; cbn [negb]; rewrite ?Z0, ?Z1; [reflexivity|exact Y].
  - rewrite (W0 eq_refl) in Y. change ((c8 (0 + 4) / 8 + 1) / 2) with 0 in Y. destruct B as [-> | ->]; rewrite ?Z0, ?Z1; [exact Y|reflexivity].
Qed.

Section call.
  Variables (L : layout) (k s v : nat) (o ov st : Z) (bl : nat) (bo : Z) (li : nat) (lo : Z) (th : nat) (to : Z) (m : nat -> Z -> Z) (c d e f : Z).
  Variables (I E T : Z) (C : nat -> Z -> Z).
  Hypotheses (N1 : s <> k) (N2 : bl <> k) (N3 : li <> k) (N4 : th <> k) (N5 : v <> k) (N6 : s <> v) (N7 : v <> s).
  Hypotheses (X1 : extent L k = 160) (X2 : base L k = 16 * f).
  Hypotheses (S1 : 8 <= st) (S4 : 4 * st <= o) (S5 : o + 3 * st + 8 <= extent L s) (V4 : 4 * st <= ov) (V5 : ov + 3 * st + 8 <= extent L v).
  Hypotheses (B1 : 0 <= bo) (B2 : bo + 16 <= extent L bl) (B3 : base L bl + bo = 16 * c).
  Hypotheses (L1 : 0 <= lo) (L2 : lo + 16 <= extent L li) (L3 : base L li + lo = 16 * d).
  Hypotheses (T1 : 0 <= to) (T2 : to + 16 <= extent L th) (T3 : base L th + to = 16 * e).
  Hypothesis C_ok : forall i n, C i n = join (fun i => m s (o + n * st + Z.of_nat i)) (fun i => m v (ov + n * st + Z.of_nat i)) i.
  Hypothesis C_byte : forall i n, byte_ok (C i n).
  Hypothesis HI : 0 <= I <= 127.
  Hypothesis HE : 0 <= E < 255.
  Hypothesis HT : 0 <= T.
  Hypothesis LI : forall i, 0 <= i < 16 -> m li (lo + i) = I.
  Hypothesis LE : forall i, 0 <= i < 16 -> m bl (bo + i) = E.
  Hypothesis LT : forall i, 0 <= i < 16 -> m th (to + i) = T.

  Lemma join_C : forall mm x y n i, (forall s' a, s' <> k -> mm s' a = m s' a) -> x = o + n * st -> y = ov + n * st ->
    join (fun i => mm s (x + Z.of_nat i)) (fun i => mm v (y + Z.of_nat i)) i = C i n.
  Proof. intros mm x y n i M -> ->. rewrite C_ok. unfold join. destruct (Nat.ltb i 8); apply M; assumption. Qed.
  Lemma limit_at : forall i x, (i < 16)%nat -> x = lo + 0 + Z.of_nat i -> m li x = I.
  Proof. intros i x Hi ->. rewrite Z.add_0_r. apply LI. lia. Qed.
  Lemma blimit_at : forall i x, (i < 16)%nat -> x = bo + 0 + Z.of_nat i -> m bl x = E.
  Proof. intros i x Hi ->. rewrite Z.add_0_r. apply LE. lia. Qed.
  Lemma thresh_at : forall i x, (i < 16)%nat -> x = to + 0 + Z.of_nat i -> m th x = T.
  Proof. intros i x Hi ->. rewrite Z.add_0_r. apply LT. lia. Qed.

  Local Notation masks := (lane_masks C I E T).
  Local Notation value := (lane_value C).
  Local Notation high := (lane_high C I E T).
  Local Notation low := (lane_low C I E T).
  Local Notation split_values := (lane_split_values C I E T).
  Local Notation tapped := (lane_tapped C I E T).
  Local Notation out := (lane_out C I E T).
  Ltac drop := repeat match goal with H : forall i : nat, ?x i = _ |- _ => clear H end.
  (** A register whose upper half was just loaded. *)
  (** Rows kept on the stack. *)
  Ltac from_k i Hi :=
    repeat match goal with
    | KP : (forall i x, (i < 16)%nat -> (_ -> ?m2 k x = _) /\ _) |- context [?m2 k ?x] =>
        first [rewrite (proj1 (KP i x Hi)) by ring | rewrite (proj1 (proj2 (KP i x Hi))) by ring
              |rewrite (proj1 (proj2 (proj2 (KP i x Hi)))) by ring | rewrite (proj2 (proj2 (proj2 (KP i x Hi)))) by ring]
    end.
  Ltac from_memory8 Hi :=
    repeat match goal with
    | |- context [put8 ?mm ?kk ?p ?f ?kk ?x] =>
        first [ rewrite (put8_in mm kk p f x _ Hi) by ring | rewrite (put8_out mm kk p f kk x) by (right; clear - Hi S1; lia) ]
    | |- context [put8 ?mm ?kk ?p ?f ?k' ?x] => rewrite (put8_out mm kk p f k' x) by (left; assumption)
    end.
  Lemma apart : forall lo0 hi0 (s0 : nat) (o0 : Z) (s' : nat) (ad : Z), s' <> s0 \/ (forall j i, lo0 <= j < hi0 -> 0 <= i < 8 -> ad <> o0 + j * st + i) ->
    forall p, (exists j, lo0 <= j < hi0 /\ p = o0 + j * st) -> s' <> s0 \/ ad < p \/ p + 8 <= ad.
  Proof.
    intros lo0 hi0 s0 o0 s' ad [O|O] p (j & J & ->); [left; exact O|right].
    destruct (Z_lt_ge_dec ad (o0 + j * st)) as [A|A]; [left; exact A|right].
    destruct (Z_le_gt_dec (o0 + j * st + 8) ad) as [B|B]; [exact B|exfalso]. apply (O j (ad - (o0 + j * st)) J); lia.
  Qed.
  Ltac hstep n :=
    lstep ltac:(aside8); rewrite hi_B; name_it;
    match goal with H : forall i, ?x i = join (fun a => ?mm s (?p + Z.of_nat a)) (fun b => ?mm v (?q + Z.of_nat b)) i |- _ =>
      let G := fresh "E" in
      assert (G : forall i, x i = C i n) by (intros; rewrite H; apply join_C; [intros; rewrite ?put_out by (left; assumption); reflexivity|ring|ring]);
      clear H end.
  Ltac wstep := lstep ltac:(aside8); rewrite ?put8_lo, ?put8_hi.

  Lemma mbh_uv_ok : exists m', edge_call k L mbh_uv (Ptr s o) st (Ptr bl bo) (Ptr li lo) (Ptr th to) (Ptr v ov) m = Some m' /\
    (forall i j, (i < 8)%nat -> -3 <= j < 3 -> m' s (o + j * st + Z.of_nat i) = out i j /\ m' v (ov + j * st + Z.of_nat i) = out (8 + i)%nat j) /\
    (forall s' x, s' <> k -> s' <> s \/ (forall j i, -3 <= j < 3 -> 0 <= i < 8 -> x <> o + j * st + i) ->
                  s' <> v \/ (forall j i, -3 <= j < 3 -> 0 <= i < 8 -> x <> ov + j * st + i) -> m' s' x = m s' x).
  Proof.
    unfold edge_call, call_from, run_blocks, entry. cbn [repeat set_nth rsp].
    unfold mbh_uv, uv_start, lfh. cbv [app lfh_below lfh_1 lfh_above lfh_2 lfh_middle lfh_3 mb_outer mb_taps mb_outer_again mb_sums mb_write].
    do 12 lstep ltac:(aside8).
    hstep 3. hstep 2. hstep 1. hstep 0.
    do 23 lstep ltac:(aside8).
    hstep (-4). hstep (-3). hstep (-2).
    do 14 lstep ltac:(aside8).
    hstep (-1).
    do 37 lstep ltac:(aside8).
    match goal with |- context [mkMachine _ (B ?q0 :: B ?mk :: _ :: _ :: B ?hv :: B ?ex :: B ?p0 :: _) _] =>
      assert (F : masks mk hv ex q0 p0) end.
    { intros i Hi. 
      match goal with Ew : forall k, ?w k = s16 (Z.shiftr (word (?x (2 * k)%nat) (?x (2 * k + 1)%nat) mod 65536) 1), Ex : forall i, ?x i = Z.land (?y i) 254 |- _ =>
        assert (HH : byte_of w i = Z.abs (C i (-2) - C i 1) / 2);
        [rewrite (halves y x w i Hi);
         [expand; rewrite lor_excess; reflexivity
         |intros j J; expand; rewrite lor_excess; pose proof (C_byte j (-2)); pose proof (C_byte j 1); unfold byte_ok in *; lia
         |intros j J; apply Ex
         |exact Ew]|] end.
      expand. rewrite HH. rewrite !(limit_at i), !(blimit_at i), !(thresh_at i) by (assumption || lia).
      rewrite !lor_excess, !Z.eqb_refl. 
      pose proof (C_byte i) as R.
      destruct (mask_lane I E (C i (-4)) (C i (-3)) (C i (-2)) (C i (-1)) (C i 0) (C i 1) (C i 2) (C i 3) (proj2 HE) (R (-1)) (R 0) (R (-2)) (R 1)) as [ML ME].
      split; [exact ML|]. split; [|split; [|split; [|split; reflexivity]]].
      - intros V. unfold vmask in V. apply Z.eqb_eq in V. rewrite (ME V).
        destruct (filter_mask_cases I E (C i (-4)) (C i (-3)) (C i (-2)) (C i (-1)) (C i 0) (C i 1) (C i 2) (C i 3)) as [(Sm & _)|(_ & Z0)]; [|rewrite V in Z0; discriminate Z0].
        apply (hev_lane I T (C i (-2)) (C i (-1)) (C i 0) (C i 1)); [exact HT|apply HI|apply Sm|apply Sm].
      - match goal with |- Z.lxor (if ?b then _ else _) _ = _ \/ _ => destruct b end; [left|right]; reflexivity.
      - clear - HE. unfold byte_ok. lia. }
    match goal with |- context [mkMachine _ _ ?mm] =>
      assert (M2 : forall s' x, s' <> k -> mm s' x = m s' x) by (intros; rewrite !put_out by (left; assumption); reflexivity);
      assert (KP : forall i x, (i < 16)%nat -> (x = 48 + Z.of_nat i -> mm k x = C i (-3)) /\ (x = 64 + Z.of_nat i -> mm k x = C i (-2)) /\
                                (x = 112 + Z.of_nat i -> mm k x = C i 1) /\ (x = 128 + Z.of_nat i -> mm k x = C i 2));
      [intros i ad Hi; split; [|split; [|split]]; intros ->; from_memory; expand; reflexivity|];
      drop; revert M2 KP; generalize mm; intros m2 M2 KP end.
    do 18 lstep ltac:(aside8).
    match goal with |- context [mkMachine _ (B ?z :: _ :: B ?h :: B ?q0 :: B ?l :: _ :: B ?p0 :: B ?q1 :: _) _] =>
      assert (G : split_values z h l q0 p0 q1) end.
    { intros i Hi. destruct (F i Hi) as (F1 & F2 & F3 & _ & F5 & F6). pose proof (C_byte i) as R.
      expand. from_k i Hi. rewrite F1, F5, F6.
      destruct (gate (vmask I E (C i)) (vhev T (C i)) _ _ F2 F3 (lo8_sat_byte (s8 (lo8 (sat8 (s8 (lo8 (sat8 (s8 (lo8 (sat8 (s8 (Z.lxor (C i (-2)) 128) - s8 (Z.lxor (C i 1) 128)))) + s8 (lo8 (sat8 (s8 (Z.lxor (C i 0) 128) - s8 (Z.lxor (C i (-1)) 128))))))) + s8 (lo8 (sat8 (s8 (Z.lxor (C i 0) 128) - s8 (Z.lxor (C i (-1)) 128))))))) + s8 (lo8 (sat8 (s8 (Z.lxor (C i 0) 128) - s8 (Z.lxor (C i (-1)) 128))))))) as [G1 G2].
      rewrite G1, G2. rewrite !s8_lo8, !lxor_80 by apply R. rewrite three_adds by apply c8_range.
      do 5 (split; [reflexivity|]). apply lxor_80_byte, R. }
    drop.
    do 44 lstep ltac:(aside8).
    match goal with |- context [mkMachine _ (B ?a9 :: _ :: B ?a18 :: B ?q0 :: _ :: B ?a27 :: B ?p0 :: B ?t :: _) _] =>
      assert (H : tapped t a9 a18 a27 q0 p0) end.
    { assert (G8 : forall j, (j < 8)%nat -> (j < 16)%nat) by (intros; lia). assert (G16 : forall j, (j < 8)%nat -> (8 + j < 16)%nat) by (intros; lia).
      intros i Hi. destruct (G i Hi) as (_ & _ & _ & GQ & GP & _).
      split; [expand; reflexivity|].
      split; [|split; [|split; [|split]]].
      - match goal with X : forall i, ?x i = lo8 (sat8 (join ?f ?g i)) |- s8 (?x i) = _ => rewrite X, s8_lo8, (join_ok f g (fun i => (low i * 9 + 63) / 128) i Hi) end; [reflexivity|..];
          intros j J; expand; [destruct (G _ (G8 j J)) as (-> & _ & GL & _)|destruct (G _ (G16 j J)) as (_ & _ & GL & _)];
          rewrite times9, tap9, GL; reflexivity.
      - match goal with X : forall i, ?x i = lo8 (sat8 (join ?f ?g i)) |- s8 (?x i) = _ => rewrite X, s8_lo8, (join_ok f g (fun i => (low i * 18 + 63) / 128) i Hi) end; [reflexivity|..];
          intros j J; expand; [destruct (G _ (G8 j J)) as (-> & _ & GL & _)|destruct (G _ (G16 j J)) as (_ & _ & GL & _)];
          rewrite times9, tap18, GL; reflexivity.
      - match goal with X : forall i, ?x i = lo8 (sat8 (join ?f ?g i)) |- s8 (?x i) = _ => rewrite X, s8_lo8, (join_ok f g (fun i => (low i * 27 + 63) / 128) i Hi) end; [reflexivity|..];
          intros j J; expand; [destruct (G _ (G8 j J)) as (-> & _ & GL & _)|destruct (G _ (G16 j J)) as (_ & _ & GL & _)];
          rewrite times9, tap27, GL; reflexivity.
      - match goal with X : forall i, ?y i = lo8 (sat8 (s8 (_ i) - s8 (?x i))), X2 : forall i, ?x i = lo8 (sat8 (join ?f ?g i)) |- s8 (?y i) = _ =>
          rewrite X, s8_lo8, GQ, X2, s8_lo8, (join_ok f g (fun i => c8 (high i + 4) / 8) i Hi) end; [rewrite c8_eighth; reflexivity|..];
          intros j J; expand; [destruct (G _ (G8 j J)) as (_ & GH & _)|destruct (G _ (G16 j J)) as (_ & GH & _)];
          rewrite eighth_lane by (apply lo8_sat_byte || apply byte_of_byte); rewrite GH; reflexivity.
      - match goal with X : forall i, ?y i = lo8 (sat8 (s8 (_ i) + s8 (?x i))), X2 : forall i, ?x i = lo8 (sat8 (join ?f ?g i)) |- s8 (?y i) = _ =>
          rewrite X, s8_lo8, GP, X2, s8_lo8, (join_ok f g (fun i => c8 (high i + 3) / 8) i Hi) end; [rewrite c8_eighth; reflexivity|..];
          intros j J; expand; [destruct (G _ (G8 j J)) as (_ & GH & _)|destruct (G _ (G16 j J)) as (_ & GH & _ & _ & _ & GB)];
          rewrite eighth_lane by (apply lo8_sat_byte || exact GB); rewrite GH; reflexivity. }
    drop.
    do 23 lstep ltac:(aside8).
    do 12 wstep.
    cbn [run obind mem]. eexists. split; [reflexivity|]. split.
    - intros i j Hi J. split.
      + assert (Hi' : (i < 16)%nat) by (clear - Hi; lia). destruct (H i Hi') as (H0 & H1 & H2 & H3 & H4 & H5). pose proof (C_byte i) as R.
        destruct (lane_out_values C I E T C_byte i) as (O1 & O2 & O3 & O4 & O5 & O6).
        assert (j = -3 \/ j = -2 \/ j = -1 \/ j = 0 \/ j = 1 \/ j = 2) as [-> |[-> |[-> |[-> |[-> | ->]]]]] by lia;
          from_memory8 Hi; expand; from_k i Hi'; rewrite ?H0, ?lxor_back, ?lxor_80, ?H1, ?H2, ?H3, ?H4, ?H5 by apply R; assumption.
      + assert (Hi' : (8 + i < 16)%nat) by (clear - Hi; lia). destruct (H (8 + i)%nat Hi') as (H0 & H1 & H2 & H3 & H4 & H5). pose proof (C_byte (8 + i)) as R.
        destruct (lane_out_values C I E T C_byte (8 + i)) as (O1 & O2 & O3 & O4 & O5 & O6).
        assert (j = -3 \/ j = -2 \/ j = -1 \/ j = 0 \/ j = 1 \/ j = 2) as [-> |[-> |[-> |[-> |[-> | ->]]]]] by lia;
          from_memory8 Hi; expand; from_k (8 + i)%nat Hi'; rewrite ?H0, ?lxor_back, ?lxor_80, ?H1, ?H2, ?H3, ?H4, ?H5 by apply R; assumption.
    - intros s' ad Nk O O'. rewrite !put8_out; [apply M2; exact Nk|..]; (apply (apart (-3) 3 s o s' ad O) || apply (apart (-3) 3 v ov s' ad O')); clear;
        first [exists (-3); split; [lia|ring] | exists (-2); split; [lia|ring] | exists (-1); split; [lia|ring]
              |exists 0; split; [lia|ring] | exists 1; split; [lia|ring] | exists 2; split; [lia|ring]].
  Qed.

  Lemma bh_uv_ok : exists m', edge_call k L bh_uv (Ptr s o) st (Ptr bl bo) (Ptr li lo) (Ptr th to) (Ptr v ov) m = Some m' /\
    (forall i j, (i < 8)%nat -> -2 <= j < 2 -> m' s (o + j * st + Z.of_nat i) = sb_out I E T (C i) j /\ m' v (ov + j * st + Z.of_nat i) = sb_out I E T (C (8 + i)%nat) j) /\
    (forall s' x, s' <> k -> s' <> s \/ (forall j i, -2 <= j < 2 -> 0 <= i < 8 -> x <> o + j * st + i) ->
                  s' <> v \/ (forall j i, -2 <= j < 2 -> 0 <= i < 8 -> x <> ov + j * st + i) -> m' s' x = m s' x).
  Proof.
    unfold edge_call, call_from, run_blocks, entry. cbn [repeat set_nth rsp].
    unfold bh_uv, uv_start, lfh, b_filter. cbv [app lfh_below lfh_1 lfh_above lfh_2 lfh_middle lfh_3].
    do 12 lstep ltac:(aside8).
    hstep 3. hstep 2. hstep 1. hstep 0.
    do 23 lstep ltac:(aside8).
    hstep (-4). hstep (-3). hstep (-2).
    do 14 lstep ltac:(aside8).
    hstep (-1).
    do 37 lstep ltac:(aside8).
    match goal with |- context [mkMachine _ (B ?q0 :: B ?mk :: _ :: _ :: B ?hv :: B ?ex :: B ?p0 :: _) _] =>
      assert (F : masks mk hv ex q0 p0) end.
    { intros i Hi. 
      match goal with Ew : forall k, ?w k = s16 (Z.shiftr (word (?x (2 * k)%nat) (?x (2 * k + 1)%nat) mod 65536) 1), Ex : forall i, ?x i = Z.land (?y i) 254 |- _ =>
        assert (HH : byte_of w i = Z.abs (C i (-2) - C i 1) / 2);
        [rewrite (halves y x w i Hi);
         [expand; rewrite lor_excess; reflexivity
         |intros j J; expand; rewrite lor_excess; pose proof (C_byte j (-2)); pose proof (C_byte j 1); unfold byte_ok in *; lia
         |intros j J; apply Ex
         |exact Ew]|] end.
      expand. rewrite HH. rewrite !(limit_at i), !(blimit_at i), !(thresh_at i) by (assumption || lia).
      rewrite !lor_excess, !Z.eqb_refl. 
      pose proof (C_byte i) as R.
      destruct (mask_lane I E (C i (-4)) (C i (-3)) (C i (-2)) (C i (-1)) (C i 0) (C i 1) (C i 2) (C i 3) (proj2 HE) (R (-1)) (R 0) (R (-2)) (R 1)) as [ML ME].
      split; [exact ML|]. split; [|split; [|split; [|split; reflexivity]]].
      - intros V. unfold vmask in V. apply Z.eqb_eq in V. rewrite (ME V).
        destruct (filter_mask_cases I E (C i (-4)) (C i (-3)) (C i (-2)) (C i (-1)) (C i 0) (C i 1) (C i 2) (C i 3)) as [(Sm & _)|(_ & Z0)]; [|rewrite V in Z0; discriminate Z0].
        apply (hev_lane I T (C i (-2)) (C i (-1)) (C i 0) (C i 1)); [exact HT|apply HI|apply Sm|apply Sm].
      - match goal with |- Z.lxor (if ?b then _ else _) _ = _ \/ _ => destruct b end; [left|right]; reflexivity.
      - clear - HE. unfold byte_ok. lia. }
    match goal with |- context [mkMachine _ _ ?mm] =>
      assert (M2 : forall s' x, s' <> k -> mm s' x = m s' x) by (intros; rewrite !put_out by (left; assumption); reflexivity);
      assert (KP : forall i x, (i < 16)%nat -> (x = 48 + Z.of_nat i -> mm k x = C i (-3)) /\ (x = 64 + Z.of_nat i -> mm k x = C i (-2)) /\
                                (x = 112 + Z.of_nat i -> mm k x = C i 1) /\ (x = 128 + Z.of_nat i -> mm k x = C i 2));
      [intros i ad Hi; split; [|split; [|split]]; intros ->; from_memory; expand; reflexivity|];
      drop; revert M2 KP; generalize mm; intros m2 M2 KP end.
    do 15 lstep ltac:(aside8).
    match goal with |- context [mkMachine _ (B ?r0 :: B ?x :: _ :: B ?q0 :: B ?hv :: B ?r5 :: B ?p0 :: B ?q1 :: _) _] =>
      assert (G : inner_masked C I E T r0 x q0 hv r5 p0 q1) end.
    { intros i Hi. destruct (F i Hi) as (F1 & F2 & F3 & F4 & F5 & F6). pose proof (C_byte i) as R.
      split; [expand; apply lo8_sat_byte|]. split; [|split; [|split; [exact F2|split; [exact F3|split; [exact F4|split]]]]].
      - expand. from_k i Hi. rewrite F1, F5, F6. unfold inner_value. destruct (vmask I E (C i)).
        + rewrite (F2 eq_refl). change (on true) with 255. rewrite land_255 by apply lo8_sat_byte. rewrite !s8_lo8, land_on by apply lo8_sat_byte.
          rewrite s8_lo8, !lxor_80 by apply R. apply three_adds. destruct (vhev T (C i)); [apply c8_range|clear; lia].
        + reflexivity.
      - expand. rewrite F5. apply lxor_80, R.
      - expand. rewrite F6. apply lxor_80, R.
      - expand. from_k i Hi. apply lxor_80, R. }
    drop.
    do 22 lstep ltac:(aside8).
    match goal with |- context [mkMachine _ (B ?a :: _ :: B ?t :: B ?q0 :: B ?hv :: B ?h :: B ?p0 :: B ?q1 :: _) _] =>
      assert (H : inner_adjusted C I E T a t q0 hv h p0 q1) end.
    { assert (G8 : forall j, (j < 8)%nat -> (j < 16)%nat) by (clear; intros; lia). assert (G16 : forall j, (j < 8)%nat -> (8 + j < 16)%nat) by (clear; intros; lia).
      intros i Hi. destruct (G i Hi) as (_ & _ & GQ & GM & GV & _ & GP & GQ1).
      split; [|split; [expand; reflexivity|split; [exact GQ|split; [|split; [|exact GQ1]]]]].
      - match goal with X : forall i, ?x i = lo8 (sat8 (join ?f ?g i)) |- s8 (?x i) = _ => rewrite X, s8_lo8, (join_ok f g (fun i => c8 (inner_value C I E T i + 4) / 8) i Hi) end; [apply c8_eighth|..];
          intros j J; expand; [destruct (G _ (G8 j J)) as (GB & GH & _)|destruct (G _ (G16 j J)) as (GB & GH & _)];
          rewrite eighth_lane by (apply lo8_sat_byte || exact GB); rewrite GH; reflexivity.
      - match goal with X : forall i, ?x i = lo8 (sat8 (join ?f ?g i)) |- s8 (Z.land _ (?x i)) = _ =>
          apply (outer_lane (vmask I E (C i)) (vhev T (C i)) _ _ (inner_value C I E T i) GM GV);
            [rewrite X; apply lo8_sat_byte
            |rewrite X, s8_lo8, (join_ok f g (fun i => (c8 (inner_value C I E T i + 4) / 8 + 1) / 2) i Hi); [apply c8_half|..];
             intros j J; expand; [destruct (G _ (G8 j J)) as (GB & GH & _)|destruct (G _ (G16 j J)) as (GB & GH & _)];
             rewrite eighth_lane by (apply lo8_sat_byte || exact GB); rewrite half_up, GH; reflexivity
            |unfold inner_value; intros ->; reflexivity] end.
      - match goal with X : forall i, ?y i = lo8 (sat8 (s8 (_ i) + s8 (?x i))), X2 : forall i, ?x i = lo8 (sat8 (join ?f ?g i)) |- _ /\ s8 (?y i) = _ =>
          rewrite X; split; [apply lo8_sat_byte|]; rewrite s8_lo8, GP, X2, s8_lo8, (join_ok f g (fun i => c8 (inner_value C I E T i + 3) / 8) i Hi) end; [rewrite c8_eighth; reflexivity|..];
          intros j J; expand; [destruct (G _ (G8 j J)) as (_ & GH & _)|destruct (G _ (G16 j J)) as (_ & GH & _ & _ & _ & GB & _)];
          rewrite eighth_lane by (apply lo8_sat_byte || exact GB); rewrite GH; reflexivity. }
    drop.
    do 12 lstep ltac:(aside8).
    do 8 wstep.
    cbn [run obind mem]. eexists. split; [reflexivity|]. split.
    - intros i j Hi J. split.
      + assert (Hi' : (i < 16)%nat) by (clear - Hi; lia). destruct (H i Hi') as (H1 & H0 & H2 & H3 & H4 & H5). pose proof (C_byte i) as R.
        destruct (inner_out_values C I E T C_byte i) as (O1 & O2 & O3 & O4).
        assert (j = -2 \/ j = -1 \/ j = 0 \/ j = 1) as [-> |[-> |[-> | ->]]] by (clear - J; lia);
          from_memory8 Hi; expand; from_k i Hi'; rewrite ?H0, ?lxor_back, ?lxor_80, ?H1, ?H2, ?H3, ?H5 by apply R; try assumption.
        rewrite <- O2, <- (proj2 H4). apply lxor_s2u, H4.
      + assert (Hi' : (8 + i < 16)%nat) by (clear - Hi; lia). destruct (H (8 + i)%nat Hi') as (H1 & H0 & H2 & H3 & H4 & H5). pose proof (C_byte (8 + i)) as R.
        destruct (inner_out_values C I E T C_byte (8 + i)) as (O1 & O2 & O3 & O4).
        assert (j = -2 \/ j = -1 \/ j = 0 \/ j = 1) as [-> |[-> |[-> | ->]]] by (clear - J; lia);
          from_memory8 Hi; expand; from_k (8 + i)%nat Hi'; rewrite ?H0, ?lxor_back, ?lxor_80, ?H1, ?H2, ?H3, ?H5 by apply R; try assumption.
        rewrite <- O2, <- (proj2 H4). apply lxor_s2u, H4.
    - intros s' ad Nk O O'. rewrite !put8_out; [apply M2; exact Nk|..]; (apply (apart (-2) 2 s o s' ad O) || apply (apart (-2) 2 v ov s' ad O')); clear;
        first [exists (-2); split; [lia|ring] | exists (-1); split; [lia|ring] | exists 0; split; [lia|ring] | exists 1; split; [lia|ring]].
  Qed.
End call.
