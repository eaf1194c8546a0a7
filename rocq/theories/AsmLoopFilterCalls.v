(** Calls of the vector loop filter across horizontal edges. *)
From Verif Require Import Base MVModel RasterModel PredictProofs VarianceModel SimdModel SimdProofs AsmLoopFilterModel AsmLoopFilterProofs.
From Verif Require LoopFilterModel.
From Verif Require Import PropLoopFilter AsmLoopFilterLanes.

Ltac aside :=
  repeat match goal with H : forall i : nat, _ |- _ => clear H end;
  solve [unfold zlen; cbn [length map seq firstn bytes B]; lia | lia | intros _; lia].

(** Rewriting a lane to what it was computed from. *)
Ltac from_memory :=
  repeat match goal with
  | I : (?i < 16)%nat |- context [put ?m ?k ?o ?f ?k ?a] =>
      first [ rewrite (put_in m k o f a i I) by ring | rewrite (put_out m k o f k a) by (right; clear - I; lia) ]
  | |- context [put ?m ?k ?o ?f ?s ?a] => rewrite (put_out m k o f s a) by (left; assumption)
  end.
Ltac expand := repeat match goal with E : forall i : nat, ?x i = _ |- context [?x ?j] => rewrite (E j); from_memory end.

Section call.
  Variables (L : layout) (k s : nat) (o st : Z) (bl : nat) (bo : Z) (li : nat) (lo : Z) (th : nat) (to : Z) (m : nat -> Z -> Z) (a b c d e f : Z).
  Variables (I E T : Z).
  Hypotheses (N1 : s <> k) (N2 : bl <> k) (N3 : li <> k) (N4 : th <> k).
  Hypotheses (X1 : extent L k = 160) (X2 : base L k = 16 * f).
  Hypotheses (S1 : 16 <= st) (S2 : st = 16 * b) (S3 : base L s + o = 16 * a) (S4 : 4 * st <= o) (S5 : o + 3 * st + 16 <= extent L s).
  Hypotheses (B1 : 0 <= bo) (B2 : bo + 16 <= extent L bl) (B3 : base L bl + bo = 16 * c).
  Hypotheses (L1 : 0 <= lo) (L2 : lo + 16 <= extent L li) (L3 : base L li + lo = 16 * d).
  Hypotheses (T1 : 0 <= to) (T2 : to + 16 <= extent L th) (T3 : base L th + to = 16 * e).
  Hypothesis BM : forall x, byte_ok (m s x).
  Hypothesis HI : 0 <= I <= 127.
  Hypothesis HE : 0 <= E < 255.
  Hypothesis HT : 0 <= T.
  Hypothesis LI : forall i, 0 <= i < 16 -> m li (lo + i) = I.
  Hypothesis LE : forall i, 0 <= i < 16 -> m bl (bo + i) = E.
  Hypothesis LT : forall i, 0 <= i < 16 -> m th (to + i) = T.

  Let C (i : nat) (n : Z) : Z := m s (o + n * st + Z.of_nat i).

  Lemma at_C : forall i n x, x = o + n * st + Z.of_nat i -> m s x = C i n.
  Proof. intros; subst; reflexivity. Qed.

  Ltac to_C i :=
    repeat match goal with |- context [m s ?x] =>
      first [rewrite (at_C i 0 x) by ring | rewrite (at_C i (-1) x) by ring | rewrite (at_C i (-2) x) by ring | rewrite (at_C i 1 x) by ring
            |rewrite (at_C i (-3) x) by ring | rewrite (at_C i 2 x) by ring | rewrite (at_C i (-4) x) by ring | rewrite (at_C i 3 x) by ring] end.
  Lemma C_byte : forall i n, byte_ok (C i n).
  Proof. intros. apply BM. Qed.
  Lemma limit_at : forall i x, (i < 16)%nat -> x = lo + 0 + Z.of_nat i -> m li x = I.
  Proof. intros i x Hi ->. rewrite Z.add_0_r. apply LI. lia. Qed.
  Lemma blimit_at : forall i x, (i < 16)%nat -> x = bo + 0 + Z.of_nat i -> m bl x = E.
  Proof. intros i x Hi ->. rewrite Z.add_0_r. apply LE. lia. Qed.
  Lemma thresh_at : forall i x, (i < 16)%nat -> x = to + 0 + Z.of_nat i -> m th x = T.
  Proof. intros i x Hi ->. rewrite Z.add_0_r. apply LT. lia. Qed.

  Local Notation masks := (lane_masks C I E T).
  Local Notation value := (lane_value C).
  Local Notation high := (lane_high C I E T).
  Local Notation low := (lane_low C I E T).
  Local Notation split_values := (lane_split_values C I E T).
  Local Notation tapped := (lane_tapped C I E T).
  Local Notation out := (lane_out C I E T).
  (** Reading back what was stored: the rows are apart. *)
  Ltac from_memory_s :=
    repeat match goal with
    | Hi : (?i < 16)%nat |- context [put ?mm ?kk ?p ?f ?kk ?x] =>
        first [ rewrite (put_in mm kk p f x i Hi) by ring | rewrite (put_out mm kk p f kk x) by (right; clear - Hi S1; lia) ]
    end.
  Ltac drop := repeat match goal with H : forall i : nat, ?x i = _ |- _ => clear H end.

  Definition edge_written (lowest : Z) (n : Z) (g : nat -> Z -> Z) (m' : nat -> Z -> Z) : Prop :=
    (forall i j, (i < 16)%nat -> lowest <= j < n -> m' s (o + j * st + Z.of_nat i) = g i j) /\
    (forall s' x, s' <> k -> s' <> s \/ (forall j i, lowest <= j < n -> 0 <= i < 16 -> x <> o + j * st + i) -> m' s' x = m s' x).

  Lemma mbh_y_ok : exists m', edge_call k L mbh_y (Ptr s o) st (Ptr bl bo) (Ptr li lo) (Ptr th to) (Int 0) m = Some m' /\ edge_written (-3) 3 out m'.
  Proof.
    unfold edge_call, call_from, run_blocks, entry. cbn [repeat set_nth rsp].
    unfold mbh_y, lfh. cbv [app lfh_below lfh_1 lfh_above lfh_2 lfh_middle lfh_3 mb_outer mb_taps mb_outer_again mb_sums mb_write].
    do 77 lstep ltac:(aside).
    match goal with |- context [mkMachine _ (B ?q0 :: B ?mk :: _ :: _ :: B ?hv :: B ?ex :: B ?p0 :: _) _] =>
      assert (F : masks mk hv ex q0 p0) end.
    { intros i Hi. 
      match goal with Ew : forall k, ?w k = s16 (Z.shiftr (word (?x (2 * k)%nat) (?x (2 * k + 1)%nat) mod 65536) 1), Ex : forall i, ?x i = Z.land (?y i) 254 |- _ =>
        assert (HH : byte_of w i = Z.abs (C i (-2) - C i 1) / 2);
        [rewrite (halves y x w i Hi);
         [expand; to_C i; rewrite lor_excess; reflexivity
         |intros j J; expand; to_C j; rewrite lor_excess; pose proof (C_byte j (-2)); pose proof (C_byte j 1); unfold byte_ok in *; lia
         |intros j J; apply Ex
         |exact Ew]|] end.
      expand. rewrite HH. to_C i. rewrite !(limit_at i), !(blimit_at i), !(thresh_at i) by (assumption || lia).
      rewrite !lor_excess, !Z.eqb_refl. 
      pose proof (C_byte i) as R.
      destruct (mask_lane I E (C i (-4)) (C i (-3)) (C i (-2)) (C i (-1)) (C i 0) (C i 1) (C i 2) (C i 3) (proj2 HE) (R (-1)) (R 0) (R (-2)) (R 1)) as [ML ME].
      split; [exact ML|]. split; [|split; [|split; [|split; reflexivity]]].
      - intros V. unfold vmask in V. apply Z.eqb_eq in V. rewrite (ME V).
        destruct (filter_mask_cases I E (C i (-4)) (C i (-3)) (C i (-2)) (C i (-1)) (C i 0) (C i 1) (C i 2) (C i 3)) as [(Sm & _)|(_ & Z0)]; [|rewrite V in Z0; discriminate Z0].
        apply (hev_lane I T (C i (-2)) (C i (-1)) (C i 0) (C i 1)); [exact HT|apply HI|apply Sm|apply Sm].
      - match goal with |- Z.lxor (if ?b then _ else _) _ = _ \/ _ => destruct b end; [left|right]; reflexivity.
      - clear - HE. unfold byte_ok. lia. }
    drop.
    match goal with |- context [mkMachine _ _ ?mm] => assert (M2 : forall s' x, s' <> k -> mm s' x = m s' x) by (intros; rewrite !put_out by (left; assumption); reflexivity);
      revert M2; generalize mm; intros m2 M2 end.
    do 20 lstep ltac:(aside).
    match goal with |- context [mkMachine _ (B ?z :: _ :: B ?h :: B ?q0 :: B ?l :: _ :: B ?p0 :: B ?q1 :: _) _] =>
      assert (G : split_values z h l q0 p0 q1) end.
    { intros i Hi. destruct (F i Hi) as (F1 & F2 & F3 & _ & F5 & F6). pose proof (C_byte i) as R.
      expand. rewrite !M2 by assumption. to_C i. rewrite F1, F5, F6.
      destruct (gate (vmask I E (C i)) (vhev T (C i)) _ _ F2 F3 (lo8_sat_byte (s8 (lo8 (sat8 (s8 (lo8 (sat8 (s8 (lo8 (sat8 (s8 (Z.lxor (C i (-2)) 128) - s8 (Z.lxor (C i 1) 128)))) + s8 (lo8 (sat8 (s8 (Z.lxor (C i 0) 128) - s8 (Z.lxor (C i (-1)) 128))))))) + s8 (lo8 (sat8 (s8 (Z.lxor (C i 0) 128) - s8 (Z.lxor (C i (-1)) 128))))))) + s8 (lo8 (sat8 (s8 (Z.lxor (C i 0) 128) - s8 (Z.lxor (C i (-1)) 128))))))) as [G1 G2].
      rewrite G1, G2. rewrite !s8_lo8, !lxor_80 by apply R. rewrite three_adds by apply c8_range.
      do 5 (split; [reflexivity|]). apply lxor_80_byte, R. }
    drop.
    do 44 lstep ltac:(aside).
    match goal with |- context [mkMachine _ (B ?a9 :: _ :: B ?a18 :: B ?q0 :: _ :: B ?a27 :: B ?p0 :: B ?t :: _) _] =>
      assert (H : tapped t a9 a18 a27 q0 p0) end.
    { assert (G8 : forall j, (j < 8)%nat -> (j < 16)%nat) by (intros; lia). assert (G16 : forall j, (j < 8)%nat -> (8 + j < 16)%nat) by (intros; lia).
      intros i Hi. destruct (G i Hi) as (_ & _ & _ & GQ & GP & _).
      split; [expand; reflexivity|].
      split; [|split; [|split; [|split]]].
      - match goal with X : forall i, ?x i = lo8 (sat8 (join ?f ?g i)) |- s8 (?x i) = _ => rewrite X, s8_lo8, (join_ok f g (fun i => (low i * 9 + 63) / 128) i Hi) end; [reflexivity|..];
          intros j J; expand; [destruct (G _ (G8 j J)) as (-> & _ & GL & _)|destruct (G _ (G16 j J)) as (_ & _ & GL & _)];
          rewrite times9, tap9, GL; reflexivity.
      - match goal with X : forall i, ?x i = lo8 (sat8 (join ?f ?g i)) |- s8 (?x i) = _ => rewrite X, s8_lo8, (join_ok f g (fun i => (low i * 18 + 63) / 128) i Hi) end; [reflexivity|..];
          intros j J; expand; [destruct (G _ (G8 j J)) as (-> & _ & GL & _)|destruct (G _ (G16 j J)) as (_ & _ & GL & _)];
          rewrite times9, tap18, GL; reflexivity.
      - match goal with X : forall i, ?x i = lo8 (sat8 (join ?f ?g i)) |- s8 (?x i) = _ => rewrite X, s8_lo8, (join_ok f g (fun i => (low i * 27 + 63) / 128) i Hi) end; [reflexivity|..];
          intros j J; expand; [destruct (G _ (G8 j J)) as (-> & _ & GL & _)|destruct (G _ (G16 j J)) as (_ & _ & GL & _)];
          rewrite times9, tap27, GL; reflexivity.
      - match goal with X : forall i, ?y i = lo8 (sat8 (s8 (_ i) - s8 (?x i))), X2 : forall i, ?x i = lo8 (sat8 (join ?f ?g i)) |- s8 (?y i) = _ =>
          rewrite X, s8_lo8, GQ, X2, s8_lo8, (join_ok f g (fun i => c8 (high i + 4) / 8) i Hi) end; [rewrite c8_eighth; reflexivity|..];
          intros j J; expand; [destruct (G _ (G8 j J)) as (_ & GH & _)|destruct (G _ (G16 j J)) as (_ & GH & _)];
          rewrite eighth_lane by (apply lo8_sat_byte || apply byte_of_byte); rewrite GH; reflexivity.
      - match goal with X : forall i, ?y i = lo8 (sat8 (s8 (_ i) + s8 (?x i))), X2 : forall i, ?x i = lo8 (sat8 (join ?f ?g i)) |- s8 (?y i) = _ =>
          rewrite X, s8_lo8, GP, X2, s8_lo8, (join_ok f g (fun i => c8 (high i + 3) / 8) i Hi) end; [rewrite c8_eighth; reflexivity|..];
          intros j J; expand; [destruct (G _ (G8 j J)) as (_ & GH & _)|destruct (G _ (G16 j J)) as (_ & GH & _ & _ & _ & GB)];
          rewrite eighth_lane by (apply lo8_sat_byte || exact GB); rewrite GH; reflexivity. }
    drop.
    do 26 lstep ltac:(aside).
    cbn [run obind mem]. eexists. split; [reflexivity|]. split.
    - intros i j Hi J. destruct (H i Hi) as (H0 & H1 & H2 & H3 & H4 & H5). pose proof (C_byte i) as R.
      destruct (lane_out_values C I E T C_byte i) as (O1 & O2 & O3 & O4 & O5 & O6).
      assert (j = -3 \/ j = -2 \/ j = -1 \/ j = 0 \/ j = 1 \/ j = 2) as [-> |[-> |[-> |[-> |[-> | ->]]]]] by lia;
        from_memory_s; expand; rewrite ?M2 by assumption; to_C i; rewrite ?H0, ?lxor_back, ?lxor_80, ?H1, ?H2, ?H3, ?H4, ?H5 by apply R; assumption.
    - intros s' ad Nk O. rewrite !put_out; [apply M2; exact Nk|..];
        (destruct O as [O|O]; [left; exact O|right];
         match goal with |- ad < ?p \/ ?p + 16 <= ad => destruct (Z_lt_ge_dec ad p) as [Lt|Ge]; [left; exact Lt|];
           destruct (Z_le_gt_dec (p + 16) ad) as [Le|Gt]; [right; exact Le|]; exfalso;
           first [apply (O (-3) (ad - p)); [lia|clear - Ge Gt; lia|ring] | apply (O (-2) (ad - p)); [lia|clear - Ge Gt; lia|ring]
                 |apply (O (-1) (ad - p)); [lia|clear - Ge Gt; lia|ring] | apply (O 0 (ad - p)); [lia|clear - Ge Gt; lia|ring]
                 |apply (O 1 (ad - p)); [lia|clear - Ge Gt; lia|ring] | apply (O 2 (ad - p)); [lia|clear - Ge Gt; lia|ring]] end).
  Qed.
End call.
