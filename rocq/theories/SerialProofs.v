(** Facts about SerialModel.v. *)
From Verif Require Import Base MBModel MBProofs BoolEncProofs FrameModel ChunkModel ChunkProofs PropChunk RasterModel RasterProofs LoopFilterModel PropLoopFilter ReconModel ReconProofs PropPicture StateModel StateProofs SerialModel.

Lemma put_le n : forall v, put n v = le_bytes n v.
Proof.
  induction n as [|n IH]; intros v; cbn [put le_bytes]; [reflexivity|]. rewrite IH.
  change 255 with (Z.ones 8). rewrite Z.land_ones, Z.shiftr_div_pow2 by lia. reflexivity.
Qed.
Lemma put_length n v : length (put n v) = n.
Proof. rewrite put_le. apply le_bytes_length. Qed.

Lemma be_value_app l l' : forall a, be_value (l ++ l') a = be_value l' (be_value l a).
Proof. induction l as [|b l IH]; intros a; cbn [app be_value]; [reflexivity|apply IH]. Qed.
Lemma be_value_le l : bytes_ok l -> be_value (rev l) 0 = le_value l.
Proof.
  intros H. induction H as [|b l B H IH]; [reflexivity|]. cbn [rev le_value]. rewrite be_value_app, IH. cbn [be_value].
  unfold byte_ok in B. rewrite Z.shiftl_mul_pow2 by lia. change (2 ^ 8) with 256.
  assert (0 <= le_value l) as L by (clear - H; induction H as [|c l C H IH]; cbn [le_value]; unfold byte_ok in *; lia).
  rewrite <- Z.lxor_lor, <- Z.add_nocarry_lxor.
  - lia.
  - apply Z.bits_inj'. intros k Hk. rewrite Z.land_spec, Z.bits_0. destruct (Z_lt_le_dec k 8).
    + change 256 with (2 ^ 8). rewrite Z.mul_pow2_bits_low by lia. reflexivity.
    + rewrite andb_comm. rewrite (Z.bits_above_log2 b k); [reflexivity|lia|]. destruct (Z.eq_dec b 0) as [-> |]; [cbn; lia|].
      apply (Z.lt_le_trans _ 8); [|lia]. apply Z.log2_lt_pow2; lia.
  - apply Z.bits_inj'. intros k Hk. rewrite Z.land_spec, Z.bits_0. destruct (Z_lt_le_dec k 8).
    + change 256 with (2 ^ 8). rewrite Z.mul_pow2_bits_low by lia. reflexivity.
    + rewrite andb_comm. rewrite (Z.bits_above_log2 b k); [reflexivity|lia|]. destruct (Z.eq_dec b 0) as [-> |]; [cbn; lia|].
      apply (Z.lt_le_trans _ 8); [|lia]. apply Z.log2_lt_pow2; lia.
Qed.

(** [m] reads exactly these bytes, whatever follows, and gives [a]. *)
Definition reads {A} (m : des A) (b : list Z) (a : A) : Prop := forall rest, m (b ++ rest) = Ok (a, rest).

Lemma reads_ret {A} (a : A) : reads (dret a) [] a.
Proof. intros rest. reflexivity. Qed.
Lemma reads_bind {A B} (m : des A) (k : A -> des B) b1 b2 a r : reads m b1 a -> reads (k a) b2 r -> reads (dbind m k) (b1 ++ b2) r.
Proof. intros H1 H2 rest. unfold dbind. rewrite <- app_assoc, H1. cbn [rbind]. apply H2. Qed.
Lemma reads_last {A B} (m : des A) (k : A -> des B) b a r : reads m b a -> reads (k a) [] r -> reads (dbind m k) b r.
Proof. intros H1 H2 rest. unfold dbind. rewrite H1. apply H2. Qed.
Lemma reads_first {A B} (m : des A) (k : A -> des B) b a r : reads m [] a -> reads (k a) b r -> reads (dbind m k) b r.
Proof. intros H1 H2. exact (reads_bind m k [] b a r H1 H2). Qed.
Lemma reads_assert b : b = true -> reads (dassert b) [] tt.
Proof. intros ->. apply reads_ret. Qed.
Lemma reads_get n v : 0 <= v < 2 ^ (8 * Z.of_nat n) -> reads (get n) (put n v) v.
Proof.
  intros H rest. unfold get. rewrite app_length, put_length. destruct (_ <? _)%nat eqn:E; [lia|].
  pose proof (put_length n v) as L.
  rewrite firstn_app, skipn_app, L, Nat.sub_diag. cbn [firstn skipn]. rewrite app_nil_r, firstn_all2, skipn_all2 by lia. cbn [app].
  rewrite put_le, be_value_le by apply le_bytes_ok. rewrite le_value_bytes, Z.mod_small by lia. reflexivity.
Qed.
Lemma reads_tag t : byte_ok t -> reads get_tag [t] t.
Proof.
  intros H. unfold byte_ok in H. replace [t] with (put 1 t); [apply (reads_get 1); change (2 ^ (8 * Z.of_nat 1)) with 256; lia|].
  rewrite put_le. cbn [le_bytes]. rewrite Z.mod_small by lia. reflexivity.
Qed.
Lemma reads_bytes l : bytes_ok l -> forall n, n = length l -> reads (get_bytes n) l l.
Proof.
  intros H. induction H as [|b l B H IH]; intros n ->; [apply reads_ret|]. cbn [length get_bytes].
  change (b :: l) with ([b] ++ l) at 1. apply (reads_bind _ _ [b] l b); [apply reads_tag; exact B|].
  eapply reads_last; [apply IH; reflexivity|]. apply reads_ret.
Qed.
Lemma reads_int8s l : Forall int8 l -> forall n, n = length l -> reads (get_int8s n) (map (wrap 8) l) l.
Proof.
  intros H n Hn. unfold get_int8s. apply (reads_last _ _ _ (map (wrap 8) l)).
  - apply reads_bytes; [|rewrite map_length; exact Hn]. apply Forall_forall. intros b Hb. apply in_map_iff in Hb. destruct Hb as (v & <- & _).
    unfold byte_ok, wrap. change (2 ^ 8) with 256. lia.
  - rewrite map_map. replace (map (fun x => s8 (wrap 8 x)) l) with l; [apply reads_ret|].
    clear Hn. induction H as [|v l V H IH]; [reflexivity|]. cbn [map]. f_equal; [|exact IH]. unfold int8 in V. unfold s8, wrap. change (2 ^ 8) with 256. lia.
Qed.
Lemma reads_optional {A} (m : des A) f o : (forall a, o = Some a -> reads m (fst (f a)) a) -> reads (get_optional m) (fst (put_optional f o)) o.
Proof.
  intros H. unfold get_optional, put_optional. destruct o as [a|].
  - specialize (H a eq_refl). destruct (f a) as [b n]. cbn [fst] in *. change (OPT_FULL :: b) with ([OPT_FULL] ++ b).
    eapply reads_bind; [apply reads_tag; unfold byte_ok, OPT_FULL; lia|]. change (OPT_FULL =? OPT_FULL) with true. cbv iota.
    eapply reads_last; [exact H|]. apply reads_ret.
  - change [OPT_EMPTY] with ([OPT_EMPTY] ++ []). eapply reads_bind; [apply reads_tag; unfold byte_ok, OPT_EMPTY; lia|]. apply reads_ret.
Qed.

(** One step of a reader over concatenated parts. *)
Ltac rstep := match goal with
  | |- reads (dbind (dassert _) _) ?b _ => eapply reads_first; [apply reads_assert|cbv beta]
  | |- reads (dbind _ _) (_ ++ _) _ => eapply reads_bind; [|cbv beta]
  | |- reads (dbind _ _) ?b _ => eapply reads_last; [|cbv beta]
  end.

Lemma prob_bytes l : Forall prob_ok l -> bytes_ok l.
Proof. intros H. eapply Forall_impl; [|exact H]. intros a. unfold prob_ok, byte_ok. lia. Qed.

Lemma reads_tables pt : pt_good pt -> reads get_tables (fst (put_tables pt)) pt.
Proof.
  intros [(P1 & P2 & P3 & P4) (L1 & L2 & L3 & L4)]. unfold get_tables, put_tables. cbv zeta. cbn [fst].
  match goal with |- reads _ (PROB_TABLE :: ?r) _ => change (PROB_TABLE :: r) with ([PROB_TABLE] ++ r) end.
  rstep; [apply reads_tag; unfold byte_ok, PROB_TABLE; lia|]. rstep; [reflexivity|].
  rstep; [apply (reads_get 4); change (2 ^ (8 * Z.of_nat 4)) with (2 ^ 32); lia|]. rstep; [reflexivity|].
  rstep; [apply reads_bytes; [apply prob_bytes; exact P1|rewrite L1; reflexivity]|].
  rstep; [apply reads_bytes; [apply prob_bytes; exact P3|rewrite L3; reflexivity]|].
  rstep; [apply reads_bytes; [apply prob_bytes; exact P4|rewrite L4; reflexivity]|].
  rstep; [apply reads_bytes; [apply prob_bytes; exact P2|rewrite L2; reflexivity]|].
  destruct pt; apply reads_ret.
Qed.

Lemma reads_adjustments a : fa_good a -> reads get_adjustments (fst (put_adjustments a)) a.
Proof.
  intros [L1 L2 I1 I2]. unfold get_adjustments, put_adjustments. cbv zeta. cbn [fst].
  match goal with |- reads _ (FILT_ADJ :: ?r) _ => change (FILT_ADJ :: r) with ([FILT_ADJ] ++ r) end.
  rstep; [apply reads_tag; unfold byte_ok, FILT_ADJ; lia|]. rstep; [reflexivity|].
  rstep; [apply (reads_get 4); change (2 ^ (8 * Z.of_nat 4)) with (2 ^ 32); lia|]. rstep; [reflexivity|].
  rstep; [apply reads_int8s; [exact I1|congruence]|]. rstep; [apply reads_int8s; [exact I2|congruence]|].
  destruct a; apply reads_ret.
Qed.

Lemma segment_bytes w h s : seg_good w h s -> bytes_ok (pl_px (sg_map s)).
Proof. intros G. eapply Forall_impl; [|exact (sgg_m _ _ _ G)]. intros a. unfold byte_ok. lia. Qed.

Lemma reads_segmentation w h s : 0 < w <= 16383 -> 0 < h <= 16383 -> seg_good w h s -> reads get_segmentation (fst (put_segmentation s)) s.
Proof.
  intros Hw Hh G. pose proof (segment_bytes w h s G) as B. destruct G as [L1 L2 I1 I2 (S1 & S2 & S3) <- <- M]. unfold get_segmentation, put_segmentation. cbv zeta. cbn [fst].
  set (w := pl_w (sg_map s)) in *. set (h := pl_h (sg_map s)) in *.
  assert (0 < w * h < 2 ^ 28) as A by nia.
  match goal with |- reads _ (?t :: ?r) _ => change (t :: r) with ([t] ++ r) end.
  rstep; [apply reads_tag; unfold byte_ok, SEGM_ABS, SEGM_REL; destruct (sg_absolute s); lia|].
  rstep; [destruct (sg_absolute s); reflexivity|].
  rstep; [apply (reads_get 4); change (2 ^ (8 * Z.of_nat 4)) with (2 ^ 32); unfold wrap; lia|].
  rstep; [apply (reads_get 2); change (2 ^ (8 * Z.of_nat 2)) with 65536; lia|].
  rstep; [apply (reads_get 2); change (2 ^ (8 * Z.of_nat 2)) with 65536; lia|].
  replace (2 ^ 31 <=? w * h) with false by lia.
  eapply reads_first; [apply reads_ret|cbv beta].
  rstep; [lia|]. rstep; [lia|].
  rstep; [apply reads_int8s; [exact I1|congruence]|]. rstep; [apply reads_int8s; [exact I2|congruence]|].
  rstep; [apply reads_bytes; [exact B|fold w h in S3; unfold zlen in S3; lia]|].
  replace ((if sg_absolute s then SEGM_ABS else SEGM_REL) =? SEGM_ABS) with (sg_absolute s) by (destruct (sg_absolute s); reflexivity).
  subst w h. destruct s as [ab q f [w h px]]; apply reads_ret.
Qed.

(** ** Sizes *)

Lemma zlen_app' {A} (a b : list A) : zlen (a ++ b) = zlen a + zlen b.
Proof. unfold zlen. rewrite app_length. lia. Qed.
Lemma zlen_cons' {A} (x : A) l : zlen (x :: l) = 1 + zlen l.
Proof. unfold zlen. cbn [length]. lia. Qed.
Lemma zlen_put n v : zlen (put n v) = Z.of_nat n.
Proof. unfold zlen. rewrite put_length. reflexivity. Qed.
Lemma zlen_map {A B} (f : A -> B) l : zlen (map f l) = zlen l.
Proof. unfold zlen. rewrite map_length. reflexivity. Qed.
Lemma zlen_nil {A} : zlen (@nil A) = 0.
Proof. reflexivity. Qed.
Lemma zlen_is {A} (l : list A) n : length l = n -> zlen l = Z.of_nat n.
Proof. unfold zlen. intros ->. reflexivity. Qed.
Ltac sizes := repeat first [rewrite zlen_app' | rewrite zlen_cons' | rewrite zlen_put | rewrite zlen_map | rewrite zlen_nil].

Lemma tables_size pt : pt_shape pt -> zlen (fst (put_tables pt)) = 1106 /\ snd (put_tables pt) = 1106.
Proof.
  intros (L1 & L2 & L3 & L4). unfold put_tables. cbv zeta. cbn [fst snd]. sizes.
  rewrite (zlen_is _ _ L1), (zlen_is _ _ L2), (zlen_is _ _ L3), (zlen_is _ _ L4). split; reflexivity.
Qed.
Lemma adjustments_size a : fa_good a -> zlen (fst (put_adjustments a)) = 13 /\ snd (put_adjustments a) = 13.
Proof. intros [L1 L2 _ _]. unfold put_adjustments. cbv zeta. cbn [fst snd]. sizes. rewrite (zlen_is _ _ L1), (zlen_is _ _ L2). split; reflexivity. Qed.
Lemma segmentation_size w h s : 0 < w <= 16383 -> 0 < h <= 16383 -> seg_good w h s ->
  zlen (fst (put_segmentation s)) = 17 + w * h /\ snd (put_segmentation s) = 17 + w * h.
Proof.
  intros Hw Hh [L1 L2 _ _ (_ & _ & S3) E1 E2 _]. unfold put_segmentation. cbv zeta. cbn [fst snd]. sizes. rewrite (zlen_is _ _ L1), (zlen_is _ _ L2), S3, E1, E2.
  assert (0 < w * h < 2 ^ 28) by nia. split; [lia|]. unfold wrap. lia.
Qed.
Lemma optional_size {A} (f : A -> ser) o b : 0 <= b -> (forall a, o = Some a -> zlen (fst (f a)) = snd (f a) /\ 0 <= snd (f a) <= b) ->
  zlen (fst (put_optional f o)) = snd (put_optional f o) + 1 /\ 0 <= snd (put_optional f o) <= b.
Proof.
  intros Hb H. destruct o as [a|]; cbn [put_optional]; [|cbn [fst snd]; split; [reflexivity|lia]]. specialize (H a eq_refl). destruct (f a) as [l n]. cbn [fst snd] in *.
  rewrite zlen_cons'. lia.
Qed.

Lemma state_size w h s : 0 < w <= 16383 -> 0 < h <= 16383 -> state_good w h s ->
  zlen (fst (put_state s)) = snd (put_state s) /\ snd (put_state s) <= 2 ^ 29.
Proof.
  intros Hw Hh [E1 E2 [_ GP] GS GF]. unfold put_state.
  destruct (tables_size _ GP) as [T1 T2]. destruct (put_tables (ds_pt s)) as [t tn]. cbn [fst snd] in T1, T2.
  assert (0 < w * h < 2 ^ 28) by nia.
  destruct (optional_size put_segmentation (ds_seg s) (17 + w * h)) as [S1 S2]; [lia| |].
  { intros g Eg. destruct (segmentation_size w h g Hw Hh (GS g Eg)). lia. }
  destruct (put_optional put_segmentation (ds_seg s)) as [g gn]. cbn [fst snd] in S1, S2.
  destruct (optional_size put_adjustments (ds_fa s) 13) as [F1 F2]; [lia| |].
  { intros a Ea. destruct (adjustments_size a (GF a Ea)). lia. }
  destruct (put_optional put_adjustments (ds_fa s)) as [a an]. cbn [fst snd] in F1, F2. cbv zeta. cbn [fst snd]. sizes.
  rewrite T1, S1, F1. unfold wrap. lia.
Qed.

Lemma at_least {B} n (k : des B) b r : n <= zlen b -> reads k b r -> reads (dbind remaining (fun rem => dbind (dassert (n <=? rem)) (fun _ => k))) b r.
Proof.
  intros H K rest. unfold dbind, remaining. cbn [rbind]. rewrite zlen_app'. pose proof (zlen_nonneg rest).
  replace (n <=? zlen b + zlen rest) with true by lia. cbn [dassert dret rbind]. apply K.
Qed.

Lemma reads_state w h s : 0 < w <= 16383 -> 0 < h <= 16383 -> state_good w h s -> reads get_state (fst (put_state s)) s.
Proof.
  intros Hw Hh G. destruct (state_size w h s Hw Hh G) as [Z1 Z2]. pose proof G as [E1 E2 GP GS GF].
  unfold put_state in *.
  pose proof (reads_tables _ GP) as R1. destruct (put_tables (ds_pt s)) as [t tn]. cbn [fst] in R1.
  assert (reads (get_optional get_segmentation) (fst (put_optional put_segmentation (ds_seg s))) (ds_seg s)) as R2.
  { apply reads_optional. intros g Eg. apply (reads_segmentation w h); auto. }
  destruct (put_optional put_segmentation (ds_seg s)) as [g gn]. cbn [fst] in R2.
  assert (reads (get_optional get_adjustments) (fst (put_optional put_adjustments (ds_fa s))) (ds_fa s)) as R3.
  { apply reads_optional. intros a Ea. apply reads_adjustments; auto. }
  destruct (put_optional put_adjustments (ds_fa s)) as [a an]. cbn [fst] in R3. cbv zeta in *. cbn [fst snd] in *.
  set (len := wrap 32 (4 + tn + gn + 1 + an + 1)) in *.
  assert (0 <= len < 2 ^ 32) as LL by (unfold len, wrap; lia).
  revert Z1. sizes. intros Z1. unfold get_state.
  match goal with |- reads _ (?t :: ?r) _ => change (t :: r) with ([t] ++ r) end.
  rstep; [apply reads_tag; unfold byte_ok, DECODER_STATE; lia|]. rstep; [reflexivity|].
  rstep; [apply (reads_get 4); change (2 ^ (8 * Z.of_nat 4)) with (2 ^ 32); lia|].
  apply at_least; [sizes; clearbody len; pose proof (zlen_nonneg t); pose proof (zlen_nonneg g); pose proof (zlen_nonneg a); unfold wrap in Z1; lia|].
  rstep; [apply (reads_get 2); change (2 ^ (8 * Z.of_nat 2)) with 65536; lia|].
  rstep; [apply (reads_get 2); change (2 ^ (8 * Z.of_nat 2)) with 65536; lia|].
  rstep; [exact R1|]. rstep; [exact R2|]. rstep; [exact R3|]. destruct s; apply reads_ret.
Qed.

(** ** Pictures *)

Lemma raster_dims w h r : 0 < w <= 16383 -> 0 < h <= 16383 -> raster_for w h r ->
  exists mw mh, 0 < mw <= 1024 /\ 0 < mh <= 1024 /\ mw = Z.of_nat (mb_dim w) /\ mh = Z.of_nat (mb_dim h) /\
  pl_w (ra_y r) = 16 * mw /\ pl_h (ra_y r) = 16 * mh /\ pl_w (ra_u r) = 8 * mw /\ pl_h (ra_u r) = 8 * mh /\ pl_w (ra_v r) = 8 * mw /\ pl_h (ra_v r) = 8 * mh /\
  zlen (pl_px (ra_y r)) = 256 * (mw * mh) /\ zlen (pl_px (ra_u r)) = 64 * (mw * mh) /\ zlen (pl_px (ra_v r)) = 64 * (mw * mh) /\
  bytes_ok (pl_px (ra_y r)) /\ bytes_ok (pl_px (ra_u r)) /\ bytes_ok (pl_px (ra_v r)).
Proof.
  intros Hw Hh (R & _ & _). exists (Z.of_nat (mb_dim w)), (Z.of_nat (mb_dim h)). apply raster_sized in R.
  destruct R as ((((Y1 & Y2 & Y3) & YB) & YW & YH) & (((U1 & U2 & U3) & UB) & UW & UH) & (((V1 & V2 & V3) & VB) & VW & VH)).
  assert (0 < Z.of_nat (mb_dim w) <= 1024) by (unfold mb_dim; lia). assert (0 < Z.of_nat (mb_dim h) <= 1024) by (unfold mb_dim; lia).
  rewrite YW, YH in Y3. rewrite UW, UH in U3. rewrite VW, VH in V3.
  repeat (split; [first [assumption | reflexivity | lia]|]). assumption.
Qed.

Lemma reads_peek {B} t (k : Z -> des B) b r : reads (k t) (t :: b) r -> reads (dbind peek_tag k) (t :: b) r.
Proof. intros H rest. unfold dbind. cbn [app peek_tag rbind]. exact (H rest). Qed.

Lemma raster_size w h r t : 0 < w <= 16383 -> 0 < h <= 16383 -> raster_for w h r ->
  zlen (fst (put_raster r t)) = snd (put_raster r t) /\ 5 <= snd (put_raster r t) <= 2 ^ 29.
Proof.
  intros Hw Hh R. destruct (raster_dims w h r Hw Hh R) as (mw & mh & B1 & B2 & _ & _ & D1 & D2 & _ & _ & _ & _ & Z1 & Z2 & Z3 & _).
  unfold put_raster. cbv zeta. cbn [fst snd]. sizes. rewrite Z1, Z2, Z3, D1, D2.
  replace (16 * mw / 2) with (8 * mw) by lia. replace (16 * mh / 2) with (8 * mh) by lia.
  assert (0 < mw * mh <= 2 ^ 20) as A by nia.
  replace (16 * mw * (16 * mh) + 2 * (8 * mw) * (8 * mh)) with (384 * (mw * mh)) by ring.
  generalize dependent (mw * mh). intros k _ _ _ A. unfold wrap. lia.
Qed.

Lemma reads_ref pool w h r p : 0 < w <= 16383 -> 0 < h <= 16383 -> raster_for w h r -> pool w h = Some p -> raster_for w h p ->
  reads (get_ref pool REF_LAST w h) (fst (put_raster r REF_LAST)) r.
Proof.
  intros Hw Hh R HP RP. unfold get_ref. rewrite HP.
  destruct (raster_dims w h r Hw Hh R) as (mw & mh & B1 & B2 & Em & En & D1 & D2 & D3 & D4 & D5 & D6 & Z1 & Z2 & Z3 & Y1 & Y2 & Y3).
  destruct (raster_dims w h p Hw Hh RP) as (mw' & mh' & _ & _ & Em' & En' & P1 & P2 & P3 & P4 & P5 & P6 & _).
  assert (mw' = mw) as Q1 by congruence. assert (mh' = mh) as Q2 by congruence. rewrite Q1 in P1, P3, P5. rewrite Q2 in P2, P4, P6.
  destruct R as (_ & W & HH), RP as (_ & W' & HH').
  unfold put_raster. cbv zeta. cbn [fst]. apply reads_peek. change (REF_LAST =? REF_LAST) with true. cbv iota.
  match goal with |- reads _ (?t :: ?r) _ => change (t :: r) with ([t] ++ r) end.
  rstep; [apply reads_tag; unfold byte_ok, REF_LAST; lia|].
  rstep; [apply (reads_get 4); change (2 ^ (8 * Z.of_nat 4)) with (2 ^ 32); unfold wrap; lia|].
  rewrite P1, P2, P3, P4, P5, P6, D1, D2.
  rstep; [apply Z.eqb_refl|].
  rstep; [eapply reads_last; [apply reads_bytes; [exact Y1|]|apply reads_ret]|].
  { unfold zlen in Z1. replace (16 * mw * (16 * mh)) with (256 * (mw * mh)) by ring. lia. }
  rstep; [eapply reads_last; [apply reads_bytes; [exact Y2|]|apply reads_ret]|].
  { unfold zlen in Z2. replace (8 * mw * (8 * mh)) with (64 * (mw * mh)) by ring. lia. }
  rstep; [eapply reads_last; [apply reads_bytes; [exact Y3|]|apply reads_ret]|].
  { unfold zlen in Z3. replace (8 * mw * (8 * mh)) with (64 * (mw * mh)) by ring. lia. }
  rewrite W', HH', <- W, <- HH. clear Em En Em' En' Q1 Q2 P1 P2 P3 P4 P5 P6 Z1 Z2 Z3 Y1 Y2 Y3 B1 B2 HP.
  destruct r as [dw dh [yw yh yp] [uw uh up] [vw vh vp]]. cbn [ra_dw ra_dh ra_y ra_u ra_v pl_w pl_h pl_px] in *. subst. apply reads_ret.
Qed.

Lemma references_size w h d : 0 < w <= 16383 -> 0 < h <= 16383 -> raster_for w h (rf_last d) ->
  zlen (fst (put_references d)) = snd (put_references d) /\ 0 <= snd (put_references d) <= 2 ^ 30.
Proof.
  intros Hw Hh R. destruct (raster_size w h _ REF_LAST Hw Hh R) as [A B]. unfold put_references.
  destruct (put_raster (rf_last d) REF_LAST) as [b n]. cbn [fst snd] in *. cbv zeta. cbn [fst snd]. sizes. rewrite A. unfold wrap. lia.
Qed.

Lemma reads_references pool w h refs p : 0 < w <= 16383 -> 0 < h <= 16383 -> raster_for w h (rf_last refs) -> pool w h = Some p -> raster_for w h p ->
  reads (get_references pool) (fst (put_references refs)) (mkRefs (rf_last refs) (rf_last refs) (rf_last refs)).
Proof.
  intros Hw Hh R HP RP. pose proof (reads_ref pool w h _ p Hw Hh R HP RP) as RR.
  destruct (raster_size w h _ REF_LAST Hw Hh R) as [A B]. destruct R as (_ & W & H).
  unfold put_references, get_references. destruct (put_raster (rf_last refs) REF_LAST) as [b n]. cbn [fst snd] in *. cbv zeta. cbn [fst].
  match goal with |- reads _ (?t :: ?r) _ => change (t :: r) with ([t] ++ r) end.
  rstep; [apply reads_tag; unfold byte_ok, REFERENCES; lia|]. rstep; [reflexivity|].
  rstep; [apply (reads_get 4); change (2 ^ (8 * Z.of_nat 4)) with (2 ^ 32); unfold wrap; lia|].
  apply at_least; [sizes; unfold wrap; lia|]. rewrite W, H.
  rstep; [apply (reads_get 2); change (2 ^ (8 * Z.of_nat 2)) with 65536; lia|].
  rstep; [apply (reads_get 2); change (2 ^ (8 * Z.of_nat 2)) with 65536; lia|].
  rstep; [exact RR|]. apply reads_ret.
Qed.

Theorem import_export pool w h d p : 0 < w <= 16383 -> 0 < h <= 16383 -> decoder_good w h d -> pool w h = Some p -> raster_for w h p ->
  import pool (export d) = Ok (mkDecoder (dc_state d) (mkRefs (rf_last (dc_refs d)) (rf_last (dc_refs d)) (rf_last (dc_refs d))) false).
Proof.
  intros Hw Hh [GS GL _ _] HP RP. unfold export, import.
  pose proof (reads_state w h _ Hw Hh GS) as R1. destruct (state_size w h _ Hw Hh GS) as [Z1 B1].
  destruct (put_state (dc_state d)) as [s sn]. cbn [fst snd] in *.
  pose proof (reads_references pool w h _ p Hw Hh GL HP RP) as R2. destruct (references_size w h _ Hw Hh GL) as [Z2 B2].
  destruct (put_references (dc_refs d)) as [r rn]. cbn [fst snd] in *.
  pose proof (zlen_nonneg s) as N.
  change (DECODER :: put 4 (wrap 32 (sn + rn)) ++ s ++ r) with ([DECODER] ++ put 4 (wrap 32 (sn + rn)) ++ s ++ r).
  unfold dbind. rewrite reads_tag by (unfold byte_ok, DECODER; lia). cbn [rbind]. change (DECODER =? DECODER) with true. cbn [dassert dret rbind].
  rewrite (reads_get 4) by (change (2 ^ (8 * Z.of_nat 4)) with (2 ^ 32); unfold wrap; lia). cbn [rbind]. unfold remaining. cbn [rbind].
  rewrite zlen_app'. replace (wrap 32 (sn + rn) =? zlen s + zlen r) with true by (unfold wrap; lia). cbn [dassert dret rbind].
  rewrite R1. cbn [rbind]. rewrite <- (app_nil_r r), R2. reflexivity.
Qed.

(** ** Fingerprints *)

(** Two inputs of one evaluation of [combine] that collide. *)
Definition collision (combine : Z -> Z -> Z) : Prop := exists a b a' b', (a, b) <> (a', b') /\ combine a b = combine a' b'.

Lemma combine_split combine a b a' b' : combine a b = combine a' b' -> a = a' /\ b = b' \/ collision combine.
Proof.
  intros E. destruct (Z.eq_dec a a') as [<- |N]; [destruct (Z.eq_dec b b') as [<- |N]; [left; split; reflexivity|]|];
    right; [exists a, b, a, b'|exists a, b, a', b']; (split; [congruence|exact E]).
Qed.
Lemma range_split combine l : forall l' s s', length l = length l' -> hash_range combine s l = hash_range combine s' l' -> s = s' /\ l = l' \/ collision combine.
Proof.
  induction l as [|x l IH]; intros [|x' l'] s s' L E; try discriminate; [left; split; [exact E|reflexivity]|]. injection L as L.
  cbn [hash_range fold_left] in E. destruct (IH l' _ _ L E) as [[A ->]|C]; [|right; exact C].
  destruct (combine_split _ _ _ _ _ A) as [[-> ->]|C]; [left; split; reflexivity|right; exact C].
Qed.
