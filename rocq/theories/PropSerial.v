(** Properties C26, C27 (key frames and frames that refresh all references)
    and C29: export, import and fingerprints of decoders. *)
From Verif Require Import Base BoolCoderModel ParserModel HeaderModel HeaderProofs MBModel MBProofs ChunkModel ContainerModel FrameModel.
From Verif Require Import RasterModel RasterProofs LoopFilterModel PropLoopFilter ReconModel ReconProofs PropPicture StateModel StateProofs PropState SerialModel SerialProofs.

(** A pool that has a picture of the right size, with any contents. *)
Definition pool_has (w h : Z) (pool : Z -> Z -> option raster) : Prop := exists p, pool w h = Some p /\ raster_for w h p.

(** ** C26 *)

(** What comes back: the state and three times the last picture. *)
Theorem C26_import_export :
  forall w h d pool, 0 < w <= 16383 -> 0 < h <= 16383 -> decoder_good w h d -> pool_has w h pool ->
  exists d', import pool (export d) = Ok d' /\ decoder_good w h d' /\ dc_state d' = dc_state d /\
    rf_last (dc_refs d') = rf_last (dc_refs d) /\ rf_golden (dc_refs d') = rf_last (dc_refs d) /\ rf_alt (dc_refs d') = rf_last (dc_refs d) /\
    dc_conceal d' = false.
Proof.
  intros w h d pool Hw Hh G (p & HP & RP). rewrite (import_export pool w h d p Hw Hh G HP RP). eexists. split; [reflexivity|].
  destruct G as [GS GL GG GA]. split; [constructor; assumption|]. repeat split; reflexivity.
Qed.

(** The very same decoder comes back exactly if it had only one picture (and
    error concealment was off). *)
Theorem C26_lossless_iff :
  forall w h d pool, 0 < w <= 16383 -> 0 < h <= 16383 -> decoder_good w h d -> pool_has w h pool ->
  (import pool (export d) = Ok d <-> rf_golden (dc_refs d) = rf_last (dc_refs d) /\ rf_alt (dc_refs d) = rf_last (dc_refs d) /\ dc_conceal d = false).
Proof.
  intros w h d pool Hw Hh G (p & HP & RP). rewrite (import_export pool w h d p Hw Hh G HP RP).
  destruct d as [s [l g a] c]. cbn [dc_state dc_refs dc_conceal rf_last rf_golden rf_alt]. split.
  - intros E. injection E as <- <- <-. auto.
  - intros (-> & -> & ->). reflexivity.
Qed.

(** Decoders that differ in what is exported have different files. *)
Theorem C26_export_injective :
  forall w h d1 d2, 0 < w <= 16383 -> 0 < h <= 16383 -> decoder_good w h d1 -> decoder_good w h d2 -> export d1 = export d2 ->
  dc_state d1 = dc_state d2 /\ rf_last (dc_refs d1) = rf_last (dc_refs d2).
Proof.
  intros w h d1 d2 Hw Hh G1 G2 E. set (pool := fun (_ _ : Z) => Some (rf_last (dc_refs d1))).
  assert (pool_has w h pool) as P by (exists (rf_last (dc_refs d1)); split; [reflexivity|exact (dcg_l _ _ _ G1)]).
  destruct (C26_import_export w h d1 pool Hw Hh G1 P) as (a & A & _ & A1 & A2 & _).
  destruct (C26_import_export w h d2 pool Hw Hh G2 P) as (b & B & _ & B1 & B2 & _).
  rewrite E, B in A. injection A as <-. split; congruence.
Qed.

(** A reader that gives the same on a longer input, and leaves the rest. *)
Definition extends {A} (m : des A) : Prop :=
  forall l x r e, m l = Ok (x, r) -> m (l ++ e) = Ok (x, r ++ e).

Lemma extends_ret {A} (a : A) : extends (dret a).
Proof. intros l x r e H. unfold dret in *. congruence. Qed.
Lemma extends_err {A} e : extends (@derr A e).
Proof. intros l x r e' H. discriminate. Qed.
Lemma extends_bind {A B} (m : des A) (k : A -> des B) : extends m -> (forall a, extends (k a)) -> extends (dbind m k).
Proof.
  intros Hm Hk l x r e H. unfold dbind in *. destruct (m l) as [[a l']|] eqn:E; cbn [rbind] in *; [|discriminate].
  rewrite (Hm l a l' e E). cbn [rbind]. apply Hk, H.
Qed.
Lemma extends_assert b : extends (dassert b).
Proof. destruct b; [apply extends_ret|apply extends_err]. Qed.
Lemma extends_get n : extends (get n).
Proof.
  intros l x r e H. unfold get in *. destruct (length l <? n)%nat eqn:E; [discriminate|]. injection H as <- <-.
  rewrite app_length. replace (length l + length e <? n)%nat with false by lia.
  rewrite firstn_app, skipn_app. replace (n - length l)%nat with 0%nat by lia. cbn [firstn skipn]. rewrite app_nil_r. reflexivity.
Qed.
Lemma extends_get_bytes n : extends (get_bytes n).
Proof.
  induction n as [|n IH]; cbn [get_bytes]; [apply extends_ret|].
  apply extends_bind; [apply extends_get|intros b]. apply extends_bind; [exact IH|intros r]. apply extends_ret.
Qed.
Lemma extends_within {A} len (k : des A) : extends k -> extends (dbind remaining (fun rem => dbind (dassert (len <=? rem)) (fun _ => k))).
Proof.
  intros Hk l x r e H. unfold dbind, remaining in *. cbn [rbind] in *. rewrite zlen_app'. assert (0 <= zlen e) by (unfold zlen; lia).
  destruct (len <=? zlen l) eqn:E; cbn [dassert] in H; [|discriminate]. replace (len <=? zlen l + zlen e) with true by lia.
  cbn [dassert dret rbind] in *. apply Hk, H.
Qed.
Ltac extends_tac := repeat (first [apply extends_ret | apply extends_err | apply extends_assert | apply extends_get | apply extends_get_bytes
  | apply extends_within | apply extends_bind; [|intros ?] | match goal with |- extends (if ?b then _ else _) => destruct b end]).
Lemma extends_int8s n : extends (get_int8s n). Proof. unfold get_int8s. extends_tac. Qed.
Lemma extends_tables : extends get_tables.
Proof. unfold get_tables, get_tag. extends_tac. Qed.
Lemma extends_optional {A} (m : des A) : extends m -> extends (get_optional m).
Proof. intros H. unfold get_optional, get_tag. extends_tac. exact H. Qed.
Lemma extends_segmentation : extends get_segmentation.
Proof. unfold get_segmentation, get_tag. extends_tac; apply extends_int8s. Qed.
Lemma extends_adjustments : extends get_adjustments.
Proof. unfold get_adjustments, get_tag. extends_tac; apply extends_int8s. Qed.
Lemma extends_state : extends get_state.
Proof.
  unfold get_state, get_tag.
  do 3 (apply extends_bind; [first [apply extends_get|apply extends_assert]|intros ?]). apply extends_within.
  do 2 (apply extends_bind; [apply extends_get|intros ?]).
  apply extends_bind; [exact extends_tables|intros ?].
  apply extends_bind; [exact (extends_optional _ extends_segmentation)|intros ?].
  apply extends_bind; [exact (extends_optional _ extends_adjustments)|intros ?]. apply extends_ret.
Qed.
Lemma extends_peek : extends peek_tag.
Proof. intros [|b l] x r e H; [discriminate|]. unfold peek_tag in *. injection H as <- <-. reflexivity. Qed.
Lemma extends_references pool : extends (get_references pool).
Proof.
  unfold get_references, get_tag. extends_tac. unfold get_ref. destruct (pool _ _); [|apply extends_err]. unfold get_tag.
  apply extends_bind; [apply extends_peek|intros ?]. extends_tac.
Qed.

(** Truncated or padded files are not accepted: if a body is, no proper
    extension of it is, whatever the five bytes before it say. *)
Theorem C26_exact_length :
  forall pool hdr hdr' body extra d, length hdr = 5%nat -> length hdr' = 5%nat -> extra <> [] ->
  import pool (hdr ++ body) = Ok d ->
  exists e, import pool (hdr' ++ body ++ extra) = Err e.
Proof.
  intros pool hdr hdr' body extra d L L' Hx H.
  destruct hdr as [|a [|b0 [|b1 [|b2 [|b3 [|]]]]]]; try discriminate. clear L.
  destruct hdr' as [|a' [|c0 [|c1 [|c2 [|c3 [|]]]]]]; try discriminate. clear L'.
  assert (T : forall x l, get_tag (x :: l) = Ok (x, l)) by (intros x l; unfold get_tag, get; cbn; reflexivity).
  assert (F : forall x y z t l, get 4 (x :: y :: z :: t :: l) = Ok (be_value [t; z; y; x] 0, l)) by reflexivity.
  unfold import, dbind in *. cbn [app] in *. rewrite T in *. cbn [rbind] in *.
  destruct (a =? DECODER); [|discriminate]. cbn [dassert dret rbind] in H.
  destruct (a' =? DECODER); [|eexists; reflexivity]. cbn [dassert dret rbind].
  rewrite F in *. cbn [rbind remaining dassert] in *.
  destruct (_ =? zlen body); [|discriminate]. cbn [dassert dret rbind] in H.
  destruct (_ =? zlen (body ++ extra)); [|eexists; reflexivity]. cbn [dassert dret rbind].
  destruct (get_state body) as [[s l]|] eqn:Es; [|discriminate]. cbn [rbind] in H. rewrite (extends_state _ _ _ extra Es). cbn [rbind].
  destruct (get_references pool l) as [[r l']|] eqn:Er; [|discriminate]. cbn [rbind] in H. rewrite (extends_references pool _ _ _ extra Er). cbn [rbind].
  rewrite zlen_app'. assert (0 <= zlen l') by (unfold zlen; lia).
  assert (0 < zlen extra) by (destruct extra; [congruence|]; rewrite zlen_cons'; unfold zlen; lia).
  replace (zlen l' + zlen extra =? 0) with false by lia. cbn. eauto.
Qed.
(** ** C27 *)

(** A frame that leaves one picture in all three places. *)
Definition leaves_one_picture (d : decoder) (c : chunk) : Prop :=
  exists u, uncompressed_chunk c (ds_w (dc_state d)) (ds_h (dc_state d)) (dc_conceal d) = Ok u /\
    (uc_key u = true \/
     uc_key u = false /\ if_refresh_last (inter_header u) = true /\ if_refresh_golden (inter_header u) = true /\ if_refresh_alternate (inter_header u) = true).

Theorem C27_hand_over :
  forall w h d l scratch shown r pool rest, 0 < w <= 16383 -> 0 < h <= 16383 -> decoder_good w h d -> dc_conceal d = false ->
  bytes_ok l -> zlen l < 2 ^ 64 -> raster_for w h scratch -> leaves_one_picture d (chunk_of l) -> pool_has w h pool ->
  forall d', get_frame_output d (chunk_of l) scratch = (d', Output shown r) ->
  import pool (export d') = Ok d' /\
  (forall d2, import pool (export d') = Ok d2 -> run_frames d2 rest = run_frames d' rest).
Proof.
  intros w h d l scratch shown r pool rest Hw Hh G HC B L R (u & EU & K) P d' E.
  destruct (chunk_of_ok l B L) as [CO CB].
  destruct (step_good w h d (chunk_of l) Hw Hh G CO CB) as (d1 & o & G' & EC & _ & S). rewrite (S scratch R) in E. injection E as -> ->.
  assert (dc_refs d' = mkRefs r r r) as ER.
  { specialize (S scratch R). destruct K as [K|(K & K1 & K2 & K3)].
    - exact (C23_references_after_key_frame _ _ _ _ _ _ _ EU K S).
    - pose proof (C23_references_after_inter_frame _ _ _ _ _ _ _ EU K S) as H. cbv zeta in H. rewrite K1, K2, K3 in H.
      destruct H as (H1 & H2 & H3). destruct (dc_refs d') as [a1 a2 a3]. cbn in *. congruence. }
  assert (import pool (export d') = Ok d') as I.
  { apply (C26_lossless_iff w h d' pool Hw Hh G' P). rewrite ER. cbn [rf_last rf_golden rf_alt]. split; [reflexivity|]. split; [reflexivity|congruence]. }
  split; [exact I|]. intros d2 E'. rewrite I in E'. injection E' as <-. reflexivity.
Qed.

(** ** C29 *)

Lemma pair_smaller p q x y : 0 <= p < q -> 2 ^ p * (2 * x + 1) = 2 ^ q * (2 * y + 1) -> False.
Proof.
  intros H E. assert (2 ^ q = 2 ^ p * (2 * 2 ^ (q - p - 1))) as EQ.
  { rewrite <- (Z.pow_succ_r 2 (q - p - 1)) by lia. rewrite <- Z.pow_add_r by lia. f_equal. lia. }
  rewrite EQ, <- Z.mul_assoc in E. apply Z.mul_cancel_l in E; [|apply Z.pow_nonzero; lia]. generalize dependent (2 ^ (q - p - 1)). intros z E _. lia.
Qed.
Lemma pair_injective p q x y : 0 <= p -> 0 <= q -> 2 ^ p * (2 * x + 1) = 2 ^ q * (2 * y + 1) -> p = q /\ x = y.
Proof.
  intros Hp Hq E. destruct (Z.lt_trichotomy p q) as [L|[<-|L]]; [destruct (pair_smaller p q x y ltac:(lia) E)| |destruct (pair_smaller q p y x ltac:(lia) (eq_sym E))].
  apply Z.mul_cancel_l in E; [|apply Z.pow_nonzero; lia]. lia.
Qed.

(** A perfect hash: no two inputs collide and no input gives 0. *)
Definition fold_sign (x : Z) : Z := Z.abs x * 2 + (if x <? 0 then 1 else 0).
Definition pairing (a b : Z) : Z := 2 ^ fold_sign a * (2 * fold_sign b + 1).
Lemma pairing_perfect : ~ collision pairing /\ forall a b, pairing a b <> 0.
Proof.
  assert (INJ : forall x y, fold_sign x = fold_sign y -> x = y) by (unfold fold_sign; intros x y; destruct (x <? 0) eqn:?, (y <? 0) eqn:?; lia).
  assert (NN : forall x, 0 <= fold_sign x) by (unfold fold_sign; intros x; destruct (x <? 0); lia).
  split.
  - intros (a & b & a' & b' & N & E). apply N. destruct (pair_injective _ _ _ _ (NN a) (NN a') E) as [P Q]. f_equal; apply INJ; assumption.
  - intros a b. unfold pairing. pose proof (NN b). pose proof (Z.pow_pos_nonneg 2 (fold_sign a) ltac:(lia) (NN a)). nia.
Qed.

Lemma hash_without_modes combine w h pt sg ref mode mode' :
  hash_state combine (mkDS w h pt sg (Some (mkFA ref mode))) = hash_state combine (mkDS w h pt sg (Some (mkFA ref mode'))).
Proof. reflexivity. Qed.

(** As stated, the property is false: the mode adjustments never reach the
    hash. *)
Theorem C29_mode_adjustments_refuted :
  ~ (forall (combine : Z -> Z -> Z) w h s s', state_good w h s -> state_good w h s' -> ds_fa s <> ds_fa s' ->
     hash_state combine s = hash_state combine s' -> collision combine).
Proof.
  intros H. apply (proj1 pairing_perfect).
  apply (H pairing 16 16 (mkDS 16 16 default_pt None (Some (mkFA [0; 0; 0; 0] [1; 0; 0; 0]))) (mkDS 16 16 default_pt None (Some (mkFA [0; 0; 0; 0] [2; 0; 0; 0])))).
  - constructor; try reflexivity; [apply default_pt_good|intros ? ?; discriminate|]. apply o_ok_some. constructor; cbn; try reflexivity; repeat constructor; unfold int8; lia.
  - constructor; try reflexivity; [apply default_pt_good|intros ? ?; discriminate|]. apply o_ok_some. constructor; cbn; try reflexivity; repeat constructor; unfold int8; lia.
  - discriminate.
  - apply hash_without_modes.
Qed.

(** Everything else does: equal fingerprints mean equal states apart from the
    mode adjustments, or two colliding inputs of the hash, or inputs that hash
    to the initial value 0. *)
Definition hits_seed (combine : Z -> Z -> Z) : Prop := exists a b, combine a b = 0.

Lemma range_same combine l : forall l', hash_range combine 0 l = hash_range combine 0 l' -> l = l' \/ collision combine \/ hits_seed combine.
Proof.
  induction l as [|x l IH] using rev_ind; intros l'; destruct l' as [|y' l''] eqn:EL.
  - left. reflexivity.
  - destruct (@exists_last _ (y' :: l'') ltac:(discriminate)) as (k & y & ->). unfold hash_range. rewrite fold_left_app. cbn [fold_left].
    intros E. right. right. exists (fold_left combine k 0), y. symmetry. exact E.
  - unfold hash_range. rewrite fold_left_app. cbn [fold_left]. intros E. right. right. eexists _, _. exact E.
  - destruct (@exists_last _ (y' :: l'') ltac:(discriminate)) as (k & y & ->). unfold hash_range. rewrite !fold_left_app. cbn [fold_left]. intros E.
    destruct (combine_split _ _ _ _ _ E) as [[A ->]|C]; [|right; left; exact C].
    destruct (IH k A) as [->|C]; [left; reflexivity|right; exact C].
Qed.

Lemma app_same {A} (a b a' b' : list A) : length a = length a' -> a ++ b = a' ++ b' -> a = a' /\ b = b'.
Proof.
  revert a'. induction a as [|x a IH]; intros [|x' a'] L E; try discriminate; [auto|]. injection L as L. cbn [app] in E. injection E as -> E.
  destruct (IH a' L E) as [-> ->]. auto.
Qed.

Lemma tables_same combine pt pt' : pt_shape pt -> pt_shape pt' -> hash_tables combine pt = hash_tables combine pt' ->
  pt = pt' \/ collision combine \/ hits_seed combine.
Proof.
  intros (A1 & A2 & A3 & A4) (B1 & B2 & B3 & B4) E. unfold hash_tables, hash_range in E. cbv zeta in E. rewrite <- !fold_left_app in E.
  destruct (range_same combine _ _ E) as [S|C]; [|right; exact C]. left.
  rewrite <- ?app_assoc in S.
  apply app_same in S; [|congruence]. destruct S as [S1 S]. apply app_same in S; [|congruence]. destruct S as [S2 S].
  apply app_same in S; [|congruence]. destruct S as [S3 S4]. destruct pt, pt'; cbn in *; congruence.
Qed.

Lemma segmentation_same combine w h g g' : seg_good w h g -> seg_good w h g' -> hash_segmentation combine g = hash_segmentation combine g' ->
  g = g' \/ collision combine \/ hits_seed combine.
Proof.
  intros [A1 A2 _ _ (_ & _ & A3) A4 A5 _] [B1 B2 _ _ (_ & _ & B3) B4 B5 _] E. unfold hash_segmentation, hash_range in E. cbv zeta in E. rewrite <- !fold_left_app in E.
  change (combine 0 (b2z (sg_absolute g))) with (fold_left combine [b2z (sg_absolute g)] 0) in E.
  change (combine 0 (b2z (sg_absolute g'))) with (fold_left combine [b2z (sg_absolute g')] 0) in E. rewrite <- !fold_left_app in E.
  destruct (range_same combine _ _ E) as [S|C]; [|right; exact C]. left.
  apply app_same in S; [|reflexivity]. destruct S as [S0 S]. rewrite <- ?app_assoc in S.
  apply app_same in S; [|congruence]. destruct S as [S1 S]. apply app_same in S; [|congruence]. destruct S as [S2 S3].
  destruct g as [ab q f [mw mh px]], g' as [ab' q' f' [mw' mh' px']]. cbn in *. assert (ab = ab') by (destruct ab, ab'; try reflexivity; discriminate). congruence.
Qed.

(** The hash of a state as the hash of a list. *)
Definition parts combine (s : DecoderState) : list Z :=
  [ds_w s; ds_h s; hash_tables combine (ds_pt s)] ++
  (match ds_seg s with Some g => [hash_segmentation combine g] | None => [] end) ++
  (match ds_fa s with Some a => [hash_adjustments combine a] | None => [] end).
Lemma hash_parts combine s : hash_state combine s = hash_range combine 0 (parts combine s).
Proof. unfold hash_state, parts, hash_range. destruct (ds_seg s), (ds_fa s); reflexivity. Qed.

(** A segmentation's list is never as short as a filter adjustment's. *)
Lemma seg_not_fa combine w h g a : seg_good w h g -> fa_good a -> hash_segmentation combine g = hash_adjustments combine a -> collision combine \/ hits_seed combine.
Proof.
  intros [A1 A2 _ _ _ _ _ _] [B1 _ _ _] E. unfold hash_segmentation, hash_adjustments, hash_range in E. cbv zeta in E. rewrite <- !fold_left_app in E.
  change (combine 0 (b2z (sg_absolute g))) with (fold_left combine [b2z (sg_absolute g)] 0) in E. rewrite <- !fold_left_app in E.
  destruct (range_same combine _ _ E) as [S|C]; [|exact C]. apply (f_equal (@length Z)) in S. rewrite !app_length in S. cbn [length] in S. lia.
Qed.

Theorem C29_fingerprint :
  forall combine w h w' h' s s', state_good w h s -> state_good w' h' s' -> hash_state combine s = hash_state combine s' ->
  (ds_w s = ds_w s' /\ ds_h s = ds_h s' /\ ds_pt s = ds_pt s' /\ ds_seg s = ds_seg s' /\ option_map fa_ref (ds_fa s) = option_map fa_ref (ds_fa s')) \/
  collision combine \/ hits_seed combine.
Proof.
  intros combine w h w' h' s s' [W H [_ P] GS GF] [W' H' [_ P'] GS' GF'] E. rewrite !hash_parts in E.
  destruct (range_same combine _ _ E) as [S|C]; [|right; exact C]. unfold parts in S. cbn [app] in S. injection S as E1 E2 E3 S.
  destruct (tables_same combine _ _ P P' E3) as [EP|C]; [|right; exact C].
  assert (w' = w) as -> by congruence. assert (h' = h) as -> by congruence.
  destruct (ds_seg s) as [g|], (ds_seg s') as [g'|], (ds_fa s) as [a|], (ds_fa s') as [a'|]; cbn [app] in S; try discriminate.
  all: try (injection S as S).
  all: try match goal with X : hash_segmentation _ ?x = hash_segmentation _ ?y |- _ =>
         destruct (segmentation_same combine w h _ _ (GS _ eq_refl) (GS' _ eq_refl) X) as [<-|C]; [|right; exact C] end.
  all: try match goal with X : hash_segmentation _ ?x = hash_adjustments _ ?y |- _ =>
         right; solve [exact (seg_not_fa combine w h _ _ (GS _ eq_refl) (GF' _ eq_refl) X)] end.
  all: try match goal with X : hash_adjustments _ ?x = hash_segmentation _ ?y |- _ =>
         right; solve [exact (seg_not_fa combine w h _ _ (GS' _ eq_refl) (GF _ eq_refl) (eq_sym X))] end.
  all: try match goal with X : hash_adjustments _ ?x = hash_adjustments _ ?y |- _ =>
         destruct (range_same combine _ _ X) as [EF|C]; [|right; exact C] end.
  all: left; repeat (split; [assumption || reflexivity|]); cbn [option_map]; congruence.
Qed.

(** The fingerprint of a whole decoder. *)
Theorem C29_decoder_fingerprint :
  forall combine w h d d', decoder_good w h d -> decoder_good w h d' -> get_hash combine d = get_hash combine d' ->
  (ds_pt (dc_state d) = ds_pt (dc_state d') /\ ds_seg (dc_state d) = ds_seg (dc_state d') /\
   option_map fa_ref (ds_fa (dc_state d)) = option_map fa_ref (ds_fa (dc_state d')) /\ dc_refs d = dc_refs d') \/
  collision combine \/ hits_seed combine.
Proof.
  intros combine w h d d' [GS GL GG GA] [GS' GL' GG' GA'] E. unfold get_hash in E. injection E as E1 E2 E3 E4.
  destruct (C29_fingerprint combine _ _ _ _ _ _ GS GS' E1) as [(_ & _ & A & B & C)|X]; [|right; exact X].
  assert (RS : forall r r', raster_for w h r -> raster_for w h r' -> hash_raster combine r = hash_raster combine r' -> r = r' \/ collision combine \/ hits_seed combine).
  { intros r r' (R & D1 & D2) (R' & D1' & D2') E. unfold hash_raster, hash_range in E. cbv zeta in E. rewrite <- !fold_left_app in E.
    destruct (range_same combine _ _ E) as [S|X]; [|right; exact X]. left. rewrite <- ?app_assoc in S.
    apply raster_sized in R, R'. destruct R as ((((_ & _ & L1) & _) & Y1 & Y2) & (((_ & _ & L2) & _) & U1 & U2) & (_ & V1 & V2)).
    destruct R' as ((((_ & _ & L1') & _) & Y1' & Y2') & (((_ & _ & L2') & _) & U1' & U2') & (_ & V1' & V2')).
    apply app_same in S; [|unfold zlen in L1, L1'; rewrite Y1, Y2 in L1; rewrite Y1', Y2' in L1'; lia]. destruct S as [S1 S].
    apply app_same in S; [|unfold zlen in L2, L2'; rewrite U1, U2 in L2; rewrite U1', U2' in L2'; lia]. destruct S as [S2 S3].
    destruct r as [? ? [? ? ?] [? ? ?] [? ? ?]], r' as [? ? [? ? ?] [? ? ?] [? ? ?]]. cbn in *. congruence. }
  destruct (RS _ _ GL GL' E2) as [R1|X]; [|right; exact X]. destruct (RS _ _ GG GG' E3) as [R2|X]; [|right; exact X]. destruct (RS _ _ GA GA' E4) as [R3|X]; [|right; exact X].
  left. repeat (split; [assumption|]). destruct (dc_refs d), (dc_refs d'); cbn in *; congruence.
Qed.

(** The 32-bit fingerprint that the tools compare is allowed to be 0, and 0
    matches every decoder (decoder.cc l.522-529). *)
Theorem C29_zero_matches_everything :
  forall combine d other, minihash_match combine d other = true <-> other = 0 \/ wrap 32 (hash_of combine (get_hash combine d)) = other.
Proof. intros combine d other. unfold minihash_match, minihash. destruct (Z.eqb_spec other 0); [split; auto|]. rewrite Z.eqb_eq. split; [auto|]. intros [E|E]; [contradiction|exact E]. Qed.

(** ** Examples *)

Definition one_picture_pool : Z -> Z -> option raster := fun _ _ => Some (shaded 7).
Lemma one_picture_pool_has : pool_has 20 10 one_picture_pool.
Proof. exists (shaded 7). split; [reflexivity|apply shaded_for]. Qed.

(** The golden and alternate pictures of [decoder_two] are lost. *)
Example C26_example :
  decoder_good 20 10 decoder_two /\ pool_has 20 10 one_picture_pool /\
  match import one_picture_pool (export decoder_two) with
  | Ok d => (rf_golden (dc_refs d), ds_fa (dc_state d)) | Err _ => (shaded 0, None) end = (shaded 20, ds_fa (dc_state decoder_two)) /\
  rf_golden (dc_refs decoder_two) = shaded 30 /\ nth 0 (pl_px (ra_y (shaded 20))) 0 <> nth 0 (pl_px (ra_y (shaded 30))) 0.
Proof.
  split; [exact decoder_two_good|]. split; [exact one_picture_pool_has|]. split; [vm_compute; reflexivity|]. split; [reflexivity|]. vm_compute. discriminate.
Qed.

Example C26_exact_length_example :
  exists e, import one_picture_pool (firstn 5 (export decoder_two) ++ skipn 5 (export decoder_two) ++ [0]) = Err e.
Proof.
  destruct (import one_picture_pool (firstn 5 (export decoder_two) ++ skipn 5 (export decoder_two))) as [d|] eqn:E.
  - apply (C26_exact_length one_picture_pool (firstn 5 (export decoder_two)) _ (skipn 5 (export decoder_two)) [0] d);
      [reflexivity|reflexivity|discriminate|exact E].
  - rewrite firstn_skipn in E. destruct (C26_import_export 20 10 decoder_two one_picture_pool ltac:(lia) ltac:(lia) decoder_two_good one_picture_pool_has) as (d' & E' & _).
    congruence.
Qed.

Example C27_example :
  decoder_good 20 10 decoder_two /\ leaves_one_picture decoder_two (chunk_of key_bytes) /\
  pictures [snd (get_frame_output decoder_two (chunk_of key_bytes) (shaded 5))] = [true].
Proof.
  split; [exact decoder_two_good|]. split.
  - destruct (uncompressed_chunk (chunk_of key_bytes) 20 10 false) as [u|e] eqn:E.
    + exists u. split; [exact E|]. left. assert (match uncompressed_chunk (chunk_of key_bytes) 20 10 false with Ok u => uc_key u | Err _ => false end = true) as H by (vm_compute; reflexivity).
      rewrite E in H. exact H.
    + assert (match uncompressed_chunk (chunk_of key_bytes) 20 10 false with Ok _ => true | Err _ => false end = true) as H by (vm_compute; reflexivity).
      rewrite E in H. discriminate.
  - vm_compute. reflexivity.
Qed.

(** With the perfect hash, fingerprints tell states apart. *)
Example C29_example :
  state_good 20 10 (dc_state decoder_one) /\ state_good 20 10 (dc_state decoder_two) /\
  hash_state pairing (dc_state decoder_one) <> hash_state pairing (dc_state decoder_two).
Proof.
  split; [exact (dcg_s _ _ _ decoder_one_good)|]. split; [exact (dcg_s _ _ _ decoder_two_good)|]. intros E.
  destruct (C29_fingerprint pairing _ _ _ _ _ _ (dcg_s _ _ _ decoder_one_good) (dcg_s _ _ _ decoder_two_good) E) as [(_ & _ & _ & A & _)|[C|(a & b & C)]].
  - discriminate.
  - exact (proj1 pairing_perfect C).
  - exact (proj2 pairing_perfect a b C).
Qed.

Print Assumptions C26_import_export.
Print Assumptions C26_lossless_iff.
Print Assumptions C26_exact_length.
Print Assumptions C26_export_injective.
Print Assumptions C27_hand_over.
Print Assumptions C29_mode_adjustments_refuted.
Print Assumptions C29_fingerprint.
Print Assumptions C29_decoder_fingerprint.
Print Assumptions C29_zero_matches_everything.
