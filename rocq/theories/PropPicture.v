(** Property C54: decoding the picture of an accepted frame succeeds, stays
    inside the picture, gives bytes, and does not depend on what the recycled
    picture buffer held before. *)
From Verif Require Import Base BoolCoderModel Tables TreeModel HeaderModel MVModel MBModel TokenModel ChunkModel ContainerModel FrameModel.
From Verif Require Import QuantModel RasterModel TransformModel PredictModel LoopFilterModel ReconModel.
From Verif Require Import HeaderProofs MBProofs FrameProofs PropContainer PropMacroblocks PropFrame RasterProofs PropQuant PropLoopFilter ReconProofs.

(** ** Pictures of parsed frames *)

(** frame.hh: the members of KeyFrame and InterFrame that decode and
    loopfilter use; [ids] are the cached segment ids of the macroblocks. *)
Definition key_picture (W : nat) (hd : KeyFrameHeader) (ms : list mbinfo) (cs : list mbcoef) (ids : list Z) : picture :=
  mkPic true (kf_quant_indices hd) (kf_filter_type hd) (kf_loop_filter_level hd) (kf_sharpness_level hd) W (combine (combine ms cs) ids).
Definition inter_picture (W : nat) (hd : InterFrameHeader) (ms : list mbinfo) (cs : list mbcoef) (ids : list Z) : picture :=
  mkPic false (if_quant_indices hd) (if_filter_type hd) (if_loop_filter_level hd) (if_sharpness_level hd) W (combine (combine ms cs) ids).

(** Four adjustments each, of eight bits. *)
Definition segmentation_ok (s : Segmentation) : Prop :=
  length (sg_quant s) = 4%nat /\ length (sg_filter s) = 4%nat /\ Forall (fun a => -128 <= a <= 127) (sg_quant s).
Definition ids_ok (ids : list Z) : Prop := Forall (fun i => 0 <= i <= 3) ids.

(** What the picture of a frame needs. *)
Definition picture_ok (mw mh : Z) (refs : references) (pc : picture) : Prop :=
  Z.of_nat (pc_W pc) = mw /\ Z.of_nat (length (pc_mbs pc)) = mw * mh /\ 0 < mw <= 2 ^ 24 /\ 0 < mh <= 2 ^ 24 /\
  qi_ok (pc_qi pc) /\ pc_simple pc = false /\
  (pc_key pc = true -> Forall (fun '(m, c, id) => mb_inter m = false) (pc_mbs pc)) /\
  (pc_key pc = false -> refs_ok mw mh refs) /\
  Forall (fun '(m, c, id) => mb_ready m c /\ 0 <= id <= 3) (pc_mbs pc).

(** ** Frames *)

Lemma rstep_ofold {A} (f : raster -> A -> option raster) mw mh (S : nat -> raster -> raster -> Prop) (l : list A) : forall k,
  (forall i a, nth_error l i = Some a -> rstep (fun r => f r a) mw mh (S (k + i)%nat) (S (k + i + 1)%nat)) ->
  rstep (ofold f l) mw mh (S k) (S (k + length l)%nat).
Proof.
  induction l as [|a l IH]; intros k H r r' R1 R2 HS.
  - cbn [ofold length]. rewrite Nat.add_0_r. exists r, r'. auto.
  - cbn [ofold length]. pose proof (H 0%nat a eq_refl) as H0. rewrite Nat.add_0_r in H0.
    destruct (H0 r r' R1 R2 HS) as (s & s' & E1 & E2 & O1 & O2 & HS'). rewrite E1, E2. cbn [obind].
    replace (k + Datatypes.S (length l))%nat with ((k + 1) + length l)%nat by lia. apply IH; try assumption.
    intros i b Hb. specialize (H (Datatypes.S i) b Hb). replace (k + 1 + i)%nat with (k + Datatypes.S i)%nat by lia. exact H.
Qed.

Lemma indexed_nth {A} (l : list A) : forall i j a, nth_error (indexed l) i = Some (j, a) -> j = i /\ nth_error l i = Some a.
Proof.
  unfold indexed. intros i j a H.
  assert (G : forall (l : list A) s i j a, nth_error (combine (seq s (length l)) l) i = Some (j, a) -> j = (s + i)%nat /\ nth_error l i = Some a).
  { clear. induction l as [|b l IH]; intros s i j a H; [destruct i; discriminate|]. destruct i as [|i]; cbn in *.
    - injection H as <- <-. split; [lia|reflexivity].
    - destruct (IH _ _ _ _ H) as [-> E]. split; [lia|exact E]. }
  exact (G l 0%nat i j a H).
Qed.

Lemma quantizers_exist seg qi : qi_ok qi -> (forall s, seg = Some s -> segmentation_ok s) ->
  exists fq sq, make_quantizer qi = Some fq /\ segment_quantizers seg qi = Some sq /\
    forall id, 0 <= id <= 3 -> exists q, (match seg with Some _ => nth_error sq (Z.to_nat id) | None => Some fq end) = Some q.
Proof.
  intros HQ HS. destruct (C30_header_indices_qualify qi HQ) as [Q1 Q2].
  destruct (C30_quantizer qi Q1) as (fq & E & _). exists fq. unfold segment_quantizers. destruct seg as [s|].
  - destruct (HS s eq_refl) as (L & _ & F).
    assert (exists sq, omap (fun adj => make_quantizer (segment_indices (sg_absolute s) adj qi)) (sg_quant s) = Some sq /\ length sq = length (sg_quant s)) as (sq & E2 & L2).
    { clear L HS. induction F as [|a l Ha Hl IH]; [exists []; auto|]. destruct IH as (sq & E2 & L2).
      destruct (C30_quantizer _ (Q2 (sg_absolute s) a Ha)) as (q & E3 & _). exists (q :: sq). cbn [omap]. rewrite E3, E2. cbn. auto. }
    exists sq. split; [exact E|]. split; [exact E2|]. intros id Hid.
    destruct (nth_error sq (Z.to_nat id)) eqn:EN; [eauto|]. apply nth_error_None in EN. lia.
  - exists []. split; [exact E|]. split; [reflexivity|]. intros. exists fq. reflexivity.
Qed.

Definition raster_inv (W : nat) (i : nat) : raster -> raster -> Prop := ragree (column_of W i) (row_of W i).

Lemma agree_next mw mh n (W i : nat) p q : 0 < n -> (0 < W)%nat -> Z.of_nat W = mw -> sized (n * mw) (n * mh) p ->
  agree (done n (column_of W i + 1) (row_of W i)) p q -> agree (done n (column_of W (i + 1)) (row_of W (i + 1))) p q.
Proof.
  intros Hn HW EW Sp. apply (agree_impl (n * mw) (n * mh)); [exact Sp|]. intros x y Hx Hy. unfold done, column_of, row_of.
  assert (((i mod W + 1 < W)%nat /\ (i + 1) mod W = i mod W + 1 /\ (i + 1) / W = i / W)%nat \/
          ((i mod W + 1 = W)%nat /\ (i + 1) mod W = 0 /\ (i + 1) / W = i / W + 1)%nat) as [(A & B & C)|(A & B & C)].
  { pose proof (Nat.mod_upper_bound i W ltac:(lia)). pose proof (Nat.div_mod i W ltac:(lia)) as DM.
    destruct (Nat.eq_dec (i mod W + 1) W) as [e|e]; [right|left]; (split; [lia|]); split.
    - symmetry. apply (Nat.mod_unique _ _ (i / W + 1)); lia.
    - symmetry. apply (Nat.div_unique _ _ _ 0); lia.
    - symmetry. apply (Nat.mod_unique _ _ (i / W)); lia.
    - symmetry. apply (Nat.div_unique _ _ _ (i mod W + 1)); lia. }
  - rewrite B, C. generalize (i mod W)%nat (i / W)%nat. intros. lia.
  - rewrite B, C. revert A. generalize (i mod W)%nat (i / W)%nat. intros a b A. nia.
Qed.

Lemma inv_next mw mh W i r r' : (0 < W)%nat -> Z.of_nat W = mw -> raster_ok mw mh r ->
  ragree (column_of W i + 1) (row_of W i) r r' -> raster_inv W (i + 1) r r'.
Proof.
  intros HW EW Hr (D1 & D2 & A & B & C). apply raster_sized in Hr. destruct Hr as (Y & U & V).
  unfold raster_inv. split; [exact D1|]. split; [exact D2|].
  split; [|split]; [apply (agree_next mw mh 16 W i)|apply (agree_next mw mh 8 W i)|apply (agree_next mw mh 8 W i)]; assumption || lia.
Qed.

Lemma position_ok mw mh W n i : Z.of_nat W = mw -> 0 < mw -> Z.of_nat n = mw * mh -> (i < n)%nat ->
  0 <= column_of W i < mw /\ 0 <= row_of W i < mh.
Proof.
  intros EW HW En Hi. unfold column_of, row_of. pose proof (Nat.mod_upper_bound i W ltac:(lia)).
  pose proof (Nat.div_mod i W ltac:(lia)) as DM.
  generalize dependent (i mod W)%nat. generalize (i / W)%nat. intros a b Hb DM. split; [lia|]. split; [lia|].
  assert (Z.of_nat i = mw * Z.of_nat a + Z.of_nat b) by nia. nia.
Qed.

Lemma decode_step seg refs pc mw mh : picture_ok mw mh refs pc -> (forall s, seg = Some s -> segmentation_ok s) ->
  rstep (picture_decode seg refs pc) mw mh (fun r r' => ra_dw r = ra_dw r' /\ ra_dh r = ra_dh r') eq.
Proof.
  intros (EW & EL & Bw & Bh & HQ & _ & HK & HR & HM) HS r r' R1 R2 [D1 D2].
  destruct (quantizers_exist seg (pc_qi pc) HQ HS) as (fq & sq & E1 & E2 & Eq). unfold picture_decode. rewrite E1, E2. cbn [obind].
  assert (PW : (0 < pc_W pc)%nat) by lia.
  set (step := fun r '(i, (m, c, id)) => _).
  assert (ST : forall i a, nth_error (indexed (pc_mbs pc)) i = Some a ->
             rstep (fun r => step r a) mw mh (raster_inv (pc_W pc) (0 + i)%nat) (raster_inv (pc_W pc) (0 + i + 1)%nat)).
  { intros i [j [[m c] id]] Hi. apply indexed_nth in Hi. destruct Hi as [-> Hi].
    pose proof (proj1 (Forall_forall _ _) HM _ (nth_error_In _ _ Hi)) as [Hm Hid]. cbn [Nat.add].
    assert ((i < length (pc_mbs pc))%nat) as Li by (apply nth_error_Some; congruence).
    destruct (position_ok mw mh (pc_W pc) _ i EW ltac:(lia) EL Li) as [Hc Hr].
    intros s s' S1 S2 HI. unfold step. destruct (Eq id Hid) as (q & ->). cbn [obind].
    destruct (negb (pc_key pc) && mb_inter m) eqn:EI.
    - apply andb_true_iff in EI. destruct EI as [EK EI]. apply negb_true_iff in EK.
      destruct (step_inter mw mh q refs m c _ _ ltac:(lia) ltac:(lia) Hm EI (HR EK) Hc Hr s s' S1 S2 HI) as (t & t' & F1 & F2 & O1 & O2 & A).
      exists t, t'. repeat (split; [assumption|]). eapply inv_next; eauto.
    - assert (mb_inter m = false) as EI'.
      { destruct (pc_key pc); [|exact EI]. exact (proj1 (Forall_forall _ _) (HK eq_refl) _ (nth_error_In _ _ Hi)). }
      destruct (step_intra mw mh q m c _ _ ltac:(lia) ltac:(lia) Hm EI' Hc Hr s s' S1 S2 HI) as (t & t' & F1 & F2 & O1 & O2 & A).
      exists t, t'. repeat (split; [assumption|]). eapply inv_next; eauto. }
  destruct (rstep_ofold step mw mh (raster_inv (pc_W pc)) (indexed (pc_mbs pc)) 0 ST r r' R1 R2) as (s & s' & F1 & F2 & O1 & O2 & A).
  { unfold raster_inv, column_of, row_of. rewrite Nat.mod_0_l, Nat.div_0_l by lia. split; [exact D1|]. split; [exact D2|].
    split; [|split]; intros x y Hi [H|H]; apply inside_iff in Hi; lia. }
  exists s, s'. repeat (split; [assumption|]).
  assert (LI : length (indexed (pc_mbs pc)) = length (pc_mbs pc)) by (unfold indexed; rewrite combine_length, seq_length; lia).
  rewrite LI in A. cbn [Nat.add] in A. destruct A as (A1 & A2 & AY & AU & AV).
  assert (CE : column_of (pc_W pc) (length (pc_mbs pc)) = 0 /\ row_of (pc_W pc) (length (pc_mbs pc)) = mh).
  { unfold column_of, row_of. assert (exists k, length (pc_mbs pc) = (k * pc_W pc)%nat /\ Z.of_nat k = mh) as (k & -> & Hk).
    { exists (Z.to_nat mh). split; [|lia]. apply Nat2Z.inj. rewrite Nat2Z.inj_mul, Z2Nat.id by lia. lia. }
    rewrite Nat.mod_mul, Nat.div_mul by lia. lia. }
  destruct CE as [C1 C2]. rewrite C1, C2 in *.
  apply raster_sized in O1. apply raster_sized in O2. destruct O1 as (Y1 & U1 & V1). destruct O2 as (Y2 & U2 & V2).
  assert (EX : forall n w p q, sized w (n * mh) p -> sized w (n * mh) q -> agree (done n 0 mh) p q -> p = q).
  { intros n w p q Hp Hq Ha. apply plane_ext; [apply Hp|apply Hq|exact (sized_dims _ _ _ _ Hp Hq)|].
    intros x y Hi. apply Ha; [exact Hi|]. apply inside_iff in Hi. destruct Hp as (_ & _ & Hh). left. lia. }
  pose proof (EX 16 _ _ _ Y1 Y2 AY) as Q1. pose proof (EX 8 _ _ _ U1 U2 AU) as Q2. pose proof (EX 8 _ _ _ V1 V2 AV) as Q3.
  clear - A1 A2 Q1 Q2 Q3. destruct s, s'; cbn in *. congruence.
Qed.

Lemma loopfilter_ok seg fa refs pc mw mh r : picture_ok mw mh refs pc -> (forall s, seg = Some s -> segmentation_ok s) -> raster_ok mw mh r ->
  exists r', picture_loopfilter seg fa pc r = Some (Filtered r') /\ raster_ok mw mh r' /\ ra_dw r' = ra_dw r /\ ra_dh r' = ra_dh r.
Proof.
  intros (EW & EL & Bw & Bh & HQ & HSi & HK & HR & HM) HS Hr. unfold picture_loopfilter.
  destruct (pc_level pc =? 0); [exists r; auto|].
  set (step := fun (o : pixel_outcome) '(i, (m, c, id)) => _).
  assert (ST : forall i a r, nth_error (indexed (pc_mbs pc)) i = Some a -> raster_ok mw mh r ->
            exists r', step (Filtered r) a = Some (Filtered r') /\ raster_ok mw mh r' /\ ra_dw r' = ra_dw r /\ ra_dh r' = ra_dh r).
  { intros i [j [[m c] id]] s Hi Hs. apply indexed_nth in Hi. destruct Hi as [-> Hi].
    pose proof (proj1 (Forall_forall _ _) HM _ (nth_error_In _ _ Hi)) as [Hm Hid].
    assert ((i < length (pc_mbs pc))%nat) as Li by (apply nth_error_Some; congruence).
    destruct (position_ok mw mh (pc_W pc) _ i EW ltac:(lia) EL Li) as [Hc Hrow].
    unfold step.
    assert (exists f, (match seg with Some s => segment_filter pc s id | None => Some (frame_filter pc) end) = Some f /\ fp_simple f = false) as (f & -> & Hf).
    { destruct seg as [sg|]; [|exists (frame_filter pc); auto]. unfold segment_filter. destruct (HS sg eq_refl) as (_ & L & _).
      destruct (nth_error (sg_filter sg) (Z.to_nat id)) eqn:EN; [|apply nth_error_None in EN; lia]. cbn [obind]. eexists. split; [reflexivity|exact HSi]. }
    cbn [obind].
    destruct (C33_macroblock_step mw mh (pc_key pc) (option_map (fun a => (fa_ref a, fa_mode a)) fa) f m c (column_of (pc_W pc) i) (row_of (pc_W pc) i) s Hs Hc Hrow)
      as [(r' & E & O & T)|[Hx _]]; [|congruence].
    exists r'. split; [exact E|]. split; [exact O|]. destruct T as (T1 & T2 & _). split; assumption. }
  clearbody step. revert r Hr. assert (G : forall l, (forall a r, In a l -> raster_ok mw mh r ->
            exists r', step (Filtered r) a = Some (Filtered r') /\ raster_ok mw mh r' /\ ra_dw r' = ra_dw r /\ ra_dh r' = ra_dh r) ->
            forall r, raster_ok mw mh r -> exists r', ofold step l (Filtered r) = Some (Filtered r') /\ raster_ok mw mh r' /\ ra_dw r' = ra_dw r /\ ra_dh r' = ra_dh r).
  { clear ST. induction l as [|a l IH]; intros HA r Hr; [exists r; cbn; auto|]. cbn [ofold].
    destruct (HA a r (or_introl eq_refl) Hr) as (s & E & O & D1 & D2). rewrite E. cbn [obind].
    destruct (IH (fun b t Hb => HA b t (or_intror Hb)) s O) as (t & E' & O' & D1' & D2'). exists t.
    split; [exact E'|]. split; [exact O'|]. split; congruence. }
  apply G. intros a r Ha Hr. apply In_nth_error in Ha. destruct Ha as (i & Hi). exact (ST i a r Hi Hr).
Qed.

Definition grey (w h : Z) : plane := mkPlane w h (repeat 0 (Z.to_nat (w * h))).
Lemma grey_ok w h : 0 < w -> 0 < h -> sized w h (grey w h).
Proof.
  intros Hw Hh. split; [|split; reflexivity]. split.
  - repeat split; try assumption. cbn. unfold zlen. rewrite repeat_length, Z2Nat.id; [reflexivity|]. apply Z.mul_nonneg_nonneg; lia.
  - apply Forall_forall. intros x Hx. apply repeat_spec in Hx. subst. unfold byte_ok. lia.
Qed.

(** Any frame that is well formed. *)
Theorem C54_picture :
  forall seg fa refs pc mw mh dw dh,
  picture_ok mw mh refs pc -> (forall s, seg = Some s -> segmentation_ok s) ->
  exists r, raster_ok mw mh r /\ ra_dw r = dw /\ ra_dh r = dh /\
    forall scratch, raster_ok mw mh scratch -> ra_dw scratch = dw -> ra_dh scratch = dh ->
      picture_output seg fa refs pc scratch = Some (Filtered r).
Proof.
  intros seg fa refs pc mw mh dw dh HP HS.
  pose proof HP as (_ & _ & Bw & Bh & _).
  pose (s0 := mkRaster dw dh (grey (16 * mw) (16 * mh)) (grey (8 * mw) (8 * mh)) (grey (8 * mw) (8 * mh))).
  assert (H0 : raster_ok mw mh s0) by (apply raster_sized; cbn [s0 ra_y ra_u ra_v]; split; [|split]; apply grey_ok; lia).
  destruct (decode_step seg refs pc mw mh HP HS s0 s0 H0 H0 (conj eq_refl eq_refl)) as (t & _ & E & _ & O & _ & _).
  assert (DT : ra_dw t = dw /\ ra_dh t = dh).
  { assert (G : forall l r t, ofold (fun r '(i, (m, c, id)) =>
       let? q := match seg with Some _ => nth_error (match segment_quantizers seg (pc_qi pc) with Some sq => sq | None => [] end) (Z.to_nat id) | None => make_quantizer (pc_qi pc) end in
           if negb (pc_key pc) && mb_inter m
           then reconstruct_inter q refs m c (column_of (pc_W pc) i) (row_of (pc_W pc) i) r
           else reconstruct_intra q m c (column_of (pc_W pc) i) (row_of (pc_W pc) i) r) l r = Some t -> ra_dw t = ra_dw r /\ ra_dh t = ra_dh r).
    { induction l as [|[i [[m c] id]] l IH]; intros r t' Et; cbn [ofold] in Et; [injection Et as <-; auto|].
      destruct (match seg with Some _ => _ | None => _ end) as [q|]; cbn [obind] in Et; [|discriminate].
      assert (Q : forall r', (if negb (pc_key pc) && mb_inter m
           then reconstruct_inter q refs m c (column_of (pc_W pc) i) (row_of (pc_W pc) i) r
           else reconstruct_intra q m c (column_of (pc_W pc) i) (row_of (pc_W pc) i) r) = Some r' -> ra_dw r' = ra_dw r /\ ra_dh r' = ra_dh r).
      { intros r'. destruct (_ && _)%bool; unfold reconstruct_inter, reconstruct_intra; intros Er;
        repeat match type of Er with context [obind ?a _] => destruct a; cbn [obind] in Er; [|discriminate Er] end; injection Er as <-; auto. }
      destruct (if _ : bool then _ else _) as [r'|]; cbn [obind] in Et; [|discriminate].
      destruct (Q r' eq_refl) as [Q1 Q2]. destruct (IH r' t' Et). split; congruence. }
    unfold picture_decode in E. destruct (make_quantizer (pc_qi pc)) as [fq|] eqn:E1; [|discriminate]. cbn [obind] in E.
    destruct (segment_quantizers seg (pc_qi pc)) as [sq|] eqn:E2; [|discriminate]. cbn [obind] in E.
    apply (G (indexed (pc_mbs pc)) s0 t E). }
  destruct (loopfilter_ok seg fa refs pc mw mh t HP HS O) as (r & E' & O' & D1 & D2).
  exists r. split; [exact O'|]. split; [rewrite D1; apply DT|]. split; [rewrite D2; apply DT|].
  intros s Hs W1 W2. unfold picture_output.
  destruct (decode_step seg refs pc mw mh HP HS s0 s H0 Hs) as (t1 & t2 & F1 & F2 & _ & _ & EQ).
  { split; cbn; congruence. }
  rewrite F2. cbn [obind]. assert (t2 = t) as -> by congruence. exact E'.
Qed.

(** Frames accepted by the parser are well formed. *)
Lemma combine_nth_error {A B} (l : list A) (l' : list B) i a b : nth_error (combine l l') i = Some (a, b) -> nth_error l i = Some a /\ nth_error l' i = Some b.
Proof. revert l' i. induction l as [|x l IH]; intros [|y l'] [|i] H; cbn in *; try discriminate; [injection H as <- <-; auto|]. exact (IH _ _ H). Qed.

Lemma mbs_forall (P : mbinfo * mbcoef * Z -> Prop) ms cs ids :
  (forall i m c id, nth_error ms i = Some m -> nth_error cs i = Some c -> nth_error ids i = Some id -> P (m, c, id)) ->
  Forall P (combine (combine ms cs) ids).
Proof.
  intros H. apply Forall_forall. intros [[m c] id] Hin. apply In_nth_error in Hin. destruct Hin as (i & Hi).
  apply combine_nth_error in Hi. destruct Hi as [Hi Hid]. apply combine_nth_error in Hi. destruct Hi as [Hm Hc]. eauto.
Qed.

Lemma dims_ok w : 0 < w <= 16383 -> 0 < Z.of_nat (mb_dim w) <= 2 ^ 24.
Proof. unfold mb_dim. change (2 ^ 24) with 16777216. lia. Qed.

Theorem C54_key_frame :
  forall w h u hd ms cs ids seg fa refs dw dh,
  0 < w <= 16383 -> 0 < h <= 16383 ->
  key_frame_parse w h u = Ok (hd, ms, cs) -> length ids = length ms -> ids_ok ids ->
  (forall s, seg = Some s -> segmentation_ok s) ->
  exists r, raster_ok (Z.of_nat (mb_dim w)) (Z.of_nat (mb_dim h)) r /\ ra_dw r = dw /\ ra_dh r = dh /\
    forall scratch, raster_ok (Z.of_nat (mb_dim w)) (Z.of_nat (mb_dim h)) scratch -> ra_dw scratch = dw -> ra_dh scratch = dh ->
      picture_output seg fa refs (key_picture (mb_dim w) hd ms cs ids) scratch = Some (Filtered r).
Proof.
  intros w h u hd ms cs ids seg fa refs dw dh Hw Hh HP HL HI HS.
  destruct (C11_parsed_key_frame_is_serialisable w h u hd ms cs ltac:(lia) HP) as (K & SU & LM & FM & (LC & FC)).
  apply C54_picture; [|exact HS]. unfold picture_ok. cbn [pc_W pc_mbs pc_qi pc_simple pc_key key_picture].
  split; [reflexivity|]. split; [rewrite !combine_length, LC, HL, LM; lia|]. split; [apply dims_ok, Hw|]. split; [apply dims_ok, Hh|].
  split; [apply (kfo_qi hd K)|]. split.
  { unfold key_frame_header_supported in SU. apply andb_true_iff in SU. destruct SU as [_ SU]. apply negb_true_iff in SU. exact SU. }
  split; [|split; [discriminate|]].
  - intros _. apply mbs_forall. intros i m c id Hm _ _. apply (proj1 (Forall_forall _ _) FM m (nth_error_In _ _ Hm)).
  - apply mbs_forall. intros i m c id Hm Hc Hid.
    pose proof (proj1 (Forall_forall _ _) FM m (nth_error_In _ _ Hm)) as (_ & _ & EI & _ & _ & _ & _ & _ & IM).
    split; [|exact (proj1 (Forall_forall _ _) HI id (nth_error_In _ _ Hid))].
    split; [exact (coef_ok_shape m c (FC i m c Hm Hc))|]. rewrite EI. exact IM.
Qed.

Theorem C54_inter_frame :
  forall pt w h u hd ms cs ids seg fa refs dw dh,
  0 < w <= 16383 -> 0 < h <= 16383 ->
  inter_frame_parse pt w h u = Ok (hd, ms, cs) -> length ids = length ms -> ids_ok ids ->
  (forall s, seg = Some s -> segmentation_ok s) ->
  refs_ok (Z.of_nat (mb_dim w)) (Z.of_nat (mb_dim h)) refs ->
  exists r, raster_ok (Z.of_nat (mb_dim w)) (Z.of_nat (mb_dim h)) r /\ ra_dw r = dw /\ ra_dh r = dh /\
    forall scratch, raster_ok (Z.of_nat (mb_dim w)) (Z.of_nat (mb_dim h)) scratch -> ra_dw scratch = dw -> ra_dh scratch = dh ->
      picture_output seg fa refs (inter_picture (mb_dim w) hd ms cs ids) scratch = Some (Filtered r).
Proof.
  intros pt w h u hd ms cs ids seg fa refs dw dh Hw Hh HP HL HI HS HR.
  destruct (C11_parsed_inter_frame_is_serialisable pt w h u hd ms cs ltac:(lia) HP) as (K & SU & LM & FM & (LC & FC)).
  apply C54_picture; [|exact HS]. unfold picture_ok. cbn [pc_W pc_mbs pc_qi pc_simple pc_key inter_picture].
  split; [reflexivity|]. split; [rewrite !combine_length, LC, HL, LM; lia|]. split; [apply dims_ok, Hw|]. split; [apply dims_ok, Hh|].
  split; [apply (ifo_qi hd K)|]. split.
  { unfold inter_frame_header_supported in SU. apply negb_true_iff in SU. exact SU. }
  split; [discriminate|]. split; [intros _; exact HR|].
  apply mbs_forall. intros i m c id Hm Hc Hid.
  split; [|exact (proj1 (Forall_forall _ _) HI id (nth_error_In _ _ Hid))].
  split; [exact (coef_ok_shape m c (FC i m c Hm Hc))|].
  destruct (FM i m Hm) as (_ & _ & _ & HMB).
  destruct (mb_inter m) eqn:EI; [|apply HMB].
  destruct (parsed_mvs_ok hd (mb_dim w) (mb_dim h) ms ltac:(unfold mb_dim; lia) FM i m Hm) as [M1 M2].
  split; [exact M1|]. split; [exact M2|]. destruct HMB as [_ HMB]. unfold inter_modes_ok in HMB. cbv zeta in HMB.
  destruct HMB as [[E _]|[[E _]|[[E _]|[[E _]|[E _]]]]]; rewrite E; discriminate.
Qed.

(** ** Example: the frames of PropFrame.v, decoded into two different buffers. *)
Definition noise (w h seed : Z) : plane := mkPlane w h (example_frame_bytes_from seed (Z.to_nat (w * h))).
Definition noise_raster (seed : Z) : raster := mkRaster 40 20 (noise 48 32 seed) (noise 24 16 (seed + 1)) (noise 24 16 (seed + 2)).
Definition example_seg : Segmentation := mkSeg false [3; -20; 60; 127] [5; -9; 63; 0] (grey 40 20).
Definition example_hd50 : KeyFrameHeader := mkKFH false false (Some example_us) false 50 3 None 1 (mkQI 40 None None None None None) true (repeat (Some 90) 1056) (Some 128).
Definition example_ids : list Z := [0; 1; 2; 3; 1; 2].
Definition example_key_out (seed : Z) := picture_output (Some example_seg) (Some (mkFA [1; 2; 3; 4] [5; 6; 7; 8]))
  (mkRefs (noise_raster 1) (noise_raster 2) (noise_raster 3)) (key_picture 3 example_hd50 example_kf_ms example_kf_cs example_ids) (noise_raster seed).
Definition example_inter_out (seed : Z) := picture_output (Some example_seg) None
  (mkRefs (noise_raster 1) (noise_raster 2) (noise_raster 3)) (inter_picture 3 example_if_hd example_if_ms example_if_cs example_ids) (noise_raster seed).

Lemma bytes_okb_spec l : forallb (fun b => (0 <=? b) && (b <? 256)) l = true -> bytes_ok l.
Proof. intros H. apply Forall_forall. intros b Hb. pose proof (proj1 (forallb_forall _ _) H b Hb). unfold byte_ok. lia. Qed.
Lemma sized_b w h p : (0 <? w) && (0 <? h) && (zlen (pl_px p) =? w * h) && forallb (fun b => (0 <=? b) && (b <? 256)) (pl_px p) && (pl_w p =? w) && (pl_h p =? h) = true -> sized w h p.
Proof.
  intros H. repeat (apply andb_true_iff in H; destruct H as [H ?]).
  assert (pl_w p = w) as <- by lia. assert (pl_h p = h) as <- by lia.
  split; [|split; reflexivity]. split; [|apply bytes_okb_spec; assumption]. unfold shaped. lia.
Qed.
Lemma noise_raster_ok seed : 
  forallb (fun b => (0 <=? b) && (b <? 256)) (pl_px (noise 48 32 seed)) && forallb (fun b => (0 <=? b) && (b <? 256)) (pl_px (noise 24 16 (seed + 1)))
    && forallb (fun b => (0 <=? b) && (b <? 256)) (pl_px (noise 24 16 (seed + 2))) = true ->
  raster_ok 3 2 (noise_raster seed).
Proof.
  intros H. apply andb_true_iff in H. destruct H as [H H3]. apply andb_true_iff in H. destruct H as [H1 H2].
  assert (L : forall n s, length (example_frame_bytes_from s n) = n) by (induction n; intros; cbn; [reflexivity|f_equal; auto]).
  apply raster_sized. cbn [noise_raster ra_y ra_u ra_v].
  repeat split; try (apply bytes_okb_spec; assumption); try (cbn; lia); cbn [noise pl_px pl_w pl_h]; unfold zlen; rewrite L; reflexivity.
Qed.

Definition differ (a b : option pixel_outcome) : bool :=
  match a, b with
  | Some (Filtered r), Some (Filtered s) => negb (forallb (fun '(x, y) => x =? y) (combine (pl_px (ra_y r)) (pl_px (ra_y s))))
  | _, _ => false
  end.

Example C54_example :
  raster_ok 3 2 (noise_raster 7) /\ raster_ok 3 2 (noise_raster 9) /\ noise_raster 7 <> noise_raster 9 /\
  example_key_out 7 = example_key_out 9 /\ example_inter_out 7 = example_inter_out 9 /\
  differ (example_key_out 7) (example_inter_out 7) = true /\ segmentation_ok example_seg /\ ids_ok example_ids.
Proof.
  split; [apply noise_raster_ok; vm_compute; reflexivity|].
  split; [apply noise_raster_ok; vm_compute; reflexivity|].
  split; [intros H; vm_compute in H; discriminate H|].
  split; [vm_compute; reflexivity|]. split; [vm_compute; reflexivity|]. split; [vm_compute; reflexivity|].
  split; [repeat split; repeat constructor; lia|repeat constructor; lia].
Qed.

Print Assumptions C54_picture.
Print Assumptions C54_key_frame.
Print Assumptions C54_inter_frame.
