(** Lemmas about the encoder's public calls. *)
From Verif Require Import Base BoolCoderModel ParserModel Tables TreeModel HeaderModel MVModel MBModel TokenModel ChunkModel ContainerModel FrameModel.
From Verif Require Import QuantModel RasterModel TransformModel PredictModel LoopFilterModel ReconModel StateModel EncoderModel.
From Verif Require Import ResidueModel SafeRasterModel MotionModel VarianceModel EncodeModel SearchModel CountsModel ReencodeModel EncoderApiModel.
From Verif Require Import PropState HeaderProofs MBProofs TokenProofs FrameProofs RasterProofs PropQuant PropTransform PredictProofs PropInter PropIntra PropLoopFilter PropFrame.
From Verif Require Import ResidueProofs PropResidue PropVariance ReconProofs PropPicture PropRecon StateProofs PropEncoder PropSafeRaster PropMotion EncodeProofs EncodeMBProofs PropSearch PropEncode PropCounts ReencodeProofs PropReencode SizeProofs.

(** ** Counts *)

Lemma td_length ps : forall v, zlen (td_bit_events ps v) = zlen ps.
Proof. induction ps as [|p ps IH]; intros v; [reflexivity|]. cbn [td_bit_events]. unfold zlen in *. cbn [length]. specialize (IH v). lia. Qed.

Lemma zlen_app {A} (a b : list A) : zlen (a ++ b) = zlen a + zlen b.
Proof. unfold zlen. rewrite app_length. lia. Qed.
Lemma zlen_cons {A} (a : A) b : zlen (a :: b) = 1 + zlen b.
Proof. unfold zlen. cbn [length]. lia. Qed.

Lemma value_length prob x ve c : value_events prob x = Some (ve, c) -> zlen ve <= 24.
Proof.
  unfold value_events, td_events. cbv zeta. intros H.
  repeat match type of H with context [if ?b then _ else _] => destruct b end; cbn [option_map] in H; try discriminate;
  apply some_eq, pair_equal_spec in H; destruct H as [<- _];
  repeat first [rewrite zlen_app | rewrite zlen_cons | rewrite td_length]; cbn; lia.
Qed.

Lemma loop_length prob coefs : forall n index ctx lwz evs c l, ser_loop prob coefs n index ctx lwz = Some (evs, c, l) -> zlen evs <= 26 * Z.of_nat n.
Proof.
  induction n as [|n IH]; intros index ctx lwz evs c l E; cbn [ser_loop] in E; cbv zeta in E.
  - apply some_eq, pair_equal_spec in E. destruct E as [E _]. apply pair_equal_spec in E. destruct E as [<- _]. cbn. lia.
  - destruct (_ =? 0) in E.
    + destruct (ser_loop _ coefs n (S index) 0 true) as [[[e c'] l']|] eqn:Er in E; [|discriminate].
      apply IH in Er. apply some_eq, pair_equal_spec in E. destruct E as [E _]. apply pair_equal_spec in E. destruct E as [<- _].
      unfold zlen, event in *. rewrite !app_length. destruct lwz; cbn [length]; lia.
    + destruct (value_events _ _) as [[ve cx]|] eqn:Ev in E; [|discriminate]. apply value_length in Ev.
      destruct (ser_loop _ coefs n (S index) cx false) as [[[e c'] l']|] eqn:Er in E; [|discriminate].
      apply IH in Er. apply some_eq, pair_equal_spec in E. destruct E as [E _]. apply pair_equal_spec in E. destruct E as [<- _].
      unfold zlen, event in *. rewrite !app_length. destruct lwz; cbn [length]; lia.
Qed.

Lemma coded_from_le n : forall index coefs acc, (acc <= 16)%nat -> (index + n <= 16)%nat -> (coded_length_from n index coefs acc <= 16)%nat.
Proof.
  induction n as [|n IH]; intros index coefs acc A B; [exact A|]. cbn [coded_length_from]. cbv zeta. apply IH; [|lia].
  destruct (_ =? 0); lia.
Qed.
Lemma first_index_le type : (first_index type <= 1)%nat.
Proof. unfold first_index. destruct (_ =? _); lia. Qed.
Lemma coded_le type coefs : (coded_length type coefs <= 16)%nat.
Proof. unfold coded_length. pose proof (first_index_le type). apply coded_from_le; lia. Qed.

Lemma tokens_length prob type ctx coefs evs : serialize_tokens prob type ctx coefs = Some evs -> zlen evs <= 417.
Proof.
  unfold serialize_tokens. cbv zeta. pose proof (coded_le type coefs) as C.
  destruct (ser_loop _ _ _ _ _ _) as [[[e c] l]|] eqn:E; [|discriminate]. apply loop_length in E. destruct l; [discriminate|].
  destruct (coded_length type coefs <? 16)%nat; intros H; apply some_eq in H; subst evs; [rewrite zlen_app; change (zlen [_]) with 1|]; lia.
Qed.

Lemma oconcat_length {A} (l : list (option (list A))) B : 0 <= B -> Forall (fun o : option (list A) => exists x : list A, o = Some x /\ zlen x <= B) l -> exists r, oconcat l = Some r /\ zlen r <= B * zlen l.
Proof.
  intros HB F. induction F as [|o l (x & -> & L) F (r' & E & L')]; [exists []; split; [reflexivity|cbn; lia]|].
  cbn [oconcat fold_right]. fold (oconcat l). rewrite E. exists (x ++ r'). split; [reflexivity|]. rewrite zlen_app, zlen_cons. lia.
Qed.

Lemma fresh_block_ok type : block_ok type fresh_block.
Proof. split; [reflexivity|]. split; [apply Forall_repeat; lia|]. split; [reflexivity|]. intros _. reflexivity. Qed.

Lemma plane_some tbl type w a l bs n : 0 <= type < 4 -> length bs = n -> Forall (block_ok type) bs ->
  exists evs, plane_events tbl type w a l bs = Some evs /\ zlen evs <= 417 * Z.of_nat n.
Proof.
  intros Ht <- F. rewrite plane_events_steps.
  destruct (oconcat_length (map (fun k => serialize_tokens (coeff_prob tbl type) type (blk_ctx w a l bs k) (fst (nth k bs fresh_block))) (seq 0 (length bs))) 417 ltac:(lia)) as (r & E & L).
  - apply Forall_forall. intros x Hx. apply in_map_iff in Hx. destruct Hx as (k & <- & Hk). apply in_seq in Hk.
    assert (BK : block_ok type (nth k bs fresh_block)) by (apply (proj1 (Forall_forall _ _) F), nth_In; lia).
    destruct BK as (B1 & B2 & B3 & B4).
    destruct (parses_block (coeff_prob tbl type) type (blk_ctx w a l bs k) (fst (nth k bs fresh_block)) B1 B2 (block_ctx_range w a l bs k) B4) as (evs & E & _).
    exists evs. split; [exact E|]. eapply tokens_length. exact E.
  - exists r. split; [exact E|]. unfold zlen in L at 2. rewrite map_length, seq_length in L. exact L.
Qed.

Lemma yuv_some tbl W cs i m c : coef_ok m c -> exists evs, mb_yuv_events tbl W cs i m c = Some evs /\ zlen evs <= 10008.
Proof.
  intros CO.
  assert (S : length (co_y c) = 16%nat /\ Forall (block_ok (y_type m)) (co_y c) /\ length (co_u c) = 4%nat /\ Forall (block_ok UV_type) (co_u c) /\ length (co_v c) = 4%nat /\ Forall (block_ok UV_type) (co_v c)).
  { unfold coef_ok in CO. destruct (skipped m); [|apply CO]. subst c. cbn [fresh_coef co_y co_u co_v]. rewrite !repeat_length.
    repeat split; try reflexivity; apply Forall_repeat, fresh_block_ok. }
  destruct S as (L1 & F1 & L2 & F2 & L3 & F3). unfold mb_yuv_events. cbv zeta.
  destruct (plane_some tbl (y_type m) 4 (option_map co_y (above_of W cs i)) (option_map co_y (left_of W cs i)) (co_y c) _ (y_type_range m) L1 F1) as (e1 & -> & K1).
  destruct (plane_some tbl UV_type 2 (option_map co_u (above_of W cs i)) (option_map co_u (left_of W cs i)) (co_u c) _ ltac:(unfold UV_type; lia) L2 F2) as (e2 & -> & K2).
  destruct (plane_some tbl UV_type 2 (option_map co_v (above_of W cs i)) (option_map co_v (left_of W cs i)) (co_v c) _ ltac:(unfold UV_type; lia) L3 F3) as (e3 & -> & K3).
  cbn [oapp]. eexists. split; [reflexivity|]. unfold zlen, event in *. rewrite !app_length. lia.
Qed.

(** How often an entry was used so far. *)
Definition used (B : Z) (c : branch_counts) : Prop := forall i, 0 <= i < 1056 -> counted c i false + counted c i true <= B.

Lemma writes_both evs i : writes evs i false + writes evs i true <= zlen evs.
Proof.
  induction evs as [|e evs IH]; [cbn; lia|]. rewrite !writes_cons, zlen_cons. destruct (snd e =? 1000 + i), (fst e); cbn [andb Bool.eqb]; lia.
Qed.

Lemma used_tally B evs c : counts_ok c -> used B c -> used (B + zlen evs) (tally evs c).
Proof.
  intros OK U i Hi. rewrite !counted_tally by assumption. unfold wrap.
  pose proof (counted_range c i false OK). pose proof (counted_range c i true OK). pose proof (writes_nonneg evs i false). pose proof (writes_nonneg evs i true).
  pose proof (Z.mod_le (counted c i false + writes evs i false) (2 ^ 32) ltac:(lia) ltac:(lia)). pose proof (Z.mod_le (counted c i true + writes evs i true) (2 ^ 32) ltac:(lia) ltac:(lia)).
  pose proof (writes_both evs i). specialize (U i Hi). lia.
Qed.

Lemma count_some W cs : forall todo i counts B, Forall (fun mc => coef_ok (fst mc) (snd mc)) todo -> counts_ok counts -> used B counts ->
  exists counts', count_frame W cs i todo counts = Some counts' /\ counts_ok counts' /\ used (B + 10008 * zlen todo) counts'.
Proof.
  induction todo as [|[m c] todo IH]; intros i counts B F OK U.
  - exists counts. split; [reflexivity|]. split; [exact OK|]. unfold zlen. cbn [length]. replace (B + _) with B by lia. exact U.
  - inversion F as [|? ? CO F']; subst. cbn [fst snd] in CO. destruct (yuv_some label_table W cs i m c CO) as (evs & E & L).
    cbn [count_frame]. rewrite count_mb_tally, E. cbn [option_map].
    destruct (IH (S i) (tally evs counts) (B + 10008) F' (tally_ok _ _ OK)) as (counts' & E' & OK' & U').
    + intros k Hk. pose proof (used_tally B evs counts OK U k Hk). lia.
    + exists counts'. split; [exact E'|]. split; [exact OK'|]. rewrite zlen_cons. replace (B + 10008 * (1 + zlen todo)) with (B + 10008 + 10008 * zlen todo) by lia. exact U'.
Qed.

Lemma branch_some f t : 0 <= f -> 0 <= t -> f + t < 2 ^ 32 -> exists v, branch_prob f t = Some v /\ 0 <= v <= 255.
Proof.
  intros F T S. unfold branch_prob, calc_prob. unfold wrap at 1 3. rewrite (Z.mod_small (f + t)) by lia. destruct (f =? 0) eqn:E; [exists 0; split; [reflexivity|lia]|].
  destruct (f + t =? 0) eqn:E2; [lia|]. eexists. split; [reflexivity|]. lia.
Qed.

Lemma tables_some : forall tbl old counts, length old = length tbl -> length counts = length tbl ->
  Forall (o_ok (u_ok 8)) old -> Forall (fun '(f, t) => 0 <= f /\ 0 <= t /\ f + t < 2 ^ 32) counts ->
  exists ups, optimize_tables tbl old counts = Some ups /\ length ups = length tbl /\ Forall (o_ok (u_ok 8)) ups.
Proof.
  induction tbl as [|p tbl IH]; intros old counts Lo Lc Fo F.
  - exists []. destruct old; [|discriminate]. destruct counts; [|discriminate]. split; [reflexivity|]. split; [reflexivity|constructor].
  - destruct old as [|o old]; [discriminate|]. destruct counts as [|[f t] counts]; [discriminate|]. injection Lo as Lo. injection Lc as Lc.
    pose proof (Forall_inv F) as (F1 & F2 & F3). pose proof (Forall_inv_tail F) as Fr. inversion Fo as [|? ? O1 Fo']; subst.
    destruct (IH old counts Lo Lc Fo' Fr) as (ups & E & L & OK). destruct (branch_some f t F1 F2 F3) as (v & EV & BV).
    unfold optimize_tables in *. cbn [combine omap].
    assert (TU : exists y, match token_update p f t with None => None | Some None => Some o | Some (Some u) => Some (Some u) end = Some y /\ o_ok (u_ok 8) y).
    { unfold token_update. rewrite EV. destruct (_ && _); eexists; (split; [reflexivity|]); [intros x [= <-]; unfold u_ok; lia|exact O1]. }
    destruct TU as (y & -> & OY). fold branch_counts in *. cbn [obind]. rewrite E. cbn [obind].
    exists (y :: ups). split; [reflexivity|]. split; [cbn [length]; congruence|]. constructor; assumption.
Qed.

Lemma counts_forall c : counts_ok c -> used (2 ^ 32 - 1) c -> Forall (fun '(f, t) => 0 <= f /\ 0 <= t /\ f + t < 2 ^ 32) c.
Proof.
  intros [L F] U. apply Forall_forall. intros [f t] Hx. destruct (proj1 (Forall_forall _ _) F _ Hx) as [A B].
  destruct (In_nth _ _ (0, 0) Hx) as (k & Hk & E). specialize (U (Z.of_nat k) ltac:(lia)). unfold counted in U. rewrite Nat2Z.id, E in U. lia.
Qed.

(** The updates that a frame's counts give. *)
Lemma frame_tables w h W ms cs tbl old : 0 < w <= 3968 -> 0 < h <= 3968 -> length ms = (mb_dim w * mb_dim h)%nat -> coefs_ok ms cs ->
  length tbl = Z.to_nat 1056 -> ups_ok old ->
  exists counts ups, count_frame W cs 0 (combine ms cs) no_counts = Some counts /\ optimize_tables tbl old counts = Some ups /\ ups_ok ups.
Proof.
  intros Hw Hh LM [LC FC] LT [LO FO].
  assert (F : Forall (fun mc => coef_ok (fst mc) (snd mc)) (combine ms cs)).
  { apply Forall_forall. intros [m c] Hx. apply In_nth_error in Hx. destruct Hx as (i & Hi). cbn [fst snd].
    assert (nth_error ms i = Some m /\ nth_error cs i = Some c) as [A B].
    { clear -Hi. revert cs i Hi. induction ms as [|a ms IH]; intros [|b cs] [|i] Hi; cbn in *; try discriminate; [injection Hi as <- <-; auto|]. apply IH, Hi. }
    exact (FC i m c A B). }
  destruct (count_some W cs (combine ms cs) 0 no_counts 0 F no_counts_ok) as (counts & E & OK & U).
  { intros i Hi. rewrite !counted_none. lia. }
  assert (LL : zlen (combine ms cs) <= 61504).
  { unfold zlen. rewrite combine_length, LC, Nat.min_id, LM, Nat2Z.inj_mul.
    assert (0 < Z.of_nat (mb_dim w) <= 248) by (unfold mb_dim; lia). assert (0 < Z.of_nat (mb_dim h) <= 248) by (unfold mb_dim; lia). nia. }
  destruct (tables_some tbl old counts) as (ups & E2 & L2 & F2).
  - congruence.
  - rewrite LT. apply OK.
  - exact FO.
  - apply counts_forall; [exact OK|]. intros i Hi. specialize (U i Hi). change (2 ^ 32) with 4294967296. lia.
  - exists counts, ups. split; [exact E|]. split; [exact E2|]. split; [congruence|exact F2].
Qed.

(** ** No macroblock is split *)
Lemma ofold_in {A S} (f : S -> A -> option S) (P : S -> Prop) l : (forall s a s', In a l -> P s -> f s a = Some s' -> P s') -> forall s s', ofold f l s = Some s' -> P s -> P s'.
Proof.
  induction l as [|a l IH]; intros H s s' E HP; cbn [ofold] in E; [apply some_eq in E; subst; exact HP|].
  destruct (f s a) as [s1|] eqn:E1; [|discriminate]. cbn [obind] in E. refine (IH _ s1 s' E _); [intros; eapply H; eauto; right; assumption|]. eapply H; [left; reflexivity|exact HP|exact E1].
Qed.

Lemma luma_unsplit mc q bpred o column row p t lp : luma_best mc q bpred o column row p t = Some lp -> lp_mode lp <= 4.
Proof.
  unfold luma_best. destruct (get_predictors 16 column row p) as [pr|]; [|discriminate]. cbn [obind].
  intros E. refine (ofold_in _ (fun s => lp_mode s <= 4) _ _ _ _ E _); [|cbn; unfold DC_PRED; lia].
  intros s mode s' HI HS E1. unfold try_mode in E1.
  destruct (if mode =? B_PRED then _ else _) as [[[[[cost modes] blocks] p1] t1]|]; [|discriminate]. cbn [obind] in E1.
  destruct (cost <? lp_cost s).
  - destruct (copy_block _ _ _ _ _); [|discriminate]. cbn [obind] in E1. apply some_eq in E1. subst s'. cbn [lp_mode]. destruct bpred; cbn in HI; unfold B_PRED, TM_PRED, H_PRED, V_PRED, DC_PRED in HI; lia.
  - apply some_eq in E1. subst s'. exact HS.
Qed.
Lemma choice_unsplit s realtime census intra cost mode v c : intra <= 4 -> choose_mode s realtime census intra cost = Some (mode, v, c) -> mode <> SPLITMV.
Proof.
  intros HI E. refine (ofold_in _ (fun b : Z * mv * Z => fst (fst b) <> SPLITMV) _ _ _ _ E _); [|cbn; unfold SPLITMV; lia].
  intros b m b' Hm HB E1. destruct (mode_vector s realtime census m) as [[x|]|]; try discriminate; cbn [obind] in E1; [|apply some_eq in E1; subst; exact HB].
  destruct (mode_cost s census m x) as [y|]; [|discriminate]. cbn [obind] in E1. apply some_eq in E1. subst b'. destruct (y <? snd b); [|exact HB].
  cbn [fst]. cbn in Hm. unfold SPLITMV, ZEROMV, NEARESTMV, NEARMV, NEWMV in *. lia.
Qed.
Lemma inter_mb_unsplit env mc q W H l i o r t m c r' t' : inter_mb env mc q W H l i o r t = Some (m, c, r', t') -> mb_ymode m <> SPLITMV.
Proof.
  unfold inter_mb. cbv zeta. destruct (luma_best _ _ _ _ _ _ _ _) as [lp|] eqn:EL; [|discriminate]. apply luma_unsplit in EL. cbn [obind].
  destruct (choose_mode _ _ _ _ _) as [[[mode v] cost]|] eqn:EC; [|discriminate]. apply (choice_unsplit _ _ _ _ _ _ _ _ EL) in EC. cbn [obind].
  destruct (mode <=? B_PRED).
  - unfold luma_apply_intra. destruct (lp_mode lp =? B_PRED).
    + cbn [obind]. unfold finish_intra. intros E.
      repeat (match type of E with context [obind ?x _] => destruct x end; [cbn [obind] in E|discriminate]). cbv zeta in E. 
      repeat (match type of E with context [obind ?x _] => destruct x end; [cbn [obind] in E|discriminate]).
      apply some_eq in E. injection E as <- _ _ _. cbn. unfold SPLITMV, B_PRED. lia.
    + destruct (code_luma _ _ _ _ _ _ _) as [x|]; [|discriminate]. cbn [obind]. unfold finish_intra. intros E.
      repeat (match type of E with context [obind ?x _] => destruct x end; [cbn [obind] in E|discriminate]). cbv zeta in E.
      repeat (match type of E with context [obind ?x _] => destruct x end; [cbn [obind] in E|discriminate]).
      apply some_eq in E. injection E as <- _ _ _. cbn. unfold SPLITMV. lia.
  - intros E. repeat (match type of E with context [obind ?x _] => destruct x end; [cbn [obind] in E|discriminate]).
    apply some_eq in E. injection E as <- _ _ _. cbn. exact EC.
Qed.
Lemma inter_unsplit env mcs q W H o r t e : encode_inter env mcs q W H o r t = Some e -> Forall (fun m => mb_ymode m <> SPLITMV) (ec_ms e).
Proof.
  unfold encode_inter. intros E. refine (ofold_in _ (fun s => Forall (fun m => mb_ymode m <> SPLITMV) (ec_ms s)) _ _ _ _ E _); [|constructor].
  intros s i s' _ HS E1. destruct (inter_mb _ _ _ _ _ _ _ _ _ _) as [[[[m c] r1] t1]|] eqn:EM; [|discriminate]. cbn [obind] in E1. apply some_eq in E1. subst s'. cbn [add_mb ec_ms].
  apply Forall_app. split; [exact HS|]. constructor; [exact (inter_mb_unsplit _ _ _ _ _ _ _ _ _ _ _ _ _ _ EM)|constructor].
Qed.

(** ** Headers *)

Lemma set_key_ok hd qi level ups skip : kfh_ok hd -> qi_ok qi -> 0 <= level <= 63 -> ups_ok ups -> 0 <= skip <= 255 -> kfh_ok (set_key_header hd qi level ups skip).
Proof.
  intros K Q L [U1 U2] S. destruct K. unfold set_key_header.
  constructor; cbn [kf_update_segmentation kf_loop_filter_level kf_sharpness_level kf_mode_lf_adjustments kf_log2_partitions kf_quant_indices kf_token_prob_update kf_prob_skip_false]; try assumption.
  - unfold u_ok. lia.
  - exact zero_lfd_ok.
  - intros a [= <-]. unfold u_ok. lia.
Qed.
Lemma set_inter_ok hd qi level ups skip p q r : ifh_ok hd -> qi_ok qi -> 0 <= level <= 63 -> ups_ok ups -> 0 <= skip <= 255 -> u_ok 8 p -> u_ok 8 q -> u_ok 8 r ->
  ifh_ok (set_inter_header hd qi level ups skip (p, q, r)).
Proof.
  intros K Q L [U1 U2] S P1 P2 P3. destruct K. unfold set_inter_header.
  constructor; cbn [if_update_segmentation if_loop_filter_level if_sharpness_level if_mode_lf_adjustments if_log2_partitions if_quant_indices if_refresh_golden if_copy_to_golden
    if_refresh_alternate if_copy_to_alternate if_token_prob_update if_prob_skip_false if_prob_inter if_prob_references_last if_prob_references_golden if_intra_16x16_prob if_intra_chroma_prob if_mv_prob_update];
    try assumption.
  - unfold u_ok. lia.
  - exact zero_lfd_ok.
  - intros a [= <-]. unfold u_ok. lia.
Qed.

(** Headers as they may be kept. *)
Definition key_kept (hd : KeyFrameHeader) : Prop := kfh_ok hd /\ key_frame_header_supported hd = true /\ kf_update_segmentation hd = None.
Definition inter_kept (hd : InterFrameHeader) : Prop := ifh_ok hd /\ inter_frame_header_supported hd = true /\ if_update_segmentation hd = None.

Lemma zero_fa_good : o_ok fa_good (fa_new zero_deltas).
Proof.
  destruct (fa_new_good (Some (mkLFD (repeat (Some 0) 4) (repeat (Some 0) 4))) (zero_lfd_ok _ eq_refl)) as (a & E & G).
  unfold zero_deltas. rewrite E. intros ? [= <-]. exact G.
Qed.

(** ** The level of the loop filter *)

Section Filter.
Context {Q : Type}.
Variable gt : Q -> Q -> bool.
Variable minus_one : Q.
Variable ssim : raster -> raster -> Q.

(** What the search has found so far. *)
Definition picked (filter : Z -> option pixel_outcome) (o : raster) (b : Q * Z) : Prop :=
  0 <= snd b <= 63 /\ exists r, filter (snd b) = Some (Filtered r) /\ fst b = ssim r o.

Lemma filter_loop_ok filter o : (forall l, 0 <= l <= 63 -> exists r, filter l = Some (Filtered r)) ->
  forall fuel level hi q best, 0 <= level -> hi <= 63 -> (Z.to_nat (64 - level) < fuel)%nat -> picked filter o (q, best) ->
  exists b, filter_loop gt ssim filter o fuel level hi q best = Some b /\ picked filter o b.
Proof.
  intros F. induction fuel as [|fuel IH]; intros level hi q best L H FU K; [lia|]. cbn [filter_loop].
  destruct (level <=? hi) eqn:E; [|exists (q, best); auto]. destruct (F level ltac:(lia)) as (r & ER). rewrite ER.
  destruct (gt (ssim r o) q) eqn:G; [|exists (q, best); auto].
  apply IH; try lia. split; [cbn; lia|]. exists r. auto.
Qed.

Lemma window_bounds last lo hi : last_level_ok last -> level_window last = (lo, hi) -> 0 <= lo <= hi /\ hi <= 63.
Proof. unfold last_level_ok, level_window. destruct last as [l|]; intros K [= <- <-]; [destruct (0 <? l) eqn:E|]; lia. Qed.

Lemma best_filter_ok last filter o : last_level_ok last -> (forall l, 0 <= l <= 63 -> exists r, filter l = Some (Filtered r)) ->
  exists q level r, best_filter gt minus_one ssim last filter o = Some (q, level, r) /\ 0 <= level <= 63 /\ filter level = Some (Filtered r) /\
    (q = ssim r o \/ q = minus_one /\ exists r', gt (ssim r' o) minus_one = false).
Proof.
  intros K F. unfold best_filter. destruct (level_window last) as [lo hi] eqn:W. destruct (window_bounds _ _ _ K W) as [A B].
  assert (FU : (63 < 64)%nat) by lia. revert FU. change 65%nat with (S 64). generalize 64%nat. intros fuel FU. cbn [filter_loop]. replace (lo <=? hi) with true by lia. destruct (F lo ltac:(lia)) as (r & ER). rewrite ER.
  destruct (gt (ssim r o) minus_one) eqn:G.
  - destruct (filter_loop_ok filter o F fuel (lo + 1) hi (ssim r o) lo ltac:(lia) B ltac:(lia)) as ([q level] & E & (L & r' & ER' & EQ)).
    + split; [cbn; lia|]. exists r. auto.
    + cbn [fst snd] in *. rewrite E. cbn [obind fst snd]. rewrite ER'. exists q, level, r'. auto.
  - cbn [obind fst snd]. destruct (F 0 ltac:(lia)) as (r0 & E0). rewrite E0. exists minus_one, 0, r0. split; [reflexivity|]. split; [lia|]. split; [exact E0|]. right. split; [reflexivity|]. exists r. exact G.
Qed.
End Filter.

(** ** One picture *)

Record trial_ok (w h : Z) (k : trial_work) : Prop := {
  tko_c : forall pass, passes_ok (tw_costs k pass);
  tko_s : length (tw_sads k) = 256%nat;
  tko_m : length (tw_mv_costs k) = 2%nat /\ Forall (fun t => length t = 2%nat /\ Forall (fun l : list Z => length l = Z.to_nat 1024) t) (tw_mv_costs k);
  tko_r : raster_for w h (tw_r k);
  tko_t : raster_for w h (tw_t k)
}.

Lemma pass_at_ok w h qi q k o tbl c ups p : 0 < w <= 3968 -> 0 < h <= 3968 -> qi_ok qi -> make_quantizer qi = Some q -> trial_ok w h k -> raster_for w h o ->
  raster_ok (Z.of_nat (mb_dim w)) (Z.of_nat (mb_dim h)) (ec_r c) -> raster_ok (Z.of_nat (mb_dim w)) (Z.of_nat (mb_dim h)) (ec_t c) -> length tbl = Z.to_nat 1056 -> ups_ok ups ->
  exists s ups', key_pass_at k q (mb_dim w) (mb_dim w * mb_dim h) o tbl (c, ups) p = Some (s, ups') /\ key_pass (tw_costs k p) q (mb_dim w) (mb_dim w * mb_dim h) o (ec_r c) (ec_t c) = Some s /\
    raster_ok (Z.of_nat (mb_dim w)) (Z.of_nat (mb_dim h)) (ec_r s) /\ raster_ok (Z.of_nat (mb_dim w)) (Z.of_nat (mb_dim h)) (ec_t s) /\ ups_ok ups'.
Proof.
  intros Hw Hh QI Eq TK (Ho & _ & _) Hr Ht LT UP. pose proof (dims_ok w ltac:(lia)) as Bw. pose proof (dims_ok h ltac:(lia)) as Bh.
  destruct (key_pass_ok (mb_dim w) (mb_dim h) _ _ qi q (mkRefs o o o) (tw_costs k p) o (ec_r c) (ec_t c) eq_refl eq_refl ltac:(lia) ltac:(lia) ltac:(lia) (qi_small_of _ QI) Eq (tko_c _ _ _ TK p) Ho Hr Ht)
    as (s & E & ((L1 & L2) & (R1 & R2) & _ & _ & CO & _) & _).
  destruct (frame_tables w h (mb_dim w) (ec_ms s) (ec_cs s) tbl ups Hw Hh L1 CO LT UP) as (counts & ups' & E1 & E2 & U2).
  exists s, ups'. split; [|auto]. unfold key_pass_at. cbn [fst snd]. rewrite E. cbn [obind]. rewrite E1. cbn [obind]. rewrite E2. reflexivity.
Qed.

Lemma passes_at_ok w h qi q k o tbl two ups : 0 < w <= 3968 -> 0 < h <= 3968 -> qi_ok qi -> make_quantizer qi = Some q -> trial_ok w h k -> raster_for w h o ->
  length tbl = Z.to_nat 1056 -> ups_ok ups ->
  exists s ups', ofold (key_pass_at k q (mb_dim w) (mb_dim w * mb_dim h) o tbl) (passes_of two) (mkEnc [] [] (tw_r k) (tw_t k), ups) = Some (s, ups') /\
    encode_key (map (tw_costs k) (passes_of two)) q (mb_dim w) (mb_dim w * mb_dim h) o (tw_r k) (tw_t k) = Some s /\ ups_ok ups'.
Proof.
  intros Hw Hh QI Eq TK Ho LT UP. unfold encode_key.
  destruct (pass_at_ok w h qi q k o tbl (mkEnc [] [] (tw_r k) (tw_t k)) ups 0 Hw Hh QI Eq TK Ho (proj1 (tko_r _ _ _ TK)) (proj1 (tko_t _ _ _ TK)) LT UP) as (s & ups' & E & E' & R & T & U).
  destruct two; cbn [passes_of map ofold]; rewrite E, E'; cbn [obind].
  - destruct (pass_at_ok w h qi q k o tbl s ups' 1 Hw Hh QI Eq TK Ho R T LT U) as (s2 & ups2 & E2 & E2' & _ & _ & U2). rewrite E2, E2'. cbn [obind]. eauto.
  - eauto.
Qed.

Definition is_key (f : wframe) : bool := match f with KeyW _ _ _ _ _ => true | InterW _ _ _ _ _ => false end.
Definition frame_qi (f : wframe) : QuantIndices := match f with KeyW _ hd _ _ _ => kf_quant_indices hd | InterW _ hd _ _ _ => if_quant_indices hd end.
Definition frame_deltas (f : wframe) : option (option ModeRefLFDeltaUpdate) := match f with KeyW _ hd _ _ _ => kf_mode_lf_adjustments hd | InterW _ hd _ _ _ => if_mode_lf_adjustments hd end.
Definition keeps_last (f : wframe) : bool := match f with KeyW _ _ _ _ _ => true | InterW _ hd _ _ _ => if_refresh_last hd end.

Section Pictures.
Context {Q : Type}.
Variable gt : Q -> Q -> bool.
Variable minus_one : Q.
Variable ssim : raster -> raster -> Q.
Local Notation api := (@api Q).

Record api_good (w h : Z) (a : api) : Prop := {
  apg_e : encoder_good w h (ap_enc a);
  apg_s : pl_w (ap_safe a) = w + 512 /\ pl_h (ap_safe a) = h + 512 /\ shows MARGIN_WIDTH w h (ra_y (rf_last (en_refs (ap_enc a)))) (ap_safe a);
  apg_k : key_kept (ap_key a);
  apg_i : inter_kept (ap_inter a);
  apg_l : last_level_ok (en_level (ap_enc a));
  apg_q : last_ok (en_qi (ap_enc a))
}.

(** What the quality of a picture is recorded as. *)
Definition recorded (o r : raster) (q : option Q) : Prop :=
  q = Some (ssim r o) \/ q = Some minus_one /\ exists r', gt (ssim r' o) minus_one = false.

(** The frames are written with one partition of coefficients. *)
Definition one_partition (a : api) : Prop := kf_log2_partitions (ap_key a) = 0 /\ if_log2_partitions (ap_inter a) = 0.
Definition plain (f : wframe) : Prop :=
  match f with KeyW _ hd _ _ _ => kf_log2_partitions hd = 0 | InterW _ hd ms _ _ => if_log2_partitions hd = 0 /\ Forall (fun m => mb_ymode m <> SPLITMV) ms end.

(** What encode_raster gives. *)
Record encoded (w h : Z) (key : bool) (a : api) (o : raster) (qi : QuantIndices) (update : bool) (a' : api) (f : wframe) (r : raster) : Prop := {
  ecd_good : api_good w h a';
  ecd_has : ap_has a' = ap_has a;
  ecd_refs : en_refs (ap_enc a') = en_refs (ap_enc a);
  ecd_pt : key = false -> ds_pt (en_state (ap_enc a')) = ds_pt (en_state (ap_enc a));
  ecd_same : update = false -> ap_enc a' = ap_enc a;
  ecd_writable : writable w h f;
  ecd_key : is_key f = key;
  ecd_qi : frame_qi f = qi;
  ecd_shown : shown f = true;
  ecd_deltas : frame_deltas f = zero_deltas;
  ecd_last : keeps_last f = true;
  ecd_parts : one_partition a -> one_partition a' /\ plain f;
  ecd_r : raster_for w h r;
  ecd_ssim : recorded o r (ap_ssim a');
  ecd_write : forall e blank scratch e' bytes, encoder_good w h e -> en_refs e = en_refs (ap_enc a) -> raster_for w h scratch ->
    write_frame e f blank scratch = Some (e', bytes) -> rf_last (en_refs e') = r
}.

Lemma quantizer_of qi : qi_ok qi -> exists q, make_quantizer qi = Some q.
Proof. intros K. destruct (C30_quantizer qi (qi_small_of _ K)) as (q & E & _). eauto. Qed.

Lemma nonzero_list w h ms cs : 0 < w <= 3968 -> 0 < h <= 3968 -> length ms = (mb_dim w * mb_dim h)%nat -> coefs_ok ms cs ->
  exists skip, optimize_prob_skip (map (fun mc : mbinfo * mbcoef => has_nonzero (fst mc) (snd mc)) (combine ms cs)) = Some skip /\ 0 <= skip <= 255.
Proof.
  intros Hw Hh LM [LC _]. set (l := map _ _).
  assert (LL : length l = (mb_dim w * mb_dim h)%nat) by (unfold l; rewrite map_length, combine_length, LC, Nat.min_id; exact LM).
  pose proof (count_small w h l ltac:(lia) ltac:(lia) LL) as B.
  destruct (C46_skip l) as (p & E & P & _); [intros N; rewrite N in B; cbn in B; lia|lia|]. eauto.
Qed.

Lemma pt_coeff_length w h s : state_good w h s -> length (pt_coeff (ds_pt s)) = Z.to_nat 1056.
Proof. intros [_ _ [_ (A & _)] _ _]. exact A. Qed.

Lemma raster_key_ok w h a k o qi update : 0 < w <= 3968 -> 0 < h <= 3968 -> api_good w h a -> trial_ok w h k -> raster_for w h o -> qi_ok qi ->
  exists a' f r, encode_raster_key gt minus_one ssim a k o qi update = Some (a', f, r) /\ encoded w h true a o qi update a' f r.
Proof.
  intros Hw Hh G TK Ho QI. pose proof G as [[ES EN EL EG EA] GS (GK & GK2 & GK3) GI GL GQ]. pose proof ES as [Ew Eh _ _ _].
  destruct (quantizer_of qi QI) as (q & Eq).
  unfold encode_raster_key. rewrite Ew, Eh, Eq. cbn [obind].
  destruct (passes_at_ok w h qi q k o (pt_coeff (ds_pt (fresh_state w h))) (ap_two a) (kf_token_prob_update (ap_key a)) Hw Hh QI Eq TK Ho eq_refl (conj (kfo_tl _ GK) (kfo_t _ GK)))
    as (c & ups & EP & EK & UP).
  rewrite EP. cbn [obind].
  assert (LV : forall level skip, 0 <= level <= 63 -> 0 <= skip <= 255 -> let hd := set_key_header (ap_key a) qi level ups skip in
    writable w h (KeyW true hd (ec_ms c) (ec_cs c) (repeat 0 (mb_dim w * mb_dim h))) /\ raster_for w h (ec_r c) /\
    forall refs scratch, raster_for w h scratch -> picture_decode None refs (key_pic (mb_dim w) hd (ec_ms c) (ec_cs c) (repeat 0 (mb_dim w * mb_dim h))) scratch = Some (ec_r c)).
  { intros level skip L S hd. assert (K : kfh_ok hd) by (apply set_key_ok; assumption).
    destruct (C64_key w h hd q (map (tw_costs k) (passes_of (ap_two a))) o (tw_r k) (tw_t k) ltac:(lia) ltac:(lia) K GK2 GK3 ltac:(discriminate) Eq) as (e & E & WR & R & DE).
    - apply Forall_forall. intros x Hx. apply in_map_iff in Hx. destruct Hx as (p & <- & _). apply (tko_c _ _ _ TK).
    - destruct (ap_two a); discriminate.
    - exact Ho.
    - apply TK.
    - apply TK.
    - rewrite EK in E. apply some_eq in E. subst e.
      assert (LM : length (ec_ms c) = (mb_dim w * mb_dim h)%nat).
      { destruct (WR true (repeat 0 (length (ec_ms c))) (repeat_length _ _)) as (_ & _ & LM & _). exact LM. }
      assert (LI : length (repeat 0 (mb_dim w * mb_dim h)) = length (ec_ms c)) by (rewrite repeat_length; congruence).
      split; [apply WR; exact LI|]. split; [exact R|]. intros refs scratch HS. apply DE; assumption. }
  destruct (LV 0 0 ltac:(lia) ltac:(lia)) as ((_ & _ & LM & _ & CO & LI & _) & RC & _).
  destruct (nonzero_list w h _ _ Hw Hh LM CO) as (skip & -> & BS). cbn [obind].
  set (hd := fun level => set_key_header (ap_key a) qi level ups skip).
  assert (FI : forall fa refs level, 0 <= level <= 63 -> exists r, raster_for w h r /\ picture_loopfilter None fa (key_pic (mb_dim w) (hd level) (ec_ms c) (ec_cs c) (repeat 0 (mb_dim w * mb_dim h))) (ec_r c) = Some (Filtered r) /\
    forall scratch, raster_for w h scratch -> picture_output None fa refs (key_pic (mb_dim w) (hd level) (ec_ms c) (ec_cs c) (repeat 0 (mb_dim w * mb_dim h))) scratch = Some (Filtered r)).
  { intros fa refs level L. destruct (LV level skip L BS) as ((K & SU & _ & FM & _ & _ & _) & _ & DE). fold (hd level) in K, SU, FM, DE.
    destruct (key_pic_good w h (hd level) (ec_ms c) (ec_cs c) (repeat 0 (mb_dim w * mb_dim h)) fa refs ltac:(lia) ltac:(lia) K SU LM FM CO LI) as (r & R & PO).
    exists r. split; [exact R|]. split; [|exact PO]. specialize (PO (tw_r k) (tko_r _ _ _ TK)). unfold picture_output in PO. rewrite (DE refs _ (tko_r _ _ _ TK)) in PO. exact PO. }
  destruct (best_filter_ok gt minus_one ssim (en_level (ap_enc a)) (fun level => picture_loopfilter None (fa_new zero_deltas) (key_pic (mb_dim w) (hd level) (ec_ms c) (ec_cs c) (repeat 0 (mb_dim w * mb_dim h))) (ec_r c)) o GL)
    as (b & level & r & EB & BL & EF & QQ).
  { intros l L. destruct (FI (fa_new zero_deltas) (mkRefs o o o) l L) as (r & _ & E & _). eauto. }
  assert (NF : ds_seg (fresh_state w h) = None) by reflexivity. cbv zeta. rewrite NF. unfold hd in EB. rewrite EB. cbn [obind].
  destruct (LV level skip BL BS) as (WR & _ & _). pose proof WR as (K & SU & _ & _ & _ & _ & NS).
  eexists _, _, _. split; [reflexivity|]. constructor; cbn [ap_enc ap_has ap_ssim en_refs en_state]; try reflexivity; try discriminate; try assumption.
  - constructor; cbn [ap_enc ap_safe ap_key ap_inter en_state en_refs en_level en_qi]; try assumption; [|split; [exact K|split; assumption]].
    destruct update; constructor; cbn [en_state en_refs]; try assumption; try reflexivity.
    apply set_fa_good; [|exact zero_fa_good]. constructor; cbn [fresh_state ds_w ds_h ds_pt ds_seg ds_fa]; try reflexivity; try discriminate. exact default_pt_good.
  - intros ->. destruct (ap_enc a). reflexivity.
  - intros [O1 O2]. split; [split; assumption|exact O1].
  - destruct (FI (fa_new zero_deltas) (mkRefs o o o) level BL) as (r2 & R2 & E & _). cbn beta in EF. rewrite E in EF. apply some_eq in EF. injection EF as <-. exact R2.
  - destruct QQ as [->|[-> X]]; [left; reflexivity|right; split; [reflexivity|exact X]].
  - intros e blank scratch e' bytes [[Ew2 Eh2 _ _ _] _ _ _ _] _ HS EW. unfold write_frame in EW. cbv zeta in EW. rewrite Ew2 in EW.
    assert (SG : ds_seg (update_state_key (en_state e) (hd level)) = None).
    { unfold update_state_key. cbv zeta. destruct (kf_refresh_entropy_probs (hd level)); cbn; rewrite GK3; reflexivity. }
    assert (SF : ds_fa (update_state_key (en_state e) (hd level)) = fa_new zero_deltas) by reflexivity.
    fold (hd level) in EW. rewrite SG, SF in EW.
    destruct (FI (fa_new zero_deltas) (mkRefs blank blank blank) level BL) as (r2 & _ & E2 & PO). rewrite (PO scratch HS) in EW. cbn beta in EF. rewrite E2 in EF. apply some_eq in EF. injection EF as ->.
    destruct (key_frame_serialize _ _ _ _ _ _ _); [|discriminate]. apply some_eq, pair_equal_spec in EW. destruct EW as [<- _]. reflexivity.
Qed.

Lemma raster_inter_ok w h a k o qi update : w mod 16 = 0 -> 0 < w <= 3968 -> 0 < h <= 3968 -> api_good w h a -> trial_ok w h k -> raster_for w h o -> qi_ok qi ->
  exists a' f r, encode_raster_inter gt minus_one ssim a k o qi update = Some (a', f, r) /\ encoded w h false a o qi update a' f r.
Proof.
  intros W16 Hw Hh G TK Ho QI. pose proof G as [GE GS GK (GI & GI2 & GI3) GL GQ]. pose proof GE as [ES EN EL EG EA]. pose proof ES as [Ew Eh _ _ _].
  destruct (quantizer_of qi QI) as (q & Eq).
  unfold encode_raster_inter. rewrite Ew, Eh, Eq. cbn [obind].
  set (env := mkSE _ _ _ _ _ _).
  assert (HE : env_ok (Z.of_nat (mb_dim w)) (Z.of_nat (mb_dim h)) env).
  { unfold env_ok, env. cbn [se_refs se_safe se_sads se_mv_costs]. destruct TK as [_ T1 [T2 T3] _ _]. cbv zeta. pose proof EL as (_ & DW & DH). rewrite DW, DH.
    split; [exact (encoder_refs w h _ GE)|]. split; [apply (raster_for_dims w h); [lia|lia|exact EL]|]. auto. }
  assert (K0 : ifh_ok (set_inter_header (ap_inter a) qi 0 (if_token_prob_update (ap_inter a)) 0 (if_prob_inter (ap_inter a), if_prob_references_last (ap_inter a), if_prob_references_golden (ap_inter a)))).
  { apply set_inter_ok; [exact GI|exact QI|lia|exact (conj (ifo_tl _ GI) (ifo_t _ GI))|lia|apply (ifo_inter _ GI)|apply (ifo_last _ GI)|apply (ifo_gold _ GI)]. }
  destruct (C64_inter w h _ q env (tw_costs k 0) o (tw_r k) (tw_t k) Hw Hh K0 GI2 GI3 ltac:(discriminate) Eq (tko_c _ _ _ TK 0) HE Ho (tko_r _ _ _ TK) (tko_t _ _ _ TK)) as (c & EC & WR0 & RC & _).
  destruct (WR0 true (repeat 0 (length (ec_ms c))) (repeat_length _ _)) as (_ & _ & LM & _ & CO & _ & _).
  assert (LI : length (repeat 0 (mb_dim w * mb_dim h)) = length (ec_ms c)) by (rewrite repeat_length; congruence).
  rewrite EC. cbn [obind].
  destruct (frame_tables w h (mb_dim w) (ec_ms c) (ec_cs c) (pt_coeff (ds_pt (en_state (ap_enc a)))) (if_token_prob_update (ap_inter a)) Hw Hh LM CO (pt_coeff_length _ _ _ ES) (conj (ifo_tl _ GI) (ifo_t _ GI)))
    as (counts & ups & -> & EU & UP). cbn [obind].
  destruct (nonzero_list w h _ _ Hw Hh LM CO) as (skip & -> & BS). cbn [obind].
  destruct (references_ok (map counted_reference (ec_ms c)) (if_prob_inter (ap_inter a)) (if_prob_references_last (ap_inter a)) (if_prob_references_golden (ap_inter a))) as (p1 & p2 & p3 & -> & P1 & P2 & P3);
    [|apply (ifo_inter _ GI)|apply (ifo_last _ GI)|apply (ifo_gold _ GI)|].
  { apply (count_small w h); [lia|lia|rewrite map_length; exact LM]. }
  cbn [obind]. rewrite EU. cbn [obind].
  assert (LV : forall level, 0 <= level <= 63 -> let hd := set_inter_header (ap_inter a) qi level ups skip (p1, p2, p3) in
    writable w h (InterW true hd (ec_ms c) (ec_cs c) (repeat 0 (mb_dim w * mb_dim h))) /\
    forall scratch, raster_for w h scratch -> picture_decode None (en_refs (ap_enc a)) (inter_pic (mb_dim w) hd (ec_ms c) (ec_cs c) (repeat 0 (mb_dim w * mb_dim h))) scratch = Some (ec_r c)).
  { intros level L hd. assert (K : ifh_ok hd) by (apply set_inter_ok; assumption).
    destruct (C64_inter w h hd q env (tw_costs k 0) o (tw_r k) (tw_t k) Hw Hh K GI2 GI3 ltac:(discriminate) Eq (tko_c _ _ _ TK 0) HE Ho (tko_r _ _ _ TK) (tko_t _ _ _ TK)) as (e & E & WR & R & DE).
    rewrite EC in E. apply some_eq in E. subst e. split; [apply WR; exact LI|]. intros scratch HS. apply DE; assumption. }
  set (hd := fun level => set_inter_header (ap_inter a) qi level ups skip (p1, p2, p3)).
  assert (FI : forall fa level, 0 <= level <= 63 -> exists r, raster_for w h r /\ picture_loopfilter None fa (inter_pic (mb_dim w) (hd level) (ec_ms c) (ec_cs c) (repeat 0 (mb_dim w * mb_dim h))) (ec_r c) = Some (Filtered r) /\
    forall scratch, raster_for w h scratch -> picture_output None fa (en_refs (ap_enc a)) (inter_pic (mb_dim w) (hd level) (ec_ms c) (ec_cs c) (repeat 0 (mb_dim w * mb_dim h))) scratch = Some (Filtered r)).
  { intros fa level L. destruct (LV level L) as ((K & SU & _ & FM & _ & _ & _) & DE). fold (hd level) in K, SU, FM, DE.
    destruct (inter_pic_good w h (hd level) (ec_ms c) (ec_cs c) (repeat 0 (mb_dim w * mb_dim h)) fa (en_refs (ap_enc a)) ltac:(lia) ltac:(lia) K SU LM FM CO LI (encoder_refs w h _ GE)) as (r & R & PO).
    exists r. split; [exact R|]. split; [|exact PO]. specialize (PO (tw_r k) (tko_r _ _ _ TK)). unfold picture_output in PO. rewrite (DE _ (tko_r _ _ _ TK)) in PO. exact PO. }
  destruct (best_filter_ok gt minus_one ssim (en_level (ap_enc a)) (fun level => picture_loopfilter None (fa_new zero_deltas) (inter_pic (mb_dim w) (hd level) (ec_ms c) (ec_cs c) (repeat 0 (mb_dim w * mb_dim h))) (ec_r c)) o GL)
    as (b & level & r & EB & BL & EF & QQ).
  { intros l L. destruct (FI (fa_new zero_deltas) l L) as (r & _ & E & _). eauto. }
  cbv zeta. rewrite EN. unfold hd in EB. rewrite EB. cbn [obind].
  destruct (LV level BL) as (WR & _). pose proof WR as (K & SU & _ & _ & _ & _ & NS).
  eexists _, _, _. split; [reflexivity|]. constructor; cbn [ap_enc ap_has ap_ssim en_refs en_state]; try reflexivity; try discriminate; try assumption.
  - constructor; cbn [ap_enc ap_safe ap_key ap_inter en_state en_refs en_level en_qi]; try assumption; [|split; [exact K|split; assumption]].
    destruct update; constructor; cbn [en_state en_refs]; try assumption; try reflexivity.
    apply set_fa_good; [exact ES|exact zero_fa_good].
  - intros _. destruct update; reflexivity.
  - intros ->. destruct (ap_enc a). reflexivity.
  - intros [O1 O2]. split; [split; assumption|]. split; [exact O2|]. exact (inter_unsplit _ _ _ _ _ _ _ _ _ EC).
  - destruct (FI (fa_new zero_deltas) level BL) as (r2 & R2 & E & _). cbn beta in EF. rewrite E in EF. apply some_eq in EF. injection EF as <-. exact R2.
  - destruct QQ as [->|[-> X]]; [left; reflexivity|right; split; [reflexivity|exact X]].
  - intros e blank scratch e' bytes [[Ew2 Eh2 _ _ _] EN2 _ _ _] ER HS EW. unfold write_frame in EW. cbv zeta in EW. rewrite Ew2 in EW.
    assert (SG : ds_seg (update_state_inter (en_state e) (hd level)) = None).
    { unfold update_state_inter. cbv zeta. destruct (if_refresh_entropy_probs (hd level)); cbn; exact EN2. }
    assert (SF : ds_fa (update_state_inter (en_state e) (hd level)) = fa_new zero_deltas).
    { unfold update_state_inter. cbv zeta. cbn [hd set_inter_header if_refresh_entropy_probs if_mode_lf_adjustments set_tables set_fa ds_fa]. unfold zero_deltas, inter_fa. destruct (ds_fa (en_state e)); reflexivity. }
    fold (hd level) in EW. rewrite SG, SF, ER in EW.
    destruct (FI (fa_new zero_deltas) level BL) as (r2 & _ & E2 & PO). rewrite (PO scratch HS) in EW. cbn beta in EF. rewrite E2 in EF. apply some_eq in EF. injection EF as ->.
    destruct (inter_frame_serialize _ _ _ _ _ _ _); [|discriminate]. apply some_eq, pair_equal_spec in EW. destruct EW as [<- _]. cbn [en_refs]. apply inter_last. reflexivity.
Qed.

Lemma raster_encoded w h key a k o qi update : w mod 16 = 0 -> 0 < w <= 3968 -> 0 < h <= 3968 -> api_good w h a -> trial_ok w h k -> raster_for w h o -> qi_ok qi ->
  exists a' f r, encode_raster gt minus_one ssim key a k o qi update = Some (a', f, r) /\ encoded w h key a o qi update a' f r.
Proof. intros. destruct key; [apply raster_key_ok|apply raster_inter_ok]; assumption. Qed.

(** ** The three references *)
Lemma safe_refs_ok w h refs junk : w mod 16 = 0 -> 0 < w <= 3968 -> 0 < h <= 3968 -> raster_for w h (rf_last refs) -> raster_for w h (rf_golden refs) -> raster_for w h (rf_alt refs) ->
  (forall i, zlen (junk i) = (w + 512) * (h + 512)) ->
  exists safe, safe_refs refs junk = Some safe /\ pl_w safe = w + 512 /\ pl_h safe = h + 512 /\ shows MARGIN_WIDTH w h (ra_y (rf_last refs)) safe.
Proof.
  intros W16 Hw Hh R1 R2 R3 J.
  assert (L : forall r i, raster_for w h r -> exists safe, load MARGIN_WIDTH r (junk i) = Some safe /\ pl_w safe = w + 512 /\ pl_h safe = h + 512 /\ shows MARGIN_WIDTH w h (ra_y r) safe).
  { intros r i R. pose proof R as ((Y & _) & DW & DH). destruct (C62_load r (junk i)) as (safe & E & _ & A & B & C).
    - apply (raster_for_dims w h); [lia|lia|exact R].
    - destruct Y as (_ & Ew & _). rewrite Ew, DW. unfold mb_dim. lia.
    - rewrite DW, DH. apply J.
    - rewrite DW, DH in *. eauto 6. }
  unfold safe_refs. destruct (L _ 0%nat R1) as (safe & -> & A). destruct (L _ 1%nat R2) as (s2 & -> & _). destruct (L _ 2%nat R3) as (s3 & -> & _). cbn [obind]. eauto.
Qed.

(** ** Sizes *)
Definition written (pt : ProbabilityTables) (w h : Z) (f : wframe) (bytes : list Z) : Prop :=
  match f with
  | KeyW show hd ms cs _ => key_frame_serialize pt show w h hd ms cs = Some bytes
  | InterW show hd ms cs _ => inter_frame_serialize pt show w h hd ms cs = Some bytes
  end.

Lemma concat_part {A} (l : list (list A)) p : In p l -> zlen p <= zlen (concat l).
Proof. induction l as [|x l IH]; [intros []|]. intros [E|I]; cbn [concat]; rewrite zlen_app; unfold zlen in *; [subst; lia|specialize (IH I); lia]. Qed.
Lemma in_removelast {A} (x : A) l : In x (removelast l) -> In x l.
Proof. induction l as [|a l IH]; [intros []|]. cbn [removelast]. destruct l; [intros []|]. intros [E|I]; [left; exact E|right; apply IH, I]. Qed.

Lemma make_frame_fits key show ex ru w h first parts bytes : make_frame key show ex ru w h first parts = Some bytes -> zlen bytes < 2 ^ 19 -> sizes_fit first parts bytes.
Proof.
  unfold make_frame. destruct (_ || _); [discriminate|]. destruct (match parts with [] => true | _ => false end); [discriminate|]. cbv zeta.
  intros E L. apply some_eq in E. rewrite <- E in L.
  assert (B : zlen first + zlen (concat parts) <= zlen bytes) by (rewrite <- E; rewrite !zlen_app; unfold zlen; lia). rewrite E in L.
  assert (0 <= zlen first) by (unfold zlen; lia). assert (0 <= zlen (concat parts)) by (unfold zlen; lia).
  split; [lia|]. split; [|change (2 ^ 64) with 18446744073709551616; change (2 ^ 19) with 524288 in L; lia].
  apply Forall_forall. intros p Hp. pose proof (concat_part parts p (in_removelast _ _ Hp)). change (2 ^ 24) with 16777216. change (2 ^ 19) with 524288 in L. lia.
Qed.

(** Short frames fit the length fields of the container, and so do frames of
    few macroblocks. *)
Lemma small_sizes s w h f bytes : 0 < w <= 16383 -> 0 <= h <= 16383 -> w = ds_w s -> h = ds_h s -> writable w h f ->
  written (ds_pt (match f with KeyW _ hd _ _ _ => update_state_key s hd | InterW _ hd _ _ _ => update_state_inter s hd end)) w h f bytes ->
  zlen bytes < 2 ^ 19 \/ macroblocks w h <= 1320 \/ plain f /\ macroblocks w h <= 4700 -> sizes_ok (ds_pt s) w h f bytes.
Proof.
  intros Hw Hh -> -> WR W L. destruct f as [show hd ms cs ids|show hd ms cs ids]; cbn [written sizes_ok plain writable] in *; intros first parts E1 E2.
  - assert (SER : key_frame_serialize default_pt show (ds_w s) (ds_h s) hd ms cs = Some bytes).
    { rewrite <- W. unfold update_state_key. destruct (kf_refresh_entropy_probs hd); cbn [set_tables ds_pt key_state]; [|reflexivity]. symmetry.
      apply (proj1 (C50_serialise_with_updated_tables default_pt show (ds_w s) (ds_h s) hd
        (mkIFH None false 0 0 None 0 (kf_quant_indices hd) false false None None false false false false [] None 0 0 0 None None []) ms cs)). }
    unfold key_frame_serialize in SER. cbv zeta in SER. rewrite E1, E2 in SER. destruct L as [L|L]; [exact (make_frame_fits _ _ _ _ _ _ _ _ _ SER L)|].
    destruct WR as (K & _ & LM & _ & CO & _). apply (key_fits (pt_coeff (coeff_prob_update default_pt (kf_token_prob_update hd))) show (ds_w s) (ds_h s) hd ms cs); try assumption. destruct L; [left; lia|right; assumption].
  - assert (SER : inter_frame_serialize (ds_pt s) show (ds_w s) (ds_h s) hd ms cs = Some bytes).
    { rewrite <- W. unfold update_state_inter. cbv zeta. destruct (if_refresh_entropy_probs hd); cbn [set_tables set_fa ds_pt]; [|reflexivity]. symmetry.
      apply (proj2 (C50_serialise_with_updated_tables (ds_pt s) show (ds_w s) (ds_h s) empty_key_header hd ms cs)). }
    unfold inter_frame_serialize in SER. cbv zeta in SER. rewrite E1, E2 in SER. destruct L as [L|L]; [exact (make_frame_fits _ _ _ _ _ _ _ _ _ SER L)|].
    destruct WR as (K & _ & LM & F & CO & _). apply (inter_fits_container (pt_coeff (pt_update (ds_pt s) hd)) (pt_update (ds_pt s) hd) show (ds_w s) (ds_h s) hd ms cs); try assumption; [exact (intra_sixteen _ _ _ _ F)|]. destruct L as [L|[[L1 L2] L3]]; [left; exact L|right; auto].
Qed.

(** ** Writing *)

(** What a call may be given besides the picture: any contents of the right
    sizes. *)
Record job_ok (w h : Z) (j : job) : Prop := {
  jbo_o : raster_for w h (jb_raster j);
  jbo_w : forall i, trial_ok w h (jb_works j i);
  jbo_s : raster_for w h (jb_scratch j);
  jbo_j : forall i, zlen (jb_junk j i) = (w + 512) * (h + 512)
}.

(** What a decoder must share with the encoder before a frame. *)
Definition follows (key : bool) (e : encoder) (d : decoder) : Prop :=
  key = false -> ds_pt (dc_state d) = ds_pt (en_state e) /\ dc_refs d = en_refs e /\ ds_seg (dc_state d) = None.

Lemma write_written e f blank scratch e' bytes : write_frame e f blank scratch = Some (e', bytes) ->
  written (ds_pt (en_state e')) (ds_w (en_state e)) (ds_h (en_state e)) f bytes /\
  en_state e' = match f with KeyW _ hd _ _ _ => update_state_key (en_state e) hd | InterW _ hd _ _ _ => update_state_inter (en_state e) hd end /\
  (en_realtime e = false -> en_level e' = en_level e /\ en_qi e' = en_qi e).
Proof.
  unfold write_frame. cbv zeta. destruct f as [show hd ms cs ids|show hd ms cs ids]; intros EW;
  destruct (picture_output _ _ _ _ _) as [[r|]|]; try discriminate.
  - destruct (key_frame_serialize _ _ _ _ _ _ _) as [b|] eqn:E; [|discriminate]. apply some_eq, pair_equal_spec in EW. destruct EW as [<- <-]. cbn [en_state en_level en_qi written]. split; [exact E|]. split; [reflexivity|]. intros ->. auto.
  - destruct (inter_frame_serialize _ _ _ _ _ _ _) as [b|] eqn:E; [|discriminate]. apply some_eq, pair_equal_spec in EW. destruct EW as [<- <-]. cbn [en_state en_level en_qi written]. split; [exact E|]. split; [reflexivity|]. intros ->. auto.
Qed.

(** The condition on what is written: short, or of few macroblocks; the more
    generous number if the frames have one partition of coefficients. *)
Definition fits_container (w h : Z) (a : api) (bytes : list Z) : Prop :=
  zlen bytes < 2 ^ 19 \/ macroblocks w h <= 1320 \/ one_partition a /\ macroblocks w h <= 4700.

Lemma finish w h key t o qi a f r j : w mod 16 = 0 -> 0 < w <= 3968 -> 0 < h <= 3968 -> encoded w h key t o qi false a f r -> job_ok w h j ->
  exists a' bytes, api_write a f j = Some (a', bytes) /\ api_good w h a' /\ ap_has a' = ap_has t /\ rf_last (en_refs (ap_enc a')) = r /\ recorded o r (ap_ssim a') /\ (one_partition t -> one_partition a') /\
    bytes_ok bytes /\ written (ds_pt (en_state (ap_enc a'))) w h f bytes /\
    forall d scratch, decoder_good w h d -> follows key (ap_enc t) d -> raster_for w h scratch -> fits_container w h t bytes ->
      exists d', get_frame_output d (chunk_of bytes) scratch = (d', Output true r) /\ lockstep (ap_enc a') d' /\ decoder_good w h d'.
Proof.
  intros W16 Hw Hh EC JO. pose proof EC as [EG EH ER EP ES EW EK EQ ESH ED ELA EPT RR RS WR]. specialize (ES eq_refl).
  pose proof EG as [GE GS GK GI GL GQ]. pose proof GE as [ESG ENS _ _ _]. pose proof ESG as [Ew Eh _ _ _].
  destruct (write_good w h (ap_enc a) f (jb_blank j) (jb_scratch j) ltac:(lia) ltac:(lia) GE EW (jbo_s _ _ _ JO)) as (e' & bytes & E & GE' & _).
  pose proof (write_written _ _ _ _ _ _ E) as (WN & WS & WL). rewrite Ew, Eh in WN.
  assert (RL : rf_last (en_refs e') = r) by (apply (WR (ap_enc a) (jb_blank j) (jb_scratch j) e' bytes); [exact GE|exact ER|apply JO|exact E]).
  pose proof GE' as [_ _ R1 R2 R3].
  destruct (safe_refs_ok w h (en_refs e') (jb_junk j) W16 Hw Hh R1 R2 R3 (jbo_j _ _ _ JO)) as (safe & SA & S1 & S2 & S3).
  unfold api_write. rewrite E. cbn [obind fst snd]. rewrite SA. cbn [obind].
  assert (RD : forall d, decoder_good w h d -> follows key (ap_enc t) d -> ready w h (ap_enc a) d f).
  { intros d GD FO. split; [exact Ew|]. split; [exact Eh|]. destruct f as [| show hd ms cs ids]; [exact I|]. cbn [is_key] in EK. subst key. destruct (FO eq_refl) as (F1 & F2 & F3). rewrite ES.
    split; [exact F1|]. split; [exact F2|]. split; [rewrite <- ES; exact ENS|]. split; [exact F3|]. right. cbn [frame_deltas] in ED. rewrite ED. eexists. reflexivity. }
  eexists _, _. split; [reflexivity|]. cbn [ap_enc ap_has ap_ssim]. split; [|split; [exact EH|split; [exact RL|split; [exact RS|split; [exact (fun O => proj1 (EPT O))|split; [|split; [exact WN|]]]]]]].
  - constructor; cbn [ap_enc ap_safe ap_key ap_inter]; try assumption; [auto| |]; destruct (en_realtime (ap_enc a)) eqn:RT.
    + destruct (C28_windows _ _ _ _ _ _ w h EW E RT) as [_ (l & -> & B)]. cbn. lia.
    + destruct (WL eq_refl) as [-> _]. exact GL.
    + destruct (C28_windows _ _ _ _ _ _ w h EW E RT) as [(l & -> & B) _]. cbn. lia.
    + destruct (WL eq_refl) as [_ ->]. exact GQ.
  - destruct (C28_frame w h (ap_enc a) (mkDecoder (en_state (ap_enc a)) (en_refs (ap_enc a)) false) f (jb_blank j) (jb_scratch j) (jb_scratch j) ltac:(lia) ltac:(lia) (encoder_decoder w h _ GE)) as (e2 & b2 & E2 & B2 & _);
      [|exact EW|apply JO|apply JO|rewrite E in E2; apply some_eq, pair_equal_spec in E2; destruct E2 as [_ <-]; exact B2].
    split; [exact Ew|]. split; [exact Eh|]. destruct f; [exact I|]. cbn [dc_state dc_refs]. auto 7.
  - intros d scratch GD FO HS LB.
    destruct (C28_frame w h (ap_enc a) d f (jb_blank j) (jb_scratch j) scratch ltac:(lia) ltac:(lia) GD (RD d GD FO) EW (jbo_s _ _ _ JO) HS) as (e2 & b2 & E2 & _ & C).
    rewrite E in E2. apply some_eq, pair_equal_spec in E2. destruct E2 as [<- <-].
    destruct C as (d' & r' & G' & LS & KR & DG).
    { apply small_sizes; [lia|lia|congruence|congruence|exact EW| |]; [rewrite WS in WN; exact WN|]. destruct LB as [LB|[LB|[O LB]]]; [left; exact LB|right; left; exact LB|right; right]. split; [exact (proj2 (EPT O))|exact LB]. }
    exists d'. assert (r' = r) as ->.
    { destruct f as [|? hd ? ? ?]; cbn [kept_raster] in KR; [congruence|]. cbn [keeps_last] in ELA. specialize (KR ELA). congruence. }
    rewrite ESH in G'. auto.
Qed.

(** ** The searches *)
Lemma quality_loop_inv {T} (P : T -> Prop) measure : (forall t q, 0 <= q <= 127 -> P t -> P (snd (measure t q))) ->
  forall fuel (t : T) lo hi found best q t', 0 <= lo -> hi <= 127 -> P t -> quality_loop measure fuel t lo hi found best = Some (q, t') -> P t'.
Proof.
  intros M. induction fuel as [|fuel IH]; intros t lo hi found best q t' L H PT E; [discriminate|]. cbn [quality_loop] in E.
  destruct (lo <=? hi) eqn:C; [|apply some_eq, pair_equal_spec in E; destruct E as [_ <-]; exact PT]. cbv zeta in E.
  assert (B : lo <= Z.quot (lo + hi) 2 <= hi) by lia.
  specialize (M t (Z.quot (lo + hi) 2) ltac:(lia) PT). destruct (measure t _) as [c t1]. cbn [snd] in M.
  destruct (lo =? hi); [apply some_eq, pair_equal_spec in E; destruct E as [_ <-]; exact M|].
  destruct c; eapply IH in E; try exact E; try exact M; lia.
Qed.

Lemma quality_search_inv {T} (P : T -> Prop) measure fuel (t : T) q t' : (forall t q, 0 <= q <= 127 -> P t -> P (snd (measure t q))) ->
  P t -> quality_search measure fuel t = Some (q, t') -> P t'.
Proof. intros M PT E. unfold quality_search in E. apply (quality_loop_inv P measure M fuel t 0 127 false 0 q t'); try lia; assumption. Qed.

Lemma only_y_ac_ok y : 0 <= y <= 127 -> qi_ok (only_y_ac y).
Proof. intros B. unfold only_y_ac. replace (wrap 8 y) with y by (unfold wrap; symmetry; apply Z.mod_small; lia). qi_solve. Qed.

Lemma quality_constant T (measure : T -> Z -> comparison_ssim * T) z fuel t q t' : (9 <= fuel)%nat -> (forall t y, fst (measure t y) = z) ->
  quality_search measure fuel t = Some (q, t') -> q = match z with Below => 0 | _ => 127 end.
Proof.
  intros F SL R. destruct z.
  - destruct (C45_search_partial T measure (fun _ => AtLeast) fuel t q t' SL) as [B [P G]]; [discriminate|reflexivity|exact F|exact R|].
    destruct (Z.eq_dec q 127) as [E|E]; [exact E|]. specialize (P 127 ltac:(lia)). discriminate P.
  - destruct (C45_search_partial T measure (fun _ => Below) fuel t q t' SL) as [B [P G]]; [discriminate|discriminate|exact F|exact R|].
    destruct G as [G|[G _]]; [discriminate G|exact G].
  - assert (U := quality_loop_unordered _ _ SL 8 fuel t 0 127 0 F ltac:(lia) ltac:(lia) ltac:(lia)).
    destruct U as [t2 U]. unfold quality_search in R. rewrite U in R. injection R as <- _. reflexivity.
Qed.

Lemma search_ok w h key z a j : w mod 16 = 0 -> 0 < w <= 3968 -> 0 < h <= 3968 -> api_good w h a -> job_ok w h j ->
  exists t a' f r, encode_with_quantizer_search gt minus_one ssim key z a j = Some (a', f, r) /\
    encoded w h key t (jb_raster j) (only_y_ac (match z with Below => 0 | _ => 127 end)) false a' f r /\
    ap_has t = ap_has a /\ en_refs (ap_enc t) = en_refs (ap_enc a) /\ (key = false -> ds_pt (en_state (ap_enc t)) = ds_pt (en_state (ap_enc a))) /\ (one_partition a -> one_partition t).
Proof.
  intros W16 Hw Hh G JO. unfold encode_with_quantizer_search.
  destruct (C45_bounds _ (search_trial gt minus_one ssim key z j) 9 (Some (a, 0%nat)) ltac:(lia)) as (q & t & E & B).
  assert (SL : forall t y, fst (search_trial gt minus_one ssim key z j t y) = z) by reflexivity.
  pose proof (quality_constant _ _ z 9 _ q t ltac:(lia) SL E) as EQ.
  set (P := fun t : option (api * nat) => exists b i, t = Some (b, i) /\ api_good w h b /\ ap_has b = ap_has a /\ en_refs (ap_enc b) = en_refs (ap_enc a) /\ (key = false -> ds_pt (en_state (ap_enc b)) = ds_pt (en_state (ap_enc a))) /\ (one_partition a -> one_partition b)).
  assert (PT : P t).
  { apply (quality_search_inv P (search_trial gt minus_one ssim key z j) 9 (Some (a, 0%nat)) q t); [| |exact E].
    - intros t1 y BY (b & i & -> & GB & H1 & H2 & H3 & H4). cbn [search_trial snd].
      destruct (raster_encoded w h key b (jb_works j i) (jb_raster j) (only_y_ac y) true W16 Hw Hh GB (jbo_w _ _ _ JO i) (jbo_o _ _ _ JO) (only_y_ac_ok y BY)) as (b' & f & r & -> & EC).
      exists b', (S i). split; [reflexivity|]. destruct EC. split; [assumption|]. split; [congruence|]. split; [congruence|]. split; [intros K; rewrite ecd_pt0 by exact K; apply H3, K|]. intros O. apply ecd_parts0, H4, O.
    - exists a, 0%nat. auto 7. }
  destruct PT as (b & i & -> & GB & H1 & H2 & H3 & H4). rewrite E. cbn [obind fst snd].
  assert (BQ : 0 <= q <= 127) by exact B.
  destruct (raster_encoded w h key b (jb_works j i) (jb_raster j) (only_y_ac q) false W16 Hw Hh GB (jbo_w _ _ _ JO i) (jbo_o _ _ _ JO) (only_y_ac_ok q BQ)) as (a' & f & r & -> & EC).
  exists b, a', f, r. rewrite <- EQ. auto 7.
Qed.

(** ** Calls *)

(** The quantiser a call uses. *)
Definition uses (a : api) (c : call) (y : Z) : Prop :=
  match c with
  | WithQuantizer y0 => y = y0
  | WithMinimumSsim z => y = match z with Below => 0 | _ => 127 end
  | WithTargetSize _ _ => allowed (en_qi (ap_enc a)) y
  end.

Lemma with_quantizer_ok w h a j y : w mod 16 = 0 -> 0 < w <= 3968 -> 0 < h <= 3968 -> api_good w h a -> job_ok w h j -> 0 <= y <= 127 ->
  exists a' f bytes, with_quantizer gt minus_one ssim a j y = Some (a', bytes) /\ api_good w h a' /\ ap_has a' = true /\
    is_key f = negb (ap_has a) /\ frame_qi f = only_y_ac y /\ recorded (jb_raster j) (rf_last (en_refs (ap_enc a'))) (ap_ssim a') /\ (one_partition a -> one_partition a') /\
    bytes_ok bytes /\ (written (ds_pt (en_state (ap_enc a'))) w h f bytes /\ writable w h f) /\
    forall d scratch, decoder_good w h d -> follows (negb (ap_has a)) (ap_enc a) d -> raster_for w h scratch -> fits_container w h a bytes ->
      exists d', get_frame_output d (chunk_of bytes) scratch = (d', Output true (rf_last (en_refs (ap_enc a')))) /\ lockstep (ap_enc a') d' /\ decoder_good w h d'.
Proof.
  intros W16 Hw Hh G JO BY. unfold with_quantizer.
  assert (GS : api_good w h (started a)) by (destruct G; constructor; assumption).
  destruct (raster_encoded w h (negb (ap_has a)) (started a) (jb_works j 0) (jb_raster j) (only_y_ac y) false W16 Hw Hh GS (jbo_w _ _ _ JO 0%nat) (jbo_o _ _ _ JO) (only_y_ac_ok y BY)) as (a1 & f & r & -> & EC).
  cbn [obind fst snd]. pose proof (ecd_key _ _ _ _ _ _ _ _ _ _ EC) as EK. pose proof (ecd_qi _ _ _ _ _ _ _ _ _ _ EC) as EQ.
  destruct (finish w h _ _ _ _ _ _ _ j W16 Hw Hh EC JO) as (a' & bytes & -> & GA & HA & <- & REC & OP & BB & WN & DEC).
  exists a', f, bytes. split; [reflexivity|]. split; [exact GA|]. split; [exact HA|]. split; [exact EK|]. split; [exact EQ|]. split; [exact REC|]. split; [exact OP|]. split; [exact BB|]. split; [exact (conj WN (ecd_writable _ _ _ _ _ _ _ _ _ _ EC))|]. exact DEC.
Qed.

Lemma call_ok_main w h a c j : w mod 16 = 0 -> 0 < w <= 3968 -> 0 < h <= 3968 -> api_good w h a -> job_ok w h j -> match c with WithQuantizer y => 0 <= y <= 127 | _ => True end ->
  exists a' f bytes y, api_call gt minus_one ssim a c j = Ok (a', bytes) /\ api_good w h a' /\ ap_has a' = true /\
    is_key f = negb (ap_has a) /\ frame_qi f = only_y_ac y /\ uses a c y /\ 0 <= y <= 127 /\ recorded (jb_raster j) (rf_last (en_refs (ap_enc a'))) (ap_ssim a') /\ (one_partition a -> one_partition a') /\
    bytes_ok bytes /\ (written (ds_pt (en_state (ap_enc a'))) w h f bytes /\ writable w h f) /\
    forall d scratch, decoder_good w h d -> follows (negb (ap_has a)) (ap_enc a) d -> raster_for w h scratch -> fits_container w h a bytes ->
      exists d', get_frame_output d (chunk_of bytes) scratch = (d', Output true (rf_last (en_refs (ap_enc a')))) /\ lockstep (ap_enc a') d' /\ decoder_good w h d'.
Proof.
  intros W16 Hw Hh G JO CO. unfold api_call. cbv zeta. pose proof G as [[[Ew Eh _ _ _] _ _ _ _] _ _ _ _ GQ]. pose proof (jbo_o _ _ _ JO) as (_ & DW & DH).
  rewrite Ew, Eh, DW, DH, !Z.eqb_refl. cbn [andb negb]. destruct c as [y|z|estimate target].
  - destruct (with_quantizer_ok w h a j y W16 Hw Hh G JO CO) as (a' & f & bytes & -> & K). cbn [not_broken]. exists a', f, bytes, y. cbn [uses]. intuition.
  - assert (GS : api_good w h (started a)) by (destruct G; constructor; assumption).
    destruct (search_ok w h (negb (ap_has a)) z (started a) j W16 Hw Hh GS JO) as (t & a1 & f & r & -> & EC & T1 & T2 & T3 & T4). cbn [obind fst snd].
    pose proof (ecd_key _ _ _ _ _ _ _ _ _ _ EC) as EK. pose proof (ecd_qi _ _ _ _ _ _ _ _ _ _ EC) as EQ.
    destruct (finish w h _ _ _ _ _ _ _ j W16 Hw Hh EC JO) as (a' & bytes & -> & GA & HA & <- & REC & OP & BB & WN & DEC). cbn [not_broken].
    exists a', f, bytes, (match z with Below => 0 | _ => 127 end). split; [reflexivity|]. split; [exact GA|]. split; [rewrite HA, T1; reflexivity|]. split; [exact EK|]. split; [exact EQ|].
    split; [reflexivity|]. split; [destruct z; lia|]. split; [exact REC|]. split; [exact (fun O => OP (T4 O))|]. split; [exact BB|]. split; [exact (conj WN (ecd_writable _ _ _ _ _ _ _ _ _ _ EC))|].
    intros d scratch GD FO HS LB. apply DEC; try assumption; [intros K; specialize (FO K); rewrite T2, (T3 K); exact FO|]. destruct LB as [LB|[LB|[O LB]]]; [left; exact LB|right; left; exact LB|right; right]. split; [exact (T4 O)|exact LB].
  - destruct (C44_bounds nat (fun i y => (estimate i y, S i)) target 8 0%nat (en_qi (ap_enc a)) ltac:(lia) GQ) as (y & i & -> & AL). cbn [obind fst].
    assert (BY : 0 <= y <= 127) by (unfold allowed in AL; lia).
    destruct (with_quantizer_ok w h a j y W16 Hw Hh G JO BY) as (a' & f & bytes & -> & K). cbn [not_broken]. exists a', f, bytes, y. cbn [uses]. intuition.
Qed.
End Pictures.
