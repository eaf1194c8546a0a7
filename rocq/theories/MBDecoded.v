(** Everything the parser produces, from any bits at all, satisfies the
    consistency conditions under which the round trip holds. *)
From Verif Require Import Base BoolCoderModel ParserModel Tables TreeModel HeaderModel MVModel MBModel.
From Verif Require Import BoolEncProofs ParserProofs HeaderProofs MVProofs CodingSpec PropTrees MBProofs.

Definition yields {A} (m : dec A) (P : A -> Prop) : Prop := forall d, P (fst (m d)).

Lemma yields_ret {A} (x : A) (P : A -> Prop) : P x -> yields (dret x) P.
Proof. intros H d. exact H. Qed.
Lemma yields_bind {A B} (m : dec A) (f : A -> dec B) P Q :
  yields m P -> (forall x, P x -> yields (f x) Q) -> yields (dbind m f) Q.
Proof.
  intros HM HF d. unfold dbind. specialize (HM d). destruct (m d) as [x d']. exact (HF x HM d').
Qed.
Lemma yields_impl {A} (m : dec A) (P Q : A -> Prop) : yields m P -> (forall x, P x -> Q x) -> yields m Q.
Proof. intros H I d. apply I, H. Qed.
Lemma yields_true {A} (m : dec A) : yields m (fun _ => True).
Proof. intros d. exact I. Qed.
Lemma yields_and {A} (m : dec A) P Q : yields m P -> yields m Q -> yields m (fun x => P x /\ Q x).
Proof. intros H1 H2 d. split; auto. Qed.

Lemma yields_tree tree syms probs : In (tree, syms) trees_and_symbols ->
  yields (tree_decode tree probs) (fun s => In s syms).
Proof. intros H d. eapply C04_tree_decode_total. exact H. Qed.

Lemma yields_unsigned w : yields (unsigned_decode w) (u_ok (Z.of_nat w)).
Proof.
  unfold u_ok. induction w as [|w IH].
  - cbn. apply yields_ret. lia.
  - cbn [unsigned_decode]. eapply yields_bind; [apply yields_true|]. intros b _.
    eapply yields_bind; [exact IH|]. intros r Hr. cbn beta in Hr. apply yields_ret.
    rewrite bit_lor by lia. rewrite Nat2Z.inj_succ, Z.pow_succ_r by lia. destruct b; lia.
Qed.

Lemma yields_signed w : yields (signed_decode w) (s_ok (Z.of_nat w)).
Proof.
  unfold signed_decode, s_ok. eapply yields_bind; [apply yields_unsigned|]. intros v Hv. unfold u_ok in Hv.
  eapply yields_bind; [apply yields_true|]. intros s _. apply yields_ret. destruct s; lia.
Qed.

Lemma yields_flagged {A} p (m : dec A) P : yields m P -> yields (flagged_decode p m) (o_ok P).
Proof.
  intros H. unfold flagged_decode. eapply yields_bind; [apply yields_true|]. intros b _. destruct b.
  - eapply yields_bind; [exact H|]. intros x Hx. apply yields_ret. intros y E. injection E as <-. exact Hx.
  - apply yields_ret. intros y E. discriminate.
Qed.

Lemma yields_optional {A} (c : bool) (m : dec A) P : yields m P ->
  yields (optional_decode c m) (fun o => (c = true <-> o <> None) /\ o_ok P o).
Proof.
  intros H. unfold optional_decode. destruct c.
  - eapply yields_bind; [exact H|]. intros x Hx. apply yields_ret. split; [split; [discriminate|reflexivity]|].
    intros y E. injection E as <-. exact Hx.
  - apply yields_ret. split; [split; [discriminate|congruence]|]. intros y E. discriminate.
Qed.

Lemma yields_drep {A} n (m : dec A) P : yields m P -> yields (drep n m) (fun l => length l = n /\ Forall P l).
Proof.
  intros H. induction n as [|n IH]; [apply yields_ret; split; [reflexivity|constructor]|].
  cbn [drep]. eapply yields_bind; [exact H|]. intros x Hx. eapply yields_bind; [exact IH|].
  intros l [HL HF]. apply yields_ret. split; [cbn; lia|constructor; assumption].
Qed.

Lemma yields_dmap {A B} (f : A -> dec B) P l : (forall a, yields (f a) P) ->
  yields (dmap f l) (fun r => length r = length l /\ Forall P r).
Proof.
  intros H. induction l as [|a l IH]; [apply yields_ret; split; [reflexivity|constructor]|].
  cbn [dmap]. eapply yields_bind; [apply H|]. intros x Hx. eapply yields_bind; [exact IH|].
  intros r [HL HF]. apply yields_ret. split; [cbn; lia|constructor; assumption].
Qed.

Ltac ybind H := eapply yields_bind; [H|]; intros ? ?.

(** ** Headers *)

Lemma yields_qi : yields quant_indices_decode qi_ok.
Proof.
  unfold quant_indices_decode. eapply yields_bind; [apply (yields_unsigned 7)|]. intros a Ha.
  do 5 (eapply yields_bind; [apply yields_flagged, (yields_signed 4)|]; intros ? ?).
  apply yields_ret. constructor; assumption.
Qed.

Lemma yields_lfd : yields lf_delta_decode lfd_ok.
Proof.
  unfold lf_delta_decode.
  do 2 (eapply yields_bind; [apply yields_drep, yields_flagged, (yields_signed 6)|]; intros ? [? ?]).
  apply yields_ret. constructor; assumption.
Qed.

Lemma yields_sfd : yields segment_feature_data_decode sfd_ok.
Proof.
  unfold segment_feature_data_decode. eapply yields_bind; [apply yields_true|]. intros a _.
  eapply yields_bind; [apply yields_drep, yields_flagged, (yields_signed 7)|]. intros ? [? ?].
  eapply yields_bind; [apply yields_drep, yields_flagged, (yields_signed 6)|]. intros ? [? ?].
  apply yields_ret. constructor; assumption.
Qed.

Lemma yields_us : yields update_segmentation_decode us_ok.
Proof.
  unfold update_segmentation_decode. eapply yields_bind; [apply yields_true|]. intros u _.
  eapply yields_bind; [apply yields_flagged, yields_sfd|]. intros s Hs.
  eapply yields_bind; [apply yields_optional, yields_drep, yields_flagged, (yields_unsigned 8)|]. intros m [H1 H2].
  apply yields_ret. constructor; assumption.
Qed.

Lemma yields_kfh : yields key_frame_header_decode kfh_ok.
Proof.
  unfold key_frame_header_decode, token_prob_update_decode.
  do 2 (eapply yields_bind; [apply yields_true|]; intros ? _).
  eapply yields_bind; [apply yields_flagged, yields_us|]; intros ? ?.
  eapply yields_bind; [apply yields_true|]; intros ? _.
  eapply yields_bind; [apply (yields_unsigned 6)|]; intros ? ?.
  eapply yields_bind; [apply (yields_unsigned 3)|]; intros ? ?.
  eapply yields_bind; [apply yields_flagged, yields_flagged, yields_lfd|]; intros ? ?.
  eapply yields_bind; [apply (yields_unsigned 2)|]; intros ? ?.
  eapply yields_bind; [apply yields_qi|]; intros ? ?.
  eapply yields_bind; [apply yields_true|]; intros ? _.
  eapply yields_bind; [apply yields_dmap; intros p; apply yields_flagged, (yields_unsigned 8)|]; intros ? [? ?].
  eapply yields_bind; [apply yields_flagged, (yields_unsigned 8)|]; intros ? ?.
  apply yields_ret. constructor; assumption.
Qed.

Lemma neg_iff (b : bool) (P : Prop) : (negb b = true <-> P) -> (b = false <-> P).
Proof. rewrite negb_true_iff. auto. Qed.

Lemma yields_ifh : yields inter_frame_header_decode ifh_ok.
Proof.
  unfold inter_frame_header_decode, token_prob_update_decode, mv_prob_update_decode.
  eapply yields_bind; [apply yields_flagged, yields_us|]; intros ? ?.
  eapply yields_bind; [apply yields_true|]; intros ? _.
  eapply yields_bind; [apply (yields_unsigned 6)|]; intros ? ?.
  eapply yields_bind; [apply (yields_unsigned 3)|]; intros ? ?.
  eapply yields_bind; [apply yields_flagged, yields_flagged, yields_lfd|]; intros ? ?.
  eapply yields_bind; [apply (yields_unsigned 2)|]; intros ? ?.
  eapply yields_bind; [apply yields_qi|]; intros ? ?.
  do 2 (eapply yields_bind; [apply yields_true|]; intros ? _).
  do 2 (eapply yields_bind; [apply yields_optional, (yields_unsigned 2)|]; intros ? [?%neg_iff ?]).
  do 4 (eapply yields_bind; [apply yields_true|]; intros ? _).
  eapply yields_bind; [apply yields_dmap; intros p; apply yields_flagged, (yields_unsigned 8)|]; intros ? [? ?].
  eapply yields_bind; [apply yields_flagged, (yields_unsigned 8)|]; intros ? ?.
  do 3 (eapply yields_bind; [apply (yields_unsigned 8)|]; intros ? ?).
  do 2 (eapply yields_bind; [apply yields_flagged, yields_drep, (yields_unsigned 8)|]; intros ? ?).
  eapply yields_bind; [apply yields_dmap; intros p; apply yields_flagged, (yields_unsigned 7)|]; intros ? [? ?].
  apply yields_ret. constructor; assumption.
Qed.

(** ** Macroblocks *)

Lemma yields_segment u : yields (segment_decode u) (seg_ok u).
Proof.
  unfold segment_decode, seg_ok. eapply yields_impl.
  - apply yields_optional. apply (yields_tree segment_id_tree [0; 1; 2; 3]). vm_compute. tauto.
  - intros s [H1 H2]. split; [exact H1|]. intros a E. specialize (H2 a E). cbn in H2. lia.
Qed.

Lemma yields_skip p : yields (skip_decode p) (skip_ok p).
Proof.
  unfold skip_decode, skip_ok. eapply yields_impl; [apply yields_optional, yields_true|].
  intros s [H _]. destruct p; rewrite <- H; split; congruence.
Qed.

Lemma in_bmode m : In m [B_DC_PRED; B_TM_PRED; B_VE_PRED; B_HE_PRED; B_LD_PRED; B_RD_PRED; B_VR_PRED; B_VL_PRED;
                   B_HD_PRED; B_HU_PRED] -> bmode_ok m.
Proof. cbv -[Z.le Z.lt]. lia. Qed.

Lemma yields_bmode probs : yields (tree_decode b_mode_tree probs) bmode_ok.
Proof. eapply yields_impl; [apply yields_tree; vm_compute; tauto|apply in_bmode]. Qed.

Lemma yields_kf_bmodes n above left : forall cur, Forall bmode_ok cur ->
  yields (kf_bmodes_decode n above left cur) (fun bm => length bm = (length cur + n)%nat /\ Forall bmode_ok bm).
Proof.
  induction n as [|n IH]; intros cur HC.
  - apply yields_ret. split; [lia|exact HC].
  - cbn [kf_bmodes_decode]. eapply yields_bind; [apply yields_bmode|]. intros m Hm.
    eapply yields_impl; [apply IH; apply Forall_app; auto|]. intros bm [HL HF].
    rewrite app_length in HL. cbn in HL. split; [lia|exact HF].
Qed.

Lemma in_intra y : In y intra_symbols -> 0 <= y <= 4.
Proof. cbv -[Z.le Z.lt]. lia. Qed.
Lemma in_uv y : In y [DC_PRED; V_PRED; H_PRED; TM_PRED] -> 0 <= y <= 3.
Proof. cbv -[Z.le Z.lt]. lia. Qed.

Lemma yields_kf_mb h W l : yields (kf_mb_decode h W l) (kf_mb_ok h).
Proof.
  unfold kf_mb_decode. eapply yields_bind; [apply yields_segment|]. intros seg Hseg.
  eapply yields_bind; [apply yields_skip|]. intros skip Hskip.
  eapply yields_bind; [apply (yields_tree kf_y_mode_tree intra_symbols); vm_compute; tauto|]. intros y Hy%in_intra.
  eapply (yields_bind _ _ (fun bm => length bm = 16%nat /\ (y = B_PRED -> Forall bmode_ok bm) /\
                                    (y <> B_PRED -> bm = repeat (implied_subblock_mode y) 16))).
  { destruct (y =? B_PRED) eqn:E.
    - eapply yields_impl; [apply yields_kf_bmodes; constructor|]. cbn beta. intros bm [HL HF]. split; [exact HL|].
      split; [auto|]. intros N. lia.
    - apply yields_ret. split; [reflexivity|]. split; [lia|auto]. }
  intros bm (HL & HB & HI).
  eapply yields_bind; [apply (yields_tree uv_mode_tree [DC_PRED; V_PRED; H_PRED; TM_PRED]); vm_compute; tauto|]. intros uv Huv%in_uv.
  apply yields_ret. unfold kf_mb_ok, intra_modes_ok. cbn. repeat (split; [solve [assumption|reflexivity|lia]|]). assumption.
Qed.

Lemma yields_mbs_kf f P n : (forall l, yields (f l) P) -> forall l, Forall P l ->
  yields (mbs_decode n f l) (fun r => length r = (length l + n)%nat /\ Forall P r).
Proof.
  intros HF. induction n as [|n IH]; intros l HL.
  - apply yields_ret. split; [lia|exact HL].
  - cbn [mbs_decode]. eapply yields_bind; [apply HF|]. intros m Hm.
    eapply yields_impl; [apply IH; apply Forall_app; auto|]. intros r [HR HP]. rewrite app_length in HR. cbn in HR.
    split; [lia|exact HP].
Qed.

Lemma yields_kf_macroblocks h W H :
  yields (kf_macroblocks_decode h W H) (fun l => length l = (W * H)%nat /\ Forall (kf_mb_ok h) l).
Proof. apply (yields_mbs_kf _ _ (W * H) (yields_kf_mb h W) []). constructor. Qed.

(** Inter frames. *)

Lemma s16_mv_ok a b : mv_ok (mv_add a b).
Proof. unfold mv_ok, mv_add. cbn [fst snd]. split; apply s16_range. Qed.

Lemma yields_new_mv probs best : yields (do v <- read_mv probs; dret (mv_add v best)) (new_mv_ok best).
Proof.
  eapply yields_bind; [intros d; apply read_mv_codable|]. intros v Hv. apply yields_ret.
  split; [apply s16_mv_ok|]. rewrite mv_add_sub; [exact Hv|apply codable_ok, Hv].
Qed.

Lemma in_sub m : In m [LEFT4X4; ABOVE4X4; ZERO4X4; NEW4X4] -> m = LEFT4X4 \/ m = ABOVE4X4 \/ m = ZERO4X4 \/ m = NEW4X4.
Proof. cbn. intuition auto. Qed.

(** [sub_ok] with the mode and vector given instead of looked up. *)
Definition sub_val_ok (best : mv) (left_mv above_mv : mv) (b : Z * mv) : Prop :=
  let '(m, v) := b in
  m = LEFT4X4 /\ v = left_mv \/ m = ABOVE4X4 /\ v = above_mv \/ m = ZERO4X4 /\ v = mv_zero \/
  m = NEW4X4 /\ new_mv_ok best v.

Lemma yields_sub_mv probs best above left cur k :
  yields (sub_mv_decode probs best above left cur k)
    (sub_val_ok best (sub_left mv_zero left (map snd cur) k) (sub_above mv_zero above (map snd cur) k)).
Proof.
  unfold sub_mv_decode.
  eapply yields_bind; [apply (yields_tree submv_ref_tree [LEFT4X4; ABOVE4X4; ZERO4X4; NEW4X4]); vm_compute; tauto|].
  intros m Hm%in_sub. destruct Hm as [->|[->|[->| ->]]].
  - apply yields_ret. left. auto.
  - apply yields_ret. right. left. auto.
  - apply yields_ret. right. right. left. auto.
  - change (NEW4X4 =? LEFT4X4) with false. change (NEW4X4 =? ABOVE4X4) with false. change (NEW4X4 =? ZERO4X4) with false. cbv iota.
    eapply yields_bind; [intros d; apply read_mv_codable|]. intros v Hv. apply yields_ret.
    right. right. right. split; [reflexivity|]. split; [apply s16_mv_ok|].
    rewrite mv_add_sub; [exact Hv|apply codable_ok, Hv].
Qed.

(** The blocks of [done] keep their values through the rest of the loop. *)
Fixpoint scheme_ok' (parts : list (list nat)) (done : list nat) : bool :=
  match parts with
  | [] => true
  | p :: r => negb (match p with [] => true | _ => false end) && forallb (fun k => (k <? 16)%nat) p &&
              forallb (fun k => inb k done) (needs (hd 0%nat p)) &&
              forallb (fun k => negb (inb k done)) p && scheme_ok' r (p ++ done)
  end.

Lemma schemes_ok' p : 0 <= p < 4 -> scheme_ok' (mv_partition p) [] = true.
Proof.
  intros H. assert (C : p = 0 \/ p = 1 \/ p = 2 \/ p = 3) by lia.
  destruct C as [->|[->|[->| ->]]]; vm_compute; reflexivity.
Qed.

Definition keeps (done : list nat) (cur t : list (Z * mv)) : Prop :=
  length t = 16%nat /\ forall k, In k done -> nth k t (0, mv_zero) = nth k cur (0, mv_zero).

Lemma yields_split probs best above left parts : forall done cur,
  length cur = 16%nat -> scheme_ok' parts done = true ->
  yields (split_decode probs best above left parts cur)
         (fun t => keeps done cur t /\ split_ok best above left parts t).
Proof.
  induction parts as [|p parts IH]; intros done cur HL HS.
  - apply yields_ret. split; [split; [exact HL|auto]|]. split; [exact HL|]. intros part [].
  - cbn [scheme_ok'] in HS. apply andb_true_iff in HS. destruct HS as [HS S5]. apply andb_true_iff in HS. destruct HS as [HS S4].
    apply andb_true_iff in HS. destruct HS as [HS S3]. apply andb_true_iff in HS. destruct HS as [S1 S2].
    cbn [split_decode]. eapply yields_bind; [apply yields_sub_mv|]. intros b Hb.
    assert (HP : In (hd 0%nat p) p) by (destruct p; [discriminate|left; reflexivity]).
    eapply yields_impl; [apply (IH (p ++ done)); [rewrite fill_length; exact HL|exact S5]|].
    intros t [[HT HK] [_ HR]].
    assert (KP : forall k, In k p -> nth k t (0, mv_zero) = b).
    { intros k Hk. rewrite HK by (apply in_or_app; left; exact Hk). rewrite nth_fill by (rewrite HL; exact S2).
      apply inb_In in Hk. rewrite Hk. reflexivity. }
    assert (KD : forall k, In k done -> nth k t (0, mv_zero) = nth k cur (0, mv_zero)).
    { intros k Hk. rewrite HK by (apply in_or_app; right; exact Hk). rewrite nth_fill by (rewrite HL; exact S2).
      destruct (inb k p) eqn:E; [|reflexivity]. apply inb_In in E. rewrite forallb_forall in S4. specialize (S4 k E).
      apply inb_In in Hk. rewrite Hk in S4. discriminate. }
    split; [split; [exact HT|exact KD]|]. split; [exact HT|].
    intros part [<-|HI]; [|apply HR; exact HI]. split.
    + assert (AG : agree done cur t) by (split; [exact HL|]; split; [exact HT|]; intros k Hk; symmetry; apply KD; exact Hk).
      destruct (agree_contexts done cur t above left (hd 0%nat p) AG S3) as [EA EL].
      unfold sub_ok. rewrite <- EA, <- EL. rewrite KP by exact HP. exact Hb.
    + intros k Hk. rewrite !KP by assumption. reflexivity.
Qed.

Lemma combine_map_pair {A B} (l : list (A * B)) : combine (map fst l) (map snd l) = l.
Proof. induction l as [|[a b] l IH]; cbn; [reflexivity|]. rewrite IH. reflexivity. Qed.

Lemma yields_mb_header h : yields (mb_header_decode h) (fun '(inter, sel1, sel2, flipped) =>
  (inter = true <-> sel1 <> None) /\ (sel1 = Some true <-> sel2 <> None) /\
  flipped = ((reference inter sel1 sel2 =? GOLDEN_FRAME) && if_sign_bias_golden h) ||
            ((reference inter sel1 sel2 =? ALTREF_FRAME) && if_sign_bias_alternate h)).
Proof.
  unfold mb_header_decode. eapply yields_bind; [apply yields_true|]. intros inter _.
  eapply yields_bind; [apply yields_optional, yields_true|]. intros sel1 [H1 _].
  eapply yields_bind; [apply yields_optional, yields_true|]. intros sel2 [H2 _].
  apply yields_ret. split; [exact H1|]. split; [|reflexivity].
  rewrite <- H2. destruct sel1 as [[|]|]; split; congruence.
Qed.

Lemma yields_intra_modes pt : yields (intra_modes_decode pt) (fun '(y, bm, uv) => intra_modes_ok y bm uv).
Proof.
  unfold intra_modes_decode. eapply yields_bind; [apply (yields_tree y_mode_tree intra_symbols); vm_compute; tauto|]. intros y Hy%in_intra.
  eapply (yields_bind _ _ (fun bm => length bm = 16%nat /\ (y = B_PRED -> Forall bmode_ok bm) /\
                                    (y <> B_PRED -> bm = repeat (implied_subblock_mode y) 16))).
  { destruct (y =? B_PRED) eqn:E.
    - eapply yields_impl; [apply yields_drep, yields_bmode|]. cbn beta. intros bm [HL HF]. split; [exact HL|].
      split; [auto|]. intros N. lia.
    - apply yields_ret. split; [reflexivity|]. split; [lia|auto]. }
  intros bm (HL & HB & HI).
  eapply yields_bind; [apply (yields_tree uv_mode_tree [DC_PRED; V_PRED; H_PRED; TM_PRED]); vm_compute; tauto|]. intros uv Huv%in_uv.
  apply yields_ret. repeat (split; [assumption|]). assumption.
Qed.

Lemma in_ref y : In y [NEARESTMV; NEARMV; ZEROMV; NEWMV; SPLITMV] ->
  y = NEARESTMV \/ y = NEARMV \/ y = ZEROMV \/ y = NEWMV \/ y = SPLITMV.
Proof. cbn. intuition auto. Qed.

Lemma yields_inter_modes pt W H flipped l :
  yields (inter_modes_decode pt W H flipped l) (fun '(y, p, bm, mvs) =>
    forall seg skip inter sel1 sel2 uv,
      inter_modes_ok W H l (length l) (mkMB seg skip inter sel1 sel2 flipped p y bm mvs uv)).
Proof.
  unfold inter_modes_decode, inter_modes_ok. cbv zeta. cbn [mb_flipped mb_ymode mb_partition mb_bmodes mb_mvs].
  set (census := census_at W flipped l (length l)). set (best := clamp_at W H (length l) (sc_best census)).
  eapply yields_bind; [apply (yields_tree mv_ref_tree [NEARESTMV; NEARMV; ZEROMV; NEWMV; SPLITMV]); vm_compute; tauto|].
  intros y Hy%in_ref. destruct Hy as [->|[->|[->|[->| ->]]]].
  - apply yields_ret. intros. left. auto.
  - apply yields_ret. intros. right. left. auto.
  - apply yields_ret. intros. right. right. left. auto.
  - change (NEWMV =? NEARESTMV) with false. change (NEWMV =? NEARMV) with false. change (NEWMV =? ZEROMV) with false.
    change (NEWMV =? NEWMV) with true. cbv iota.
    eapply yields_bind; [intros d; apply read_mv_codable|]. intros v Hv. apply yields_ret. intros.
    right. right. right. left. split; [reflexivity|]. exists (mv_add v best). split; [auto|].
    split; [apply s16_mv_ok|]. rewrite mv_add_sub; [exact Hv|apply codable_ok, Hv].
  - change (SPLITMV =? NEARESTMV) with false. change (SPLITMV =? NEARMV) with false. change (SPLITMV =? ZEROMV) with false.
    change (SPLITMV =? NEWMV) with false. cbv iota.
    eapply yields_bind; [apply (yields_tree split_mv_tree [0; 1; 2; 3]); vm_compute; tauto|].
    intros p Hp. assert (HP : 0 <= p < 4) by (cbn in Hp; lia).
    eapply yields_bind; [apply (yields_split _ _ _ _ _ []); [reflexivity|apply schemes_ok'; exact HP]|].
    intros t [[HT _] HS]. apply yields_ret. intros. right. right. right. right. split; [reflexivity|].
    exists p. rewrite !map_length, combine_map_pair. auto.
Qed.

Lemma if_mb_ok_firstn h W H l i m : (0 < W)%nat -> if_mb_ok h W H (firstn i l) i m <-> if_mb_ok h W H l i m.
Proof.
  intros HW. unfold if_mb_ok, inter_modes_ok. rewrite census_at_firstn, above_of_firstn, left_of_firstn by exact HW.
  reflexivity.
Qed.

Lemma yields_if_mb h pt W H l : yields (if_mb_decode h pt W H l) (if_mb_ok h W H l (length l)).
Proof.
  unfold if_mb_decode. eapply yields_bind; [apply yields_segment|]. intros seg Hseg.
  eapply yields_bind; [apply yields_skip|]. intros skip Hskip.
  eapply yields_bind; [apply yields_mb_header|]. intros [[[inter sel1] sel2] flipped] (H1 & H2 & H3).
  destruct inter.
  - eapply yields_bind; [apply yields_inter_modes|]. intros [[[y p] bm] mvs] HM. apply yields_ret.
    split; [exact Hseg|]. split; [exact Hskip|]. split; [split; [exact H1|split; [exact H2|exact H3]]|].
    cbn [mb_inter]. split; [reflexivity|]. apply HM.
  - eapply yields_bind; [apply yields_intra_modes|]. intros [[y bm] uv] HM. apply yields_ret.
    split; [exact Hseg|]. split; [exact Hskip|]. split; [split; [exact H1|split; [exact H2|exact H3]]|].
    cbn [mb_inter]. split; [reflexivity|]. split; [reflexivity|]. exact HM.
Qed.

Lemma yields_mbs_if h pt W H n : (0 < W)%nat -> forall l, (forall i m, nth_error l i = Some m -> if_mb_ok h W H l i m) ->
  yields (mbs_decode n (if_mb_decode h pt W H) l)
    (fun r => length r = (length l + n)%nat /\ forall i m, nth_error r i = Some m -> if_mb_ok h W H r i m).
Proof.
  intros HW. induction n as [|n IH]; intros l HL.
  - apply yields_ret. split; [lia|exact HL].
  - cbn [mbs_decode]. eapply yields_bind; [apply yields_if_mb|]. intros m Hm.
    eapply yields_impl.
    + apply IH. intros i m' HN. apply (proj1 (if_mb_ok_firstn h W H (l ++ [m]) i m' HW)).
      destruct (Nat.lt_ge_cases i (length l)) as [LT|GE].
      * rewrite nth_error_app1 in HN by exact LT. rewrite firstn_app. replace (i - length l)%nat with 0%nat by lia.
        cbn [firstn]. rewrite app_nil_r. apply (proj2 (if_mb_ok_firstn h W H l i m' HW)). apply HL. exact HN.
      * rewrite nth_error_app2 in HN by exact GE. destruct (i - length l)%nat as [|j] eqn:E; [|destruct j; discriminate].
        injection HN as <-. assert (i = length l) as -> by lia.
        rewrite firstn_app, firstn_all, Nat.sub_diag. cbn [firstn]. rewrite app_nil_r. exact Hm.
    + intros r [HR HP]. rewrite app_length in HR. cbn in HR. split; [lia|exact HP].
Qed.

Lemma yields_if_macroblocks h pt W H : (0 < W)%nat ->
  yields (if_macroblocks_decode h pt W H)
    (fun l => length l = (W * H)%nat /\ forall i m, nth_error l i = Some m -> if_mb_ok h W H l i m).
Proof.
  intros HW. apply (yields_mbs_if h pt W H (W * H) HW []). intros i m HN. destruct i; discriminate.
Qed.
