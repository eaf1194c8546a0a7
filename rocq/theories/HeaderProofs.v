(** Round trip of frame headers. *)
From Verif Require Import Base BoolCoderModel BoolEncProofs BoolCoderProofs ParserModel ParserProofs HeaderModel Tables.

(** ** Well-formed header values: every field fits its bit width, arrays have
    their fixed length, optional fields are present exactly when the format
    has them. *)
Definition u_ok (w : Z) (x : Z) : Prop := 0 <= x < 2 ^ w.
Definition s_ok (w : Z) (x : Z) : Prop := Z.abs x < 2 ^ w.
Definition o_ok {A} (P : A -> Prop) (o : option A) : Prop := forall a, o = Some a -> P a.

Record qi_ok (h : QuantIndices) : Prop := {
  qi_y_ac : u_ok 7 (y_ac_qi h);
  qi_y_dc : o_ok (s_ok 4) (y_dc h);
  qi_y2_dc : o_ok (s_ok 4) (y2_dc h);
  qi_y2_ac : o_ok (s_ok 4) (y2_ac h);
  qi_uv_dc : o_ok (s_ok 4) (uv_dc h);
  qi_uv_ac : o_ok (s_ok 4) (uv_ac h)
}.

Record lfd_ok (h : ModeRefLFDeltaUpdate) : Prop := {
  lfd_l1 : length (ref_update h) = 4%nat;
  lfd_l2 : length (mode_update h) = 4%nat;
  lfd_r : Forall (o_ok (s_ok 6)) (ref_update h);
  lfd_m : Forall (o_ok (s_ok 6)) (mode_update h)
}.

Record sfd_ok (h : SegmentFeatureData) : Prop := {
  sfd_l1 : length (quantizer_update h) = 4%nat;
  sfd_l2 : length (loop_filter_update h) = 4%nat;
  sfd_q : Forall (o_ok (s_ok 7)) (quantizer_update h);
  sfd_f : Forall (o_ok (s_ok 6)) (loop_filter_update h)
}.

Record us_ok (h : UpdateSegmentation) : Prop := {
  us_present : update_mb_segmentation_map h = true <-> mb_segmentation_map h <> None;
  us_sfd : o_ok sfd_ok (segment_feature_data h);
  us_map : o_ok (fun l => length l = 3%nat /\ Forall (o_ok (u_ok 8)) l) (mb_segmentation_map h)
}.

Record kfh_ok (h : KeyFrameHeader) : Prop := {
  kfo_seg : o_ok us_ok (kf_update_segmentation h);
  kfo_lvl : u_ok 6 (kf_loop_filter_level h);
  kfo_shp : u_ok 3 (kf_sharpness_level h);
  kfo_lf : o_ok (o_ok lfd_ok) (kf_mode_lf_adjustments h);
  kfo_part : u_ok 2 (kf_log2_partitions h);
  kfo_qi : qi_ok (kf_quant_indices h);
  kfo_tl : length (kf_token_prob_update h) = (4 * 8 * 3 * 11)%nat;
  kfo_t : Forall (o_ok (u_ok 8)) (kf_token_prob_update h);
  kfo_skip : o_ok (u_ok 8) (kf_prob_skip_false h)
}.

Record ifh_ok (h : InterFrameHeader) : Prop := {
  ifo_seg : o_ok us_ok (if_update_segmentation h);
  ifo_lvl : u_ok 6 (if_loop_filter_level h);
  ifo_shp : u_ok 3 (if_sharpness_level h);
  ifo_lf : o_ok (o_ok lfd_ok) (if_mode_lf_adjustments h);
  ifo_part : u_ok 2 (if_log2_partitions h);
  ifo_qi : qi_ok (if_quant_indices h);
  ifo_gp : if_refresh_golden h = false <-> if_copy_to_golden h <> None;
  ifo_ap : if_refresh_alternate h = false <-> if_copy_to_alternate h <> None;
  ifo_g : o_ok (u_ok 2) (if_copy_to_golden h);
  ifo_a : o_ok (u_ok 2) (if_copy_to_alternate h);
  ifo_tl : length (if_token_prob_update h) = (4 * 8 * 3 * 11)%nat;
  ifo_t : Forall (o_ok (u_ok 8)) (if_token_prob_update h);
  ifo_skip : o_ok (u_ok 8) (if_prob_skip_false h);
  ifo_inter : u_ok 8 (if_prob_inter h);
  ifo_last : u_ok 8 (if_prob_references_last h);
  ifo_gold : u_ok 8 (if_prob_references_golden h);
  ifo_y : o_ok (fun l => length l = 4%nat /\ Forall (u_ok 8) l) (if_intra_16x16_prob h);
  ifo_uv : o_ok (fun l => length l = 3%nat /\ Forall (u_ok 8) l) (if_intra_chroma_prob h);
  ifo_ml : length (if_mv_prob_update h) = (2 * 19)%nat;
  ifo_m : Forall (o_ok (u_ok 7)) (if_mv_prob_update h)
}.

(** ** Building blocks *)
Lemma parses_u w x : u_ok (Z.of_nat w) x -> parses (unsigned_decode w) (unsigned_events w x) x.
Proof. apply parses_unsigned. Qed.

Lemma parses_s w x : s_ok (Z.of_nat w) x -> parses (signed_decode w) (signed_events w x) x.
Proof. apply parses_signed. Qed.

Lemma parses_flag_ok {A} p (m : dec A) w (P : A -> Prop) o :
  (forall a, P a -> parses m (w a) a) -> o_ok P o -> parses (flagged_decode p m) (flagged_events p w o) o.
Proof. intros H HO. apply parses_flagged. intros a E. apply H, HO, E. Qed.

Lemma parses_array {A} n (m : dec A) w (P : A -> Prop) l :
  (forall a, P a -> parses m (w a) a) -> length l = n -> Forall P l ->
  parses (drep n m) (array_events w l) l.
Proof.
  intros H <- HF. apply parses_drep. intros x Hx. apply H. rewrite Forall_forall in HF. auto.
Qed.

Lemma parses_last_ret {A B} (m : dec A) (g : A -> B) e x y :
  parses m e x -> g x = y -> parses (dbind m (fun a => dret (g a))) e y.
Proof. intros H <-. apply parses_bind_ret. exact H. Qed.

Ltac pstep := eapply parses_bind; [|cbv beta].

Lemma parses_qi h : qi_ok h -> parses quant_indices_decode (quant_indices_events h) h.
Proof.
  intros [H1 H2 H3 H4 H5 H6]. unfold quant_indices_decode, quant_indices_events.
  pstep; [apply parses_u; exact H1|].
  pstep; [eapply parses_flag_ok; [apply (parses_s 4)|exact H2]|].
  pstep; [eapply parses_flag_ok; [apply (parses_s 4)|exact H3]|].
  pstep; [eapply parses_flag_ok; [apply (parses_s 4)|exact H4]|].
  pstep; [eapply parses_flag_ok; [apply (parses_s 4)|exact H5]|].
  eapply parses_last_ret; [eapply parses_flag_ok; [apply (parses_s 4)|exact H6]|].
  destruct h; reflexivity.
Qed.

Lemma parses_lfd h : lfd_ok h -> parses lf_delta_decode (lf_delta_events h) h.
Proof.
  intros [L1 L2 R M]. unfold lf_delta_decode, lf_delta_events.
  pstep; [eapply parses_array; [|exact L1|exact R]; intros a Ha; eapply parses_flag_ok; [apply (parses_s 6)|exact Ha]|].
  eapply parses_last_ret; [eapply parses_array; [|exact L2|exact M]; intros a Ha; eapply parses_flag_ok; [apply (parses_s 6)|exact Ha]|].
  destruct h; reflexivity.
Qed.

Lemma parses_sfd h : sfd_ok h -> parses segment_feature_data_decode (segment_feature_data_events h) h.
Proof.
  intros [L1 L2 R M]. unfold segment_feature_data_decode, segment_feature_data_events.
  pstep; [apply parses_get|].
  pstep; [eapply parses_array; [|exact L1|exact R]; intros a Ha; eapply parses_flag_ok; [apply (parses_s 7)|exact Ha]|].
  eapply parses_last_ret; [eapply parses_array; [|exact L2|exact M]; intros a Ha; eapply parses_flag_ok; [apply (parses_s 6)|exact Ha]|].
  destruct h; reflexivity.
Qed.

Lemma parses_us h : us_ok h -> parses update_segmentation_decode (update_segmentation_events h) h.
Proof.
  intros [P S M]. unfold update_segmentation_decode, update_segmentation_events.
  pstep; [apply parses_get|].
  pstep; [eapply parses_flag_ok; [apply parses_sfd|exact S]|].
  eapply parses_last_ret.
  - apply parses_optional; [exact P|]. intros a Ha. destruct (M a Ha) as [ML MF].
    eapply parses_array; [|exact ML|exact MF]. intros b Hb. eapply parses_flag_ok; [apply (parses_u 8)|exact Hb].
  - destruct h; reflexivity.
Qed.

Lemma parses_table tbl w l (P : Z -> Prop) m : length l = length tbl -> Forall (o_ok P) l ->
  (forall a, P a -> parses m (w a) a) ->
  parses (dmap (fun p => flagged_decode p m) tbl)
         (concat (map (fun '(p, o) => flagged_events p w o) (combine tbl l))) l.
Proof.
  intros HL HF H. apply (parses_dmap _ (fun p o => flagged_events p w o)); [exact HL|].
  intros p o Hin. eapply parses_flag_ok; [exact H|].
  rewrite Forall_forall in HF. apply HF. eapply in_combine_r. exact Hin.
Qed.

Lemma parses_tpu l : length l = (4 * 8 * 3 * 11)%nat -> Forall (o_ok (u_ok 8)) l ->
  parses token_prob_update_decode (token_prob_update_events l) l.
Proof. intros HL HF. apply (parses_table _ _ _ (u_ok 8)); [exact HL|exact HF|apply (parses_u 8)]. Qed.

Lemma parses_mpu l : length l = (2 * 19)%nat -> Forall (o_ok (u_ok 7)) l ->
  parses mv_prob_update_decode (mv_prob_update_events l) l.
Proof. intros HL HF. apply (parses_table _ _ _ (u_ok 7)); [exact HL|exact HF|apply (parses_u 7)]. Qed.

Lemma parses_lf o : o_ok (o_ok lfd_ok) o ->
  parses (flagged_decode 128 (flagged_decode 128 lf_delta_decode))
         (flagged_events 128 (flagged_events 128 lf_delta_events) o) o.
Proof.
  intros H. eapply parses_flag_ok; [|exact H]. intros a Ha. eapply parses_flag_ok; [apply parses_lfd|exact Ha].
Qed.

Lemma parses_kfh h : kfh_ok h -> parses key_frame_header_decode (key_frame_header_events h) h.
Proof.
  intros [H1 H2 H3 H4 H5 H6 H7 H8 H9]. unfold key_frame_header_decode, key_frame_header_events.
  pstep; [apply parses_get|].
  pstep; [apply parses_get|].
  pstep; [eapply parses_flag_ok; [apply parses_us|exact H1]|].
  pstep; [apply parses_get|].
  pstep; [apply parses_u; exact H2|].
  pstep; [apply parses_u; exact H3|].
  pstep; [apply parses_lf; exact H4|].
  pstep; [apply parses_u; exact H5|].
  pstep; [apply parses_qi; exact H6|].
  pstep; [apply parses_get|].
  pstep; [apply parses_tpu; assumption|].
  eapply parses_last_ret; [eapply parses_flag_ok; [apply (parses_u 8)|exact H9]|].
  destruct h; reflexivity.
Qed.

Lemma parses_ifh h : ifh_ok h -> parses inter_frame_header_decode (inter_frame_header_events h) h.
Proof.
  intros [H1 H2 H3 H4 H5 H6 G1 A1 G2 A2 T1 T2 SK P1 P2 P3 I1 I2 M1 M2].
  unfold inter_frame_header_decode, inter_frame_header_events.
  pstep; [eapply parses_flag_ok; [apply parses_us|exact H1]|].
  pstep; [apply parses_get|].
  pstep; [apply parses_u; exact H2|].
  pstep; [apply parses_u; exact H3|].
  pstep; [apply parses_lf; exact H4|].
  pstep; [apply parses_u; exact H5|].
  pstep; [apply parses_qi; exact H6|].
  pstep; [apply parses_get|].
  pstep; [apply parses_get|].
  pstep; [apply parses_optional; [rewrite negb_true_iff; exact G1|intros a Ha; apply parses_u; apply G2; exact Ha]|].
  pstep; [apply parses_optional; [rewrite negb_true_iff; exact A1|intros a Ha; apply parses_u; apply A2; exact Ha]|].
  pstep; [apply parses_get|].
  pstep; [apply parses_get|].
  pstep; [apply parses_get|].
  pstep; [apply parses_get|].
  pstep; [apply parses_tpu; assumption|].
  pstep; [eapply parses_flag_ok; [apply (parses_u 8)|exact SK]|].
  pstep; [apply parses_u; exact P1|].
  pstep; [apply parses_u; exact P2|].
  pstep; [apply parses_u; exact P3|].
  pstep; [apply parses_flagged; intros a Ha; destruct (I1 a Ha) as [L F]; eapply parses_array; [apply (parses_u 8)|exact L|exact F]|].
  pstep; [apply parses_flagged; intros a Ha; destruct (I2 a Ha) as [L F]; eapply parses_array; [apply (parses_u 8)|exact L|exact F]|].
  eapply parses_last_ret; [apply parses_mpu; assumption|].
  destruct h; reflexivity.
Qed.

(** ** The events of a header have legal probabilities. *)
Lemma get_event_ok b p : prob_ok p -> Forall event_ok [(b, p)].
Proof. intros H. constructor; [exact H|constructor]. Qed.

Lemma p128_ok : prob_ok 128. Proof. unfold prob_ok. lia. Qed.

Lemma array_events_ok {A} (w : A -> list event) l : (forall a, Forall event_ok (w a)) -> Forall event_ok (array_events w l).
Proof.
  intros H. unfold array_events. induction l; cbn; [constructor|]. apply Forall_app. split; [apply H|assumption].
Qed.

Lemma table_events_ok tbl (w : Z -> list event) l : Forall prob_ok tbl -> (forall a, Forall event_ok (w a)) ->
  Forall event_ok (concat (map (fun '(p, o) => flagged_events p w o) (combine tbl l))).
Proof.
  intros HT H. revert l. induction HT as [|p tbl Hp HT IH]; intros l; [constructor|].
  destruct l as [|o l]; [constructor|]. cbn. apply Forall_app. split; [apply flagged_events_ok; assumption|apply IH].
Qed.

Lemma forallb_prob l : forallb (fun p => (0 <=? p) && (p <? 256)) l = true -> Forall prob_ok l.
Proof.
  intros H. rewrite forallb_forall in H. apply Forall_forall. intros x Hx. specialize (H x Hx).
  unfold prob_ok. lia.
Qed.

Lemma coeff_update_probs_ok : Forall prob_ok k_coeff_entropy_update_probs.
Proof. apply forallb_prob. vm_compute. reflexivity. Qed.
Lemma mv_update_probs_ok : Forall prob_ok k_mv_entropy_update_probs.
Proof. apply forallb_prob. vm_compute. reflexivity. Qed.

Ltac evok :=
  repeat first
  [ apply Forall_app; split
  | apply unsigned_events_ok
  | apply signed_events_ok
  | apply get_event_ok, p128_ok
  | apply flagged_events_ok; [apply p128_ok|intros ?]
  | apply optional_events_ok; intros ?
  | apply table_events_ok; [first [apply coeff_update_probs_ok|apply mv_update_probs_ok]|intros ?] 
  | apply array_events_ok; intros ? ].

Lemma kfh_events_ok h : Forall event_ok (key_frame_header_events h).
Proof.
  unfold key_frame_header_events, update_segmentation_events, segment_feature_data_events, lf_delta_events,
    quant_indices_events, token_prob_update_events. evok.
Qed.

Lemma ifh_events_ok h : Forall event_ok (inter_frame_header_events h).
Proof.
  unfold inter_frame_header_events, update_segmentation_events, segment_feature_data_events, lf_delta_events,
    quant_indices_events, token_prob_update_events, mv_prob_update_events. evok.
Qed.
