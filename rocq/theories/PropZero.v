(** C72: videos without residues. *)
From Verif Require Import Base BoolCoderModel ParserModel HeaderModel HeaderProofs MBModel MBProofs MBDecoded TokenModel ChunkModel ChunkProofs ContainerModel ContainerProofs PropContainer FrameModel FrameProofs PropFrame.
From Verif Require Import QuantModel RasterModel RasterProofs PredictModel TransformModel PropTransform LoopFilterModel PropLoopFilter ReconModel ReconProofs PropPicture PropRecon StateModel StateProofs PropState.
From Verif Require Import EncoderModel PropEncoder SerialModel SerialProofs PropSerial TerminateModel PropTerminate PropReencode SizeProofs ZeroModel.

(** ** Statement *)

(** How the frame [out] relates to the frame [b]; [pt]: the probability tables
    before both. *)
Definition without_residues (pt : ProbabilityTables) (w h : Z) (b out : list Z) : Prop :=
  exists u u', uncompressed_chunk (chunk_of b) w h false = Ok u /\ uncompressed_chunk (chunk_of out) w h false = Ok u' /\ uc_key u' = uc_key u /\ uc_show u' = uc_show u /\
    if uc_key u then key_frame_parse w h u' = key_frame_parse w h u
    else exists hd ms cs ms', inter_frame_parse pt w h u = Ok (hd, ms, cs) /\ inter_frame_parse pt w h u' = Ok (hd, ms', map (fun _ => fresh_coef) cs) /\
         Forall2 (fun m m' => same_prediction m m' /\ mb_segment m' = mb_segment m /\ mb_skip m' = Some true) ms ms'.

(** Whether a chunk is an inter frame without a skip probability. *)
Definition inter_without_skip (pt : ProbabilityTables) (w h : Z) (b : list Z) : Prop :=
  exists u hd ms cs, uncompressed_chunk (chunk_of b) w h false = Ok u /\ uc_key u = false /\ inter_frame_parse pt w h u = Ok (hd, ms, cs) /\ if_prob_skip_false hd = None.

Lemma zero_same m : same_prediction m (zero_mb m).
Proof. unfold same_prediction, zero_mb. cbn. auto 12. Qed.

Lemma map_fresh (l : list block) n : length l = n -> map (fun _ => fresh_block) l = repeat fresh_block n.
Proof. intros <-. induction l as [|x l IH]; [reflexivity|]. cbn [map length repeat]. rewrite IH. reflexivity. Qed.
Lemma zero_fresh m c : coef_ok m c -> zero_coef m c = fresh_coef.
Proof.
  unfold coef_ok, zero_coef, fresh_coef. destruct (skipped m).
  - intros ->. cbn. destruct (y2_coded m); reflexivity.
  - intros (A & B & _ & C & _ & D & _). rewrite (map_fresh _ _ B), (map_fresh _ _ C), (map_fresh _ _ D). destruct (y2_coded m); [reflexivity|]. rewrite A. reflexivity.
Qed.
Lemma zero_all ms : forall cs, coefs_ok ms cs -> map (fun mc => zero_coef (fst mc) (snd mc)) (combine ms cs) = map (fun _ => fresh_coef) cs.
Proof.
  induction ms as [|m ms IH]; intros [|c cs] [L F]; try discriminate; [reflexivity|]. cbn [combine map fst snd].
  rewrite (zero_fresh m c (F 0%nat m c eq_refl eq_refl)). f_equal. apply IH. split; [cbn in L; congruence|]. intros i. exact (F (S i)).
Qed.

Lemma zero_fits w h hd ms cs : ifh_ok hd -> inter_frame_header_supported hd = true -> length ms = (mb_dim w * mb_dim h)%nat ->
  (forall i m, nth_error ms i = Some m -> if_mb_ok hd (mb_dim w) (mb_dim h) ms i m) -> coefs_ok ms cs -> if_prob_skip_false hd <> None ->
  length (map zero_mb ms) = (mb_dim w * mb_dim h)%nat /\
  (forall i m, nth_error (map zero_mb ms) i = Some m -> if_mb_ok hd (mb_dim w) (mb_dim h) (map zero_mb ms) i m) /\ coefs_ok (map zero_mb ms) (map (fun _ => fresh_coef) cs).
Proof.
  intros K SU LM FM [LC _] SK. split; [rewrite map_length; exact LM|]. split.
  - intros i m E. rewrite nth_error_map in E. destruct (nth_error ms i) as [m0|] eqn:E0; [|discriminate]. apply some_inj in E. subst m.
    destruct (FM i m0 E0) as (A & B & C & D). split; [exact A|]. split; [unfold skip_ok; cbn; split; [discriminate|intros _; exact SK]|]. split; [exact C|].
    cbn [zero_mb mb_inter mb_uvmode mb_partition mb_mvs mb_ymode mb_bmodes]. destruct (mb_inter m0); [|exact D]. destruct D as [D1 D2]. split; [exact D1|].
    apply (same_modes _ _ ms (map zero_mb ms) i m0 (zero_mb m0)); [|apply zero_same|exact D2]. clear. induction ms; constructor; [apply zero_same|assumption].
  - split; [rewrite !map_length; exact LC|]. intros i m c E1 E2. rewrite nth_error_map in E1, E2.
    destruct (nth_error ms i); [|discriminate]. destruct (nth_error cs i); [|discriminate]. apply some_inj in E1. apply some_inj in E2. subst. reflexivity.
Qed.

Lemma zero_map W ms : forall i p, map_loop W i (map zero_mb ms) p = map_loop W i ms p.
Proof. induction ms as [|m ms IH]; intros i p; [reflexivity|]. cbn [map map_loop zero_mb mb_segment]. destruct (mb_update_map p (column_of W i) (row_of W i) (mb_segment m)) as [[p' v]|]; [|reflexivity]. cbn [obind]. rewrite IH. reflexivity. Qed.
Lemma zero_apply s hd ms : apply_inter s hd (map zero_mb ms) = apply_inter s hd ms.
Proof.
  unfold apply_inter. cbv zeta.
  assert (U : forall seg, update_map (mb_dim (ds_w s)) seg (map zero_mb ms) = update_map (mb_dim (ds_w s)) seg ms).
  { intros seg. unfold update_map. destruct seg; [rewrite zero_map; reflexivity|]. rewrite map_length. reflexivity. }
  rewrite U. reflexivity.
Qed.

(** One frame. The decoder [d2] is any that has the same state as the program's,
    with whatever pictures. *)
Lemma zero_key w h d b u scratch d' shown r : 0 < w <= 16383 -> 0 < h <= 16383 -> decoder_good w h d -> dc_conceal d = false ->
  uncompressed_chunk (chunk_of b) w h false = Ok u -> uc_key u = true -> get_frame_output d (chunk_of b) scratch = (d', Output shown r) -> raster_for w h scratch ->
  exists out, zero_frame d b scratch = Ok (out, d') /\ bytes_ok out /\ zlen out < 2 ^ 64 /\
    (moderate w h out -> without_residues (ds_pt (dc_state d)) w h b out /\
     forall d2 scratch2, decoder_good w h d2 -> dc_conceal d2 = false -> dc_state d2 = dc_state d -> raster_for w h scratch2 ->
       get_frame_output d2 (chunk_of out) scratch2 = (d', Output shown r)).
Proof.
  intros Hw Hh G HC EU K E RS. pose proof G as [GS _ _ _]. pose proof GS as [Ew Eh [PT _] _ _].
  pose proof E as E0. unfold get_frame_output in E. unfold zero_frame. rewrite Ew, Eh, HC in *. rewrite EU, K in *.
  destruct (parse_key (dc_state d) u) as [s' [[[[hd ms] cs] ids]|e]] eqn:EP; [|discriminate].
  pose proof (parse_key_good w h (dc_state d) u ltac:(lia) ltac:(lia) GS) as PG. rewrite EP in PG. destruct PG as (GS' & _ & HI). destruct (HI hd ms cs ids eq_refl) as [LI IO].
  apply parse_key_iff in EP. rewrite Ew, Eh in EP. destruct EP as [E1 E2].
  destruct (C11_parsed_key_frame_is_serialisable w h u hd ms cs ltac:(lia) E1) as (A1 & A2 & A3 & A4 & A5).
  destruct (C11_key_frame_round_trip (uc_show u) w h hd ms cs false Hw ltac:(lia) A1 A2 A3 A4 A5) as (first & parts & out & S1 & S2 & S3 & S4 & S5).
  assert (key_frame_serialize (ds_pt s') (uc_show u) w h hd ms cs = Some out) as S6.
  { rewrite (key_tables_after _ _ _ _ _ E2). destruct (kf_refresh_entropy_probs hd); [|exact S3].
    rewrite (proj1 (C50_serialise_with_updated_tables default_pt (uc_show u) w h hd (mkIFH None false 0 0 None 0 (kf_quant_indices hd) false false None None false false false false [] None 0 0 0 None None []) ms cs)). exact S3. }
  rewrite S6, E. exists out. split; [reflexivity|]. split; [exact S4|].
  destruct (key_moderate _ _ w h _ _ _ _ _ _ Hw ltac:(lia) A1 A3 A5 S1 S2 S3) as [SB SF]. split; [exact SB|]. intros L. specialize (SF L).
  destruct (S5 SF) as (u' & U1 & U2 & U3 & U4). split.
  - exists u, u'. split; [exact EU|]. split; [exact U1|]. rewrite K, U2, U3. split; [reflexivity|]. split; [reflexivity|]. rewrite U4, E1. reflexivity.
  - intros d2 scratch2 G2 C2 SE RS2. unfold get_frame_output. rewrite SE, C2, Ew, Eh, U1, U2.
    assert (parse_key (dc_state d) u' = (s', Ok (hd, ms, cs, ids))) as EP' by (apply parse_key_iff; rewrite Ew, Eh; auto). rewrite EP', U3.
    destruct (C54_key_frame w h u hd ms cs ids (ds_seg s') (ds_fa s') (dc_refs d) w h Hw Hh E1 LI IO) as (r1 & _ & _ & _ & D1).
    { intros s ES. apply (seg_good_ok w h), (stg_seg _ _ _ GS'), ES. }
    assert (P : forall sc, raster_for w h sc -> picture_output (ds_seg s') (ds_fa s') (dc_refs d) (key_pic (mb_dim w) hd ms cs ids) sc = Some (Filtered r1)).
    { intros sc (Q1 & Q2 & Q3). apply D1; assumption. }
    assert (KR : forall sc, picture_output (ds_seg s') (ds_fa s') (dc_refs d2) (key_pic (mb_dim w) hd ms cs ids) sc = picture_output (ds_seg s') (ds_fa s') (dc_refs d) (key_pic (mb_dim w) hd ms cs ids) sc).
    { intros sc. apply key_picture_refs. reflexivity. }
    unfold show_picture in *. rewrite KR, (P scratch2 RS2). rewrite (P scratch RS) in E. unfold key_copy_to in *. rewrite C2. rewrite HC in E. exact E.
Qed.

Lemma zero_inter w h d b u scratch d' shown r : 0 < w <= 16383 -> 0 < h <= 16383 -> decoder_good w h d -> dc_conceal d = false ->
  uncompressed_chunk (chunk_of b) w h false = Ok u -> uc_key u = false -> get_frame_output d (chunk_of b) scratch = (d', Output shown r) ->
  (inter_without_skip (ds_pt (dc_state d)) w h b /\ zero_frame d b scratch = Err FInvalid) \/
  (~ inter_without_skip (ds_pt (dc_state d)) w h b /\
   exists out, zero_frame d b scratch = Ok (out, d') /\ bytes_ok out /\ zlen out < 2 ^ 64 /\
    (moderate w h out -> without_residues (ds_pt (dc_state d)) w h b out /\
     forall d2 scratch2, decoder_good w h d2 -> dc_conceal d2 = false -> dc_state d2 = dc_state d -> raster_for w h scratch2 ->
       exists d2' r2, get_frame_output d2 (chunk_of out) scratch2 = (d2', Output shown r2) /\ dc_state d2' = dc_state d')).
Proof.
  intros Hw Hh G HC EU K E. pose proof G as [GS _ _ _]. pose proof GS as [Ew Eh [PT _] _ _].
  unfold get_frame_output in E. unfold zero_frame. rewrite Ew, Eh, HC in *. rewrite EU, K in *.
  destruct (uc_experimental u); [discriminate|]. cbn [negb] in E.
  destruct (parse_inter (dc_state d) u) as [s' [[[[hd ms] cs] ids]|e]] eqn:EP; [|discriminate].
  pose proof (parse_inter_good w h (dc_state d) u ltac:(lia) ltac:(lia) GS) as PG. rewrite EP in PG. destruct PG as (GS' & _ & HI). destruct (HI hd ms cs ids eq_refl) as [LI IO].
  apply parse_inter_iff in EP. rewrite Ew, Eh in EP. destruct EP as [E1 E2].
  destruct (C11_parsed_inter_frame_is_serialisable _ w h u hd ms cs ltac:(lia) E1) as (A1 & A2 & A3 & A4 & A5).
  rewrite E. cbv zeta.
  assert (NM : exists m l, map zero_mb ms = m :: l).
  { destruct ms as [|m ms]; [|exists (zero_mb m), (map zero_mb ms); reflexivity]. pose proof (mb_dim_pos w ltac:(lia)). pose proof (mb_dim_pos h ltac:(lia)). cbn in A3. nia. }
  destruct (if_prob_skip_false hd) as [p|] eqn:SK.
  2:{ left. split; [exists u, hd, ms, cs; auto|]. destruct NM as (m & l & ->). reflexivity. }
  right. split.
  { intros (u2 & hd2 & ms2 & cs2 & X1 & _ & X2 & X3). rewrite EU in X1. injection X1 as <-. rewrite E1 in X2. injection X2 as <- _ _. congruence. }
  destruct (zero_fits w h hd ms cs A1 A2 A3 A4 A5 ltac:(congruence)) as (B3 & B4 & B5).
  destruct (C11_inter_frame_round_trip (ds_pt (dc_state d)) (uc_show u) w h hd (map zero_mb ms) (map (fun _ => fresh_coef) cs) false PT Hw ltac:(lia) A1 A2 B3 B4 B5) as (first & parts & out & S1 & S2 & S3 & S4 & S5).
  assert (E2' : apply_inter (dc_state d) hd (map zero_mb ms) = Some (s', ids)) by (rewrite zero_apply; exact E2).
  assert (inter_frame_serialize (ds_pt s') (uc_show u) w h hd (map zero_mb ms) (map (fun _ => fresh_coef) cs) = Some out) as S6.
  { rewrite (inter_tables_after _ _ _ _ _ E2'). destruct (if_refresh_entropy_probs hd); [|exact S3].
    assert (KH : KeyFrameHeader) by exact (mkKFH false false None false 0 0 None 0 (if_quant_indices hd) false [] None).
    rewrite (proj2 (C50_serialise_with_updated_tables (ds_pt (dc_state d)) (uc_show u) w h KH hd (map zero_mb ms) (map (fun _ => fresh_coef) cs))). exact S3. }
  rewrite (zero_all ms cs A5), S6. exists out. split; [reflexivity|]. split; [exact S4|].
  destruct (inter_moderate _ _ w h _ _ _ _ _ _ Hw ltac:(lia) A1 B3 B5 B4 S1 S2 S3) as [SB SF]. split; [exact SB|]. intros L. specialize (SF L).
  destruct (S5 SF) as (u' & U1 & U2 & U3 & U5 & U4). split.
  - exists u, u'. split; [exact EU|]. split; [exact U1|]. rewrite K, U2, U3. split; [reflexivity|]. split; [reflexivity|].
    exists hd, ms, cs, (map zero_mb ms). split; [exact E1|]. split; [exact U4|]. clear. induction ms; constructor; [split; [apply zero_same|split; reflexivity]|assumption].
  - intros d2 scratch2 G2 C2 SE RS2. unfold get_frame_output. rewrite SE, C2, Ew, Eh, U1, U2, U5. cbn [negb].
    assert (parse_inter (dc_state d) u' = (s', Ok (hd, map zero_mb ms, map (fun _ => fresh_coef) cs, ids))) as EP' by (apply parse_inter_iff; rewrite Ew, Eh; auto). rewrite EP', U3.
    destruct (inter_pic_seg w h hd (map zero_mb ms) (map (fun _ => fresh_coef) cs) ids (ds_seg s') (ds_fa s') (dc_refs d2) Hw Hh) as (r2 & P2).
    { unfold inter_fits. rewrite map_length. split; [exact A1|]. split; [exact A2|]. split; [exact A3|]. split; [exact B4|]. auto. }
    { exact (stg_seg _ _ _ GS'). } { exact (decoder_refs_ok w h d2 G2). }
    unfold show_picture in *. rewrite (P2 scratch2 RS2). destruct (picture_output (ds_seg s') (ds_fa s') (dc_refs d) _ scratch) as [[r'|]|]; try discriminate. injection E as <- <- <-.
    eexists _, r2. split; [reflexivity|]. reflexivity.
Qed.

(** ** The whole video *)

(** The states before the frames of a video, in a decoder of the input. *)
Fixpoint tables_before (d : decoder) (l : list (list Z * raster)) : list ProbabilityTables :=
  match l with
  | [] => []
  | f :: r => ds_pt (dc_state d) :: tables_before (fst (get_frame_output d (chunk_of (fst f)) (snd f))) r
  end.

Definition same_visibility (a b : outcome) : Prop := match a, b with Output s _, Output s' _ => s' = s | _, _ => False end.

(** All frames are decoded and none is an inter frame without a skip
    probability: every frame is written without residues; a decoder with the
    same state to begin with, and any pictures, decodes all of them, shows the
    same frames, and ends in the state of a decoder of the input. *)
Theorem C72_video :
  forall w h d l, 0 < w <= 16383 -> 0 < h <= 16383 -> decoder_good w h d -> dc_conceal d = false ->
  Forall (frame_input w h) l -> forallb decoded (snd (run_frames d (map as_chunk l))) = true ->
  Forall2 (fun pt f => ~ inter_without_skip pt w h (fst f)) (tables_before d l) l ->
  exists outs, zero_video d l = (outs, Ok (fst (run_frames d (map as_chunk l)))) /\ length outs = length l /\ Forall bytes_ok outs /\
    (Forall (moderate w h) outs ->
     Forall2 (fun pt x => without_residues pt w h (fst x) (snd x)) (tables_before d l) (combine (map fst l) outs) /\
     forall d2 l2, decoder_good w h d2 -> dc_conceal d2 = false -> dc_state d2 = dc_state d -> map fst l2 = outs -> Forall (fun f => raster_for w h (snd f)) l2 ->
     dc_state (fst (run_frames d2 (map as_chunk l2))) = dc_state (fst (run_frames d (map as_chunk l))) /\
     Forall2 same_visibility (snd (run_frames d (map as_chunk l))) (snd (run_frames d2 (map as_chunk l2)))).
Proof.
  intros w h d l Hw Hh G HC F D N. revert d G HC D N. induction l as [|[b scratch] l IH]; intros d G HC D N.
  - exists []. split; [reflexivity|]. split; [reflexivity|]. split; [constructor|]. intros _. split; [constructor|].
    intros d2 [|] _ _ SE EL _; [|discriminate]. cbn. split; [exact SE|constructor].
  - inversion F as [|? ? [B [L R]] F']; subst. cbn [fst snd] in *. cbn [map] in D |- *. change (as_chunk (b, scratch)) with (chunk_of b, scratch) in D |- *. rewrite run_cons in D |- *. cbn [fst snd] in D |- *.
    cbn [tables_before fst snd] in N |- *. inversion N as [|? ? ? ? N1 N2]; subst. cbn [fst snd] in N1, N2.
    destruct (get_frame_output d (chunk_of b) scratch) as [d1 o] eqn:E1. cbn [fst] in N2 |- *. destruct (run_frames d1 (map as_chunk l)) as [dn os] eqn:ER.
    cbn [snd forallb] in D. apply andb_prop in D. destruct D as [D1 D2]. destruct o as [shown r|]; [|discriminate].
    destruct (chunk_of_ok b B L) as [CO CB]. destruct (step_good w h d (chunk_of b) Hw Hh G CO CB) as (d1' & o' & G1 & EC & OG & ST).
    pose proof (ST scratch R) as E1'. rewrite E1 in E1'. injection E1' as <- <-. rewrite HC in EC.
    pose proof (dcg_s _ _ _ G) as [Ew Eh _ _ _].
    assert (ONE : exists out, zero_frame d b scratch = Ok (out, d1) /\ bytes_ok out /\ zlen out < 2 ^ 64 /\ (moderate w h out -> without_residues (ds_pt (dc_state d)) w h b out /\
       forall d2 scratch2, decoder_good w h d2 -> dc_conceal d2 = false -> dc_state d2 = dc_state d -> raster_for w h scratch2 ->
         exists d2' r2, get_frame_output d2 (chunk_of out) scratch2 = (d2', Output shown r2) /\ dc_state d2' = dc_state d1)).
    { destruct (uncompressed_chunk (chunk_of b) w h false) as [u|e] eqn:EU.
      2:{ unfold get_frame_output in E1. rewrite Ew, Eh, HC, EU in E1. discriminate. }
      destruct (uc_key u) eqn:K.
      - destruct (zero_key w h d b u scratch d1 shown r Hw Hh G HC EU K E1 R) as (out & X1 & X2 & X4 & X3). exists out. split; [exact X1|]. split; [exact X2|]. split; [exact X4|].
        intros SH. destruct (X3 SH) as [Y1 Y2]. split; [exact Y1|]. intros d2 sc2 A1 A2 A3 A4. exists d1, r. split; [apply Y2; assumption|reflexivity].
      - destruct (zero_inter w h d b u scratch d1 shown r Hw Hh G HC EU K E1) as [[X _]|[_ X]]; [contradiction|exact X]. }
    destruct ONE as (out & Z1 & Z2 & Z4 & Z3). clear Ew Eh.
    destruct (IH F' d1 G1 EC) as (outs & T1 & T2 & T3 & T4); [rewrite ER; exact D2|exact N2|]. rewrite ER in T1, T4. cbn [fst snd] in T1, T4.
    exists (out :: outs). cbn [zero_video]. rewrite Z1, T1. split; [reflexivity|]. split; [cbn; rewrite T2; reflexivity|]. split; [constructor; assumption|].
    intros SZ. inversion SZ as [|? ? LO SZ']; subst. destruct (Z3 LO) as [W1 W2]. destruct (T4 SZ') as (P2 & P3). split.
    + cbn [map combine fst]. constructor; [exact W1|exact P2].
    + intros d2 l2 A1 A2 A3 EL FL. destruct l2 as [|[b' sc'] l2]; [discriminate|]. cbn [map fst] in EL. injection EL as -> EL. inversion FL as [|? ? R' FL']; subst. cbn [snd] in R'.
      destruct (W2 d2 sc' A1 A2 A3 R') as (d2' & r2 & O1 & O2). cbn [map]. change (as_chunk (out, sc')) with (chunk_of out, sc'). rewrite run_cons. cbn [fst snd]. rewrite O1.
      destruct (chunk_of_ok out Z2 Z4) as [CO' CB']. destruct (step_good w h d2 (chunk_of out) Hw Hh A1 CO' CB') as (dx & ox & Gx & Cx & _ & Sx). rewrite (Sx sc' R') in O1. injection O1 as -> ->.
      destruct (P3 d2' l2 Gx ltac:(congruence) O2 eq_refl FL') as [Q1 Q2]. destruct (run_frames d2' (map as_chunk l2)) as [dm om]. cbn [fst snd] in *.
      split; [exact Q1|]. constructor; [reflexivity|exact Q2].
Qed.

(** Key frames come out with the same picture. *)
Theorem C72_key_frame : forall w h d b u scratch d' shown r, 0 < w <= 16383 -> 0 < h <= 16383 -> decoder_good w h d -> dc_conceal d = false ->
  uncompressed_chunk (chunk_of b) w h false = Ok u -> uc_key u = true -> get_frame_output d (chunk_of b) scratch = (d', Output shown r) -> raster_for w h scratch ->
  exists out, zero_frame d b scratch = Ok (out, d') /\
    (moderate w h out ->
     forall d2 scratch2, decoder_good w h d2 -> dc_conceal d2 = false -> dc_state d2 = dc_state d -> raster_for w h scratch2 ->
       get_frame_output d2 (chunk_of out) scratch2 = (d', Output shown r)).
Proof.
  intros w h d b u scratch d' shown r Hw Hh G HC EU K E RS. destruct (zero_key w h d b u scratch d' shown r Hw Hh G HC EU K E RS) as (out & A & _ & _ & B).
  exists out. split; [exact A|]. intros L. exact (proj2 (B L)).
Qed.

(** The first inter frame without a skip probability ends the program; what
    comes before is written. *)
Theorem C72_stops :
  forall w h d l b scratch rest, 0 < w <= 16383 -> 0 < h <= 16383 -> decoder_good w h d -> dc_conceal d = false ->
  Forall (frame_input w h) (l ++ [(b, scratch)]) -> forallb decoded (snd (run_frames d (map as_chunk (l ++ [(b, scratch)])))) = true ->
  Forall2 (fun pt f => ~ inter_without_skip pt w h (fst f)) (tables_before d l) l ->
  inter_without_skip (ds_pt (dc_state (fst (run_frames d (map as_chunk l))))) w h b ->
  exists outs, zero_video d (l ++ (b, scratch) :: rest) = (outs, Err FInvalid) /\ outs = fst (zero_video d l) /\ length outs = length l.
Proof.
  intros w h d l b scratch rest Hw Hh G HC F D N S. revert d G HC D N S. induction l as [|[b0 sc0] l IH]; intros d G HC D N S.
  - exists []. cbn [app zero_video]. inversion F as [|? ? [B [L R]] _]; subst. cbn [fst snd] in *. cbn [app map] in D. change (as_chunk (b, scratch)) with (chunk_of b, scratch) in D. rewrite run_cons in D. cbn [fst snd run_frames] in D.
    destruct (get_frame_output d (chunk_of b) scratch) as [d1 o] eqn:E1. cbn [snd forallb decoded] in D. destruct o as [shown r|]; [|discriminate].
    cbn [map run_frames fst] in S. pose proof S as (u & hd & ms & cs & EU & K & _).
    destruct (zero_inter w h d b u scratch d1 shown r Hw Hh G HC EU K E1) as [[_ X]|[X _]]; [|contradiction]. rewrite X. auto.
  - cbn [app] in *. inversion F as [|? ? [B [L R]] F']; subst. cbn [fst snd] in *. cbn [map] in D, S. change (as_chunk (b0, sc0)) with (chunk_of b0, sc0) in D, S. rewrite run_cons in D, S. cbn [fst snd] in D, S.
    cbn [tables_before fst snd] in N. inversion N as [|? ? ? ? N1 N2]; subst. cbn [fst snd] in N1, N2.
    destruct (get_frame_output d (chunk_of b0) sc0) as [d1 o] eqn:E1. cbn [fst] in N2, S. destruct (run_frames d1 (map as_chunk (l ++ [(b, scratch)]))) as [dn os] eqn:ER.
    cbn [snd forallb] in D. apply andb_prop in D. destruct D as [D1 D2]. destruct o as [shown r|]; [|discriminate].
    destruct (chunk_of_ok b0 B L) as [CO CB]. destruct (step_good w h d (chunk_of b0) Hw Hh G CO CB) as (d1' & o' & G1 & EC & OG & ST).
    pose proof (ST sc0 R) as E1'. rewrite E1 in E1'. injection E1' as <- <-. rewrite HC in EC. pose proof (dcg_s _ _ _ G) as [Ew Eh _ _ _].
    assert (ONE : exists out, zero_frame d b0 sc0 = Ok (out, d1)).
    { destruct (uncompressed_chunk (chunk_of b0) w h false) as [u|e] eqn:EU.
      2:{ unfold get_frame_output in E1. rewrite Ew, Eh, HC, EU in E1. discriminate. }
      destruct (uc_key u) eqn:K.
      - destruct (zero_key w h d b0 u sc0 d1 shown r Hw Hh G HC EU K E1 R) as (out & X1 & _). exists out. exact X1.
      - destruct (zero_inter w h d b0 u sc0 d1 shown r Hw Hh G HC EU K E1) as [[X _]|[_ (out & X & _)]]; [contradiction|exists out; exact X]. }
    destruct ONE as (out & Z1).
    assert (S' : inter_without_skip (ds_pt (dc_state (fst (run_frames d1 (map as_chunk l))))) w h b).
    { destruct (run_frames d1 (map as_chunk l)) as [dz oz]. exact S. }
    destruct (IH F' d1 G1 EC) as (outs & T1 & T2 & T3); [rewrite ER; exact D2|exact N2|exact S'|].
    exists (out :: outs). cbn [zero_video]. rewrite Z1, T1. split; [reflexivity|]. destruct (zero_video d1 l) as [oo xx]. cbn [fst] in *. split; [rewrite T2; reflexivity|]. cbn [length]. rewrite T3. reflexivity.
Qed.

(** A frame that the decoder does not decode ends the program with the decoder's
    exception. (Inter frames of an experimental version are the exception: only
    the decoder's own entry point refuses them.) *)
Theorem C72_undecodable :
  forall w h d b scratch d' e rest, 0 < w <= 16383 -> 0 < h <= 16383 -> decoder_good w h d -> dc_conceal d = false -> frame_input w h (b, scratch) ->
  get_frame_output d (chunk_of b) scratch = (d', Raised e) -> (forall u, uncompressed_chunk (chunk_of b) w h false = Ok u -> uc_key u = true \/ uc_experimental u = false) ->
  zero_video d ((b, scratch) :: rest) = ([], Err e).
Proof.
  intros w h d b scratch d' e rest Hw Hh G HC (B & L & R) E NX. cbn [fst snd] in *. pose proof G as [GS _ _ _]. pose proof GS as [Ew Eh [PT _] _ _].
  cbn [zero_video]. assert (Z : zero_frame d b scratch = Err e); [|rewrite Z; reflexivity].
  unfold get_frame_output in E. unfold zero_frame. rewrite Ew, Eh, HC in *. destruct (uncompressed_chunk (chunk_of b) w h false) as [u|e'] eqn:EU; [|injection E as _ <-; reflexivity].
  destruct (uc_key u) eqn:K.
  - destruct (parse_key (dc_state d) u) as [s' [[[[hd ms] cs] ids]|e']] eqn:EP; [|injection E as _ <-; reflexivity]. rewrite E.
    apply parse_key_iff in EP. rewrite Ew, Eh in EP. destruct EP as [E1 E2].
    destruct (C11_parsed_key_frame_is_serialisable w h u hd ms cs ltac:(lia) E1) as (A1 & A2 & A3 & A4 & A5).
    destruct (C11_key_frame_round_trip (uc_show u) w h hd ms cs false Hw ltac:(lia) A1 A2 A3 A4 A5) as (first & parts & out & S1 & S2 & S3 & _).
    assert (key_frame_serialize (ds_pt s') (uc_show u) w h hd ms cs = Some out) as S6; [|rewrite S6; reflexivity].
    rewrite (key_tables_after _ _ _ _ _ E2). destruct (kf_refresh_entropy_probs hd); [|exact S3].
    rewrite (proj1 (C50_serialise_with_updated_tables default_pt (uc_show u) w h hd (mkIFH None false 0 0 None 0 (kf_quant_indices hd) false false None None false false false false [] None 0 0 0 None None []) ms cs)). exact S3.
  - destruct (NX u eq_refl) as [|NE]; [congruence|]. rewrite NE in E. cbn [negb] in E. destruct (parse_inter (dc_state d) u) as [s' [[[[hd ms] cs] ids]|e']]; [rewrite E; reflexivity|]. injection E as _ <-. reflexivity.
Qed.

(** ** What the written inter frames show *)

Lemma zeros t a b : (t = cosine \/ t = hadamard) -> both_ways t (fun _ _ => 0) a b = 0.
Proof. intros [-> | ->]; destruct a as [|[|[|a]]], b as [|[|[|b]]]; reflexivity. Qed.
Lemma scaled_fresh f n k i : scaled f (nth n (repeat fresh_block i) fresh_block) k = 0.
Proof.
  replace (nth n (repeat fresh_block i) fresh_block) with fresh_block.
  - unfold scaled, fresh_block. cbn [fst]. rewrite nth_repeat. reflexivity.
  - revert n. induction i as [|i IH]; intros [|n]; cbn; auto.
Qed.
Lemma no_luma q m x y : luma_residue q m fresh_coef x y = 0.
Proof.
  unfold luma_residue. cbv zeta. rewrite (both_ways_ext cosine _ (fun _ _ => 0)); [rewrite zeros by auto; reflexivity|auto|].
  intros i j Hi Hj. cbn [co_y fresh_coef]. rewrite scaled_fresh. match goal with |- (if ?x then _ else _) = _ => destruct x end; [|reflexivity].
  unfold y2_value. rewrite (both_ways_ext hadamard _ (fun _ _ => 0)); [rewrite zeros by auto; reflexivity|auto|].
  intros i' j' _ _. cbn [co_y2 fresh_coef]. exact (scaled_fresh (q_y2_dc q, q_y2_ac q) 0 _ 0).
Qed.
Lemma no_chroma q x y : chroma_res q (repeat fresh_block 4) x y = 0.
Proof.
  unfold chroma_res. cbv zeta. rewrite (both_ways_ext cosine _ (fun _ _ => 0)); [rewrite zeros by auto; reflexivity|auto|].
  intros i j Hi Hj. apply scaled_fresh.
Qed.

(** Every pixel of macroblock (column, row) is what [m] predicts. *)
Definition predicted (refs : references) (m : mbinfo) (column row : Z) (r : raster) : Prop :=
  let plane_predicted n pred p := forall px py, n * column <= px < n * column + n -> n * row <= py < n * row + n -> at_px p px py = clip (pred p px py) in
  plane_predicted 16 (luma_prediction (ra_y (named refs m)) m column row) (ra_y r) /\
  plane_predicted 8 (chroma_prediction (ra_u (named refs m)) m column row) (ra_u r) /\
  plane_predicted 8 (chroma_prediction (ra_v (named refs m)) m column row) (ra_v r).

Lemma same_predicted refs m m' column row r : same_prediction m m' -> predicted refs m' column row r -> predicted refs m column row r.
Proof.
  intros (A & B & C & D & E & F & G & I & J). unfold predicted, luma_prediction, chroma_prediction, chroma_vector, vector, named. cbv zeta. rewrite A, B, C, F, G, I, J. exact (fun X => X).
Qed.

(** [m] is the macroblock of the input; [u'] the frame that was written. *)
Theorem C72_prediction_only :
  forall pt w h b out u' hd ms cs ids seg refs r, 0 < w <= 16383 -> 0 < h <= 16383 -> without_residues pt w h b out ->
  uncompressed_chunk (chunk_of out) w h false = Ok u' -> uc_key u' = false -> inter_frame_parse pt w h u' = Ok (hd, ms, cs) ->
  length ids = length ms -> ids_ok ids -> (forall s, seg = Some s -> segmentation_ok s) ->
  refs_ok (Z.of_nat (mb_dim w)) (Z.of_nat (mb_dim h)) refs -> raster_ok (Z.of_nat (mb_dim w)) (Z.of_nat (mb_dim h)) r ->
  exists r', picture_decode seg refs (inter_picture (mb_dim w) hd ms cs ids) r = Some r' /\
    exists u ms0 cs0, uncompressed_chunk (chunk_of b) w h false = Ok u /\ inter_frame_parse pt w h u = Ok (hd, ms0, cs0) /\ length ms0 = (mb_dim w * mb_dim h)%nat /\
      forall i m, nth_error ms0 i = Some m -> predicted refs m (column_of (mb_dim w) i) (row_of (mb_dim w) i) r'.
Proof.
  intros pt w h b out u' hd ms cs ids seg refs r Hw Hh (u & u2 & W1 & W2 & W3 & W4 & W5) EU K EP LI IO SG RF RK.
  rewrite EU in W2. injection W2 as <-. rewrite <- W3, K in W5. destruct W5 as (hd0 & ms0 & cs0 & ms' & P1 & P2 & P3). rewrite EP in P2. injection P2 as <- <- ->.
  destruct (C55_inter_frame pt w h u' hd ms _ ids seg refs r Hw Hh EP LI IO SG RF RK) as (r' & D1 & D2 & D3). exists r'. split; [exact D1|].
  destruct (C11_parsed_inter_frame_is_serialisable _ w h u hd ms0 cs0 ltac:(lia) P1) as (_ & _ & A3 & _ & [A5 _]).
  exists u, ms0, cs0. split; [exact W1|]. split; [exact P1|]. split; [exact A3|]. intros i m E.
  assert (LM : length ms = length ms0) by (clear - P3; induction P3; cbn; congruence).
  assert (HI : (i < length ms0)%nat) by (apply nth_error_Some; congruence).
  destruct (nth_error ms i) as [m'|] eqn:EM; [|apply nth_error_None in EM; lia].
  destruct (nth_error cs0 i) as [c|] eqn:EC; [|apply nth_error_None in EC; lia].
  destruct (nth_error ids i) as [id|] eqn:EI; [|apply nth_error_None in EI; lia].
  destruct (D3 i m' fresh_coef id EM ltac:(rewrite nth_error_map, EC; reflexivity) EI) as (q & _ & (Y & U & V)).
  assert (SP : same_prediction m m').
  { clear - P3 E EM. revert i E EM. induction P3 as [|a b' l l' X Q IH]; intros [|i] E EM; try discriminate; cbn in E, EM; [injection E as <-; injection EM as <-; apply X|exact (IH i E EM)]. }
  apply (same_predicted refs m m' _ _ _ SP). split; [|split].
  - intros px py Hx Hy. rewrite (Y px py Hx Hy), no_luma, Z.add_0_r. reflexivity.
  - intros px py Hx Hy. rewrite (U px py Hx Hy). cbn [co_u fresh_coef]. rewrite no_chroma, Z.add_0_r. reflexivity.
  - intros px py Hx Hy. rewrite (V px py Hx Hy). cbn [co_v fresh_coef]. rewrite no_chroma, Z.add_0_r. reflexivity.
Qed.

(** ** Examples *)

(** [video] (PropTerminate.v): a key frame and an inter frame with a skip
    probability whose second macroblock has residues. *)
Definition skip_probability (pt : ProbabilityTables) (b : list Z) : option (option Z) :=
  match uncompressed_chunk (chunk_of b) 20 10 false with
  | Ok u => match inter_frame_parse pt 20 10 u with Ok (hd, _, _) => Some (if_prob_skip_false hd) | Err _ => None end
  | Err _ => None
  end.
Lemma not_without pt b : match skip_probability pt b with Some None => False | _ => True end -> ~ inter_without_skip pt 20 10 b.
Proof. intros H (u & hd & ms & cs & A & _ & B & C). unfold skip_probability in H. rewrite A, B, C in H. exact H. Qed.

Definition checks (d : decoder) (l : list (list Z * raster)) : list Z :=
  map (fun o => match o with Output _ r => fold_left Z.add (pl_px (ra_y r)) 0 | Raised _ => -1 end) (snd (run_frames d (map as_chunk l))).
Definition written (d : decoder) (l : list (list Z * raster)) : list (list Z * raster) := map (fun b => (b, shaded 9)) (fst (zero_video d l)).

Example C72_example :
  decoder_good 20 10 decoder_two /\ Forall (frame_input 20 10) video /\ forallb decoded (snd (run_frames decoder_two (map as_chunk video))) = true /\
  Forall2 (fun pt f => ~ inter_without_skip pt 20 10 (fst f)) (tables_before decoder_two video) video /\
  map zlen (fst (zero_video decoder_two video)) = [31; 25] /\ forallb (fun b => zlen b <? 2 ^ 19) (fst (zero_video decoder_two video)) = true /\
  checks decoder_two video = [66048; 66049] /\ checks decoder_two (written decoder_two video) = [66048; 66048].
Proof.
  split; [exact decoder_two_good|]. split; [constructor; [apply bytes_input; reflexivity|constructor; [apply bytes_input; reflexivity|constructor]]|].
  split; [vm_compute; reflexivity|]. split; [|split; [vm_compute; reflexivity|split; [vm_compute; reflexivity|split; vm_compute; reflexivity]]].
  constructor; [|constructor; [|constructor]]; apply not_without; vm_compute; exact I.
Qed.

Example C72_undecodable_example :
  frame_input 20 10 (firstn 9 key_bytes, shaded 5) /\ (forall u, uncompressed_chunk (chunk_of (firstn 9 key_bytes)) 20 10 false = Ok u -> uc_key u = true \/ uc_experimental u = false) /\
  match snd (get_frame_output decoder_two (chunk_of (firstn 9 key_bytes)) (shaded 5)) with Raised FInvalid => True | _ => False end.
Proof. split; [apply bytes_input; reflexivity|]. split; [vm_compute; discriminate|]. vm_compute. exact I. Qed.

(** The same inter frame without a skip probability decodes as well, but the
    program gives up. *)
Definition plain_bytes : list Z :=
  [145; 2; 0; 213; 154; 145; 192; 7; 113; 52; 149; 55; 0; 0; 189; 254; 154; 15; 40; 86; 18; 170; 0; 3; 109; 144; 13; 104; 19; 0].
Definition plain_video : list (list Z * raster) := [(key_bytes, shaded 5); (plain_bytes, shaded 6); (inter_bytes, shaded 7)].

Theorem C72_every_video_refuted :
  ~ (forall d l, decoder_good 20 10 d -> dc_conceal d = false -> Forall (frame_input 20 10) l -> forallb decoded (snd (run_frames d (map as_chunk l))) = true ->
     length (fst (zero_video d l)) = length l).
Proof.
  intros H. assert (X : length (fst (zero_video decoder_two plain_video)) = 1%nat) by (vm_compute; reflexivity).
  rewrite (H decoder_two plain_video decoder_two_good eq_refl) in X; [discriminate| |vm_compute; reflexivity].
  constructor; [apply bytes_input; reflexivity|]. constructor; [apply bytes_input; reflexivity|]. constructor; [apply bytes_input; reflexivity|constructor].
Qed.

Example C72_stops_example :
  Forall (frame_input 20 10) [(key_bytes, shaded 5); (plain_bytes, shaded 6)] /\
  forallb decoded (snd (run_frames decoder_two (map as_chunk [(key_bytes, shaded 5); (plain_bytes, shaded 6)]))) = true /\
  Forall2 (fun pt f => ~ inter_without_skip pt 20 10 (fst f)) (tables_before decoder_two [(key_bytes, shaded 5)]) [(key_bytes, shaded 5)] /\
  skip_probability (ds_pt (dc_state (fst (run_frames decoder_two (map as_chunk [(key_bytes, shaded 5)]))))) plain_bytes = Some None /\
  match snd (zero_video decoder_two plain_video) with Err FInvalid => True | _ => False end.
Proof.
  split; [constructor; [apply bytes_input; reflexivity|constructor; [apply bytes_input; reflexivity|constructor]]|]. split; [vm_compute; reflexivity|].
  split; [constructor; [|constructor]; apply not_without; vm_compute; exact I|]. split; [vm_compute; reflexivity|]. vm_compute. exact I.
Qed.

Print Assumptions C72_video.
Print Assumptions C72_key_frame.
Print Assumptions C72_stops.
Print Assumptions C72_undecodable.
Print Assumptions C72_prediction_only.
Print Assumptions C72_every_video_refuted.
