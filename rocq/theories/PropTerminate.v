(** Properties C59 and C27: frames written again by the chunk terminator. *)
From Verif Require Import Base BoolCoderModel ParserModel HeaderModel HeaderProofs MBModel MBProofs MBDecoded ChunkModel ChunkProofs ContainerModel ContainerProofs PropContainer FrameModel FrameProofs PropFrame SizeProofs.
From Verif Require Import RasterModel RasterProofs LoopFilterModel PropLoopFilter ReconModel ReconProofs PropPicture StateModel StateProofs PropState SerialModel SerialProofs PropSerial TerminateModel.

(** ** A parsed frame written again *)

(** What a frame does to the state depends only on its header and its
    macroblocks' segments. *)
Definition apply_key (s : DecoderState) (hd : KeyFrameHeader) (ms : list mbinfo) : option (DecoderState * list Z) :=
  let s1 := key_state (ds_w s) (ds_h s) hd in
  let s2 := if kf_refresh_entropy_probs hd then set_tables s1 (coeff_prob_update default_pt (kf_token_prob_update hd)) else s1 in
  match update_map (mb_dim (ds_w s)) (ds_seg s2) ms with Some (seg, ids) => Some (set_seg s2 seg, ids) | None => None end.
Definition apply_inter (s : DecoderState) (hd : InterFrameHeader) (ms : list mbinfo) : option (DecoderState * list Z) :=
  let s1 := if if_refresh_entropy_probs hd then set_tables s (pt_update (ds_pt s) hd) else s in
  let s2 := set_fa s1 (inter_fa (ds_fa s1) (if_mode_lf_adjustments hd)) in
  let s3 := set_seg s2 (inter_seg (ds_w s) (ds_h s) (ds_seg s2) (if_update_segmentation hd)) in
  match update_map (mb_dim (ds_w s)) (ds_seg s3) ms with Some (seg, ids) => Some (set_seg s3 seg, ids) | None => None end.

Lemma parse_key_iff s u s' hd ms cs ids :
  parse_key s u = (s', Ok (hd, ms, cs, ids)) <->
  key_frame_parse (ds_w s) (ds_h s) u = Ok (hd, ms, cs) /\ apply_key s hd ms = Some (s', ids).
Proof.
  unfold parse_key, key_frame_parse, apply_key.
  destruct (negb (uc_key u)); [split; [|intros []]; discriminate|]. destruct (uc_experimental u); [split; [|intros []]; discriminate|].
  destruct (key_frame_header_decode (first_decoder u)) as [hd' d]. destruct (negb (key_frame_header_supported hd')); [split; [|intros []]; discriminate|].
  destruct (kf_macroblocks_decode hd' _ _ d) as [ms' d2]. cbv zeta. change (ds_pt (key_state (ds_w s) (ds_h s) hd')) with default_pt.
  destruct (frame_tokens _ _ _ u ms') as [cs'|e]; cbn [rbind].
  - split.
    + intros E. destruct (update_map _ _ _) as [[sg ids']|] eqn:EM; [|discriminate]. injection E as <- <- <- <- <-. split; [reflexivity|]. rewrite EM. reflexivity.
    + intros [E1 E2]. injection E1 as <- <- <-. destruct (update_map _ _ _) as [[sg ids']|]; [|discriminate]. injection E2 as <- <-. reflexivity.
  - split; [|intros []; discriminate]. intros E. destruct (update_map _ _ _) as [[sg ids']|]; discriminate.
Qed.
Lemma parse_inter_iff s u s' hd ms cs ids :
  parse_inter s u = (s', Ok (hd, ms, cs, ids)) <->
  inter_frame_parse (ds_pt s) (ds_w s) (ds_h s) u = Ok (hd, ms, cs) /\ apply_inter s hd ms = Some (s', ids).
Proof.
  unfold parse_inter, inter_frame_parse, apply_inter.
  destruct (uc_key u); [split; [|intros []]; discriminate|].
  destruct (inter_frame_header_decode (first_decoder u)) as [hd' d]. destruct (negb (inter_frame_header_supported hd')); [split; [|intros []]; discriminate|].
  destruct (if_macroblocks_decode hd' _ _ _ d) as [ms' d2]. cbv zeta.
  destruct (frame_tokens _ _ _ u ms') as [cs'|e]; cbn [rbind].
  - split.
    + intros E. destruct (update_map _ _ _) as [[sg ids']|] eqn:EM; [|discriminate]. injection E as <- <- <- <- <-. split; [reflexivity|]. rewrite EM. reflexivity.
    + intros [E1 E2]. injection E1 as <- <- <-. destruct (update_map _ _ _) as [[sg ids']|]; [|discriminate]. injection E2 as <- <-. reflexivity.
  - split; [|intros []; discriminate]. intros E. destruct (update_map _ _ _) as [[sg ids']|]; discriminate.
Qed.

(** The tables after a frame are as good for writing it as the tables before. *)
Lemma key_tables_after s hd ms s' ids : apply_key s hd ms = Some (s', ids) ->
  ds_pt s' = if kf_refresh_entropy_probs hd then coeff_prob_update default_pt (kf_token_prob_update hd) else default_pt.
Proof. unfold apply_key. cbv zeta. destruct (kf_refresh_entropy_probs hd); destruct (update_map _ _ _) as [[sg ids']|]; try discriminate; intros E; injection E as <- _; reflexivity. Qed.
Lemma inter_tables_after s hd ms s' ids : apply_inter s hd ms = Some (s', ids) ->
  ds_pt s' = if if_refresh_entropy_probs hd then pt_update (ds_pt s) hd else ds_pt s.
Proof. unfold apply_inter. cbv zeta. destruct (if_refresh_entropy_probs hd); destruct (update_map _ _ _) as [[sg ids']|]; try discriminate; intros E; injection E as <- _; reflexivity. Qed.

Lemma o_ok_none {A} (P : A -> Prop) : o_ok P None.
Proof. intros a E. discriminate. Qed.
Lemma end_header_ok hd : ifh_ok hd -> ifh_ok (end_header hd).
Proof.
  intros []. constructor; cbn; try assumption; try exact (o_ok_none _); split; try discriminate; intros H; destruct (H eq_refl).
Qed.

Lemma key_again w h d b u scratch d' shown r : 0 < w <= 16383 -> 0 < h <= 16383 -> decoder_good w h d -> dc_conceal d = false ->
  uncompressed_chunk (chunk_of b) w h false = Ok u -> uc_key u = true -> get_frame_output d (chunk_of b) scratch = (d', Output shown r) ->
  forall last, exists out, terminate_frame d last b scratch = Ok (out, d') /\ bytes_ok out /\ zlen out < 2 ^ 64 /\
    (moderate w h out -> get_frame_output d (chunk_of out) scratch = (d', Output shown r) /\
     exists u', uncompressed_chunk (chunk_of out) w h false = Ok u' /\ uc_key u' = true).
Proof.
  intros Hw Hh [GS _ _ _] HC EU K E last. destruct GS as [Ew Eh [PT _] _ _].
  unfold get_frame_output in *. unfold terminate_frame. rewrite Ew, Eh, HC in *. rewrite EU, K in *.
  destruct (parse_key (dc_state d) u) as [s' [[[[hd ms] cs] ids]|e]] eqn:EP; [|discriminate].
  apply parse_key_iff in EP. rewrite Ew, Eh in EP. destruct EP as [E1 E2].
  destruct (C11_parsed_key_frame_is_serialisable w h u hd ms cs ltac:(lia) E1) as (A1 & A2 & A3 & A4 & A5).
  destruct (C11_key_frame_round_trip (uc_show u) w h hd ms cs false Hw ltac:(lia) A1 A2 A3 A4 A5) as (first & parts & out & S1 & S2 & S3 & S4 & S5).
  assert (key_frame_serialize (ds_pt s') (uc_show u) w h hd ms cs = Some out) as S6.
  { rewrite (key_tables_after _ _ _ _ _ E2). destruct (kf_refresh_entropy_probs hd); [|exact S3].
    rewrite (proj1 (C50_serialise_with_updated_tables default_pt (uc_show u) w h hd (mkIFH None false 0 0 None 0 (kf_quant_indices hd) false false None None false false false false [] None 0 0 0 None None []) ms cs)). exact S3. }
  rewrite S6, E. exists out. split; [reflexivity|]. split; [exact S4|].
  destruct (key_moderate _ _ w h _ _ _ _ _ _ Hw ltac:(lia) A1 A3 A5 S1 S2 S3) as [SB SF]. split; [exact SB|]. intros L. specialize (SF L).
  destruct (S5 SF) as (u' & U1 & U2 & U3 & U4). split; [|exists u'; auto]. rewrite U1, U2.
  assert (parse_key (dc_state d) u' = (s', Ok (hd, ms, cs, ids))) as EP' by (apply parse_key_iff; rewrite Ew, Eh; auto).
  rewrite EP', U3. exact E.
Qed.

(** What the decoder holds after the frame as it is written. *)
Definition refs_written (last : bool) (old : references) (r : raster) : references := if last then mkRefs r r r else old.

Lemma inter_again w h d b u scratch d' shown r : 0 < w <= 16383 -> 0 < h <= 16383 -> decoder_good w h d -> dc_conceal d = false ->
  uncompressed_chunk (chunk_of b) w h false = Ok u -> uc_key u = false -> get_frame_output d (chunk_of b) scratch = (d', Output shown r) ->
  forall last, exists out, let d2 := mkDecoder (dc_state d') (refs_written last (dc_refs d') r) false in
    terminate_frame d last b scratch = Ok (out, d2) /\ bytes_ok out /\ zlen out < 2 ^ 64 /\
    (moderate w h out -> get_frame_output d (chunk_of out) scratch = (d2, Output shown r) /\
     (last = true -> leaves_one_picture d (chunk_of out))).
Proof.
  intros Hw Hh [GS _ _ _] HC EU K E last. destruct GS as [Ew Eh [PT _] _ _].
  unfold leaves_one_picture. unfold get_frame_output in *. unfold terminate_frame. rewrite Ew, Eh, HC in *. rewrite EU, K in *.
  destruct (uc_experimental u); [discriminate|]. cbn [negb] in E.
  destruct (parse_inter (dc_state d) u) as [s' [[[[hd ms] cs] ids]|e]] eqn:EP; [|discriminate].
  apply parse_inter_iff in EP. rewrite Ew, Eh in EP. destruct EP as [E1 E2].
  destruct (C11_parsed_inter_frame_is_serialisable _ w h u hd ms cs ltac:(lia) E1) as (A1 & A2 & A3 & A4 & A5).
  set (hd' := if last then end_header hd else hd).
  assert (ifh_ok hd') as B1 by (unfold hd'; destruct last; [apply end_header_ok|]; exact A1).
  assert (inter_frame_header_supported hd' = true) as B2 by (unfold hd'; destruct last; exact A2).
  assert (forall i m, nth_error ms i = Some m -> if_mb_ok hd' (mb_dim w) (mb_dim h) ms i m) as B4 by (unfold hd'; destruct last; exact A4).
  destruct (C11_inter_frame_round_trip (ds_pt (dc_state d)) (uc_show u) w h hd' ms cs false PT Hw ltac:(lia) B1 B2 A3 B4 A5) as (first & parts & out & S1 & S2 & S3 & S4 & S5).
  assert (apply_inter (dc_state d) hd' ms = Some (s', ids)) as E2' by (unfold hd'; destruct last; exact E2).
  assert (inter_frame_serialize (ds_pt s') (uc_show u) w h hd' ms cs = Some out) as S6.
  { rewrite (inter_tables_after _ _ _ _ _ E2'). destruct (if_refresh_entropy_probs hd'); [|exact S3].
    assert (KH : KeyFrameHeader) by exact (mkKFH false false None false 0 0 None 0 (if_quant_indices hd) false [] None).
    rewrite (proj2 (C50_serialise_with_updated_tables (ds_pt (dc_state d)) (uc_show u) w h KH hd' ms cs)). exact S3. }
  assert (show_picture d s' (uc_show u) (inter_pic (mb_dim w) hd' ms cs ids) (inter_copy_to hd') scratch =
          (mkDecoder (dc_state d') (refs_written last (dc_refs d') r) false, Output shown r)) as ES.
  { assert (inter_pic (mb_dim w) hd' ms cs ids = inter_pic (mb_dim w) hd ms cs ids) as -> by (unfold hd'; destruct last; reflexivity).
    unfold show_picture in *. destruct (picture_output _ _ _ _ _) as [[r'|]|]; try discriminate. injection E as <- <- <-. cbn [dc_state dc_refs]. rewrite HC.
    unfold hd', refs_written. destruct last; reflexivity. }
  exists out. cbv zeta. rewrite S6, ES. split; [reflexivity|]. split; [exact S4|].
  destruct (inter_moderate _ _ w h _ _ _ _ _ _ Hw ltac:(lia) B1 A3 A5 B4 S1 S2 S3) as [SB SF]. split; [exact SB|]. intros L. specialize (SF L).
  destruct (S5 SF) as (u' & U1 & U2 & U3 & U5 & U4). rewrite U1, U2.
  assert (parse_inter (dc_state d) u' = (s', Ok (hd', ms, cs, ids))) as EP' by (apply parse_inter_iff; rewrite Ew, Eh; auto).
  rewrite U5. cbn [negb]. rewrite EP', U3. split; [exact ES|]. intros ->. exists u'. split; [reflexivity|]. right. split; [exact U2|].
  assert (inter_header u' = end_header hd) as ->; [|auto]. unfold inter_frame_parse in U4. rewrite U2 in U4. unfold inter_header.
  destruct (inter_frame_header_decode (first_decoder u')) as [hx dx]. cbn [fst]. destruct (negb _); [discriminate|].
  destruct (if_macroblocks_decode _ _ _ _ _). destruct (frame_tokens _ _ _ _ _); [|discriminate]. cbn [rbind] in U4. assert (hx = hd') as EX by congruence. exact EX.
Qed.

(** ** The whole video *)

(** All frames were decoded. *)
Definition decoded (o : outcome) : bool := match o with Output _ _ => true | Raised _ => false end.
Definition last_picture (os : list outcome) (r0 : raster) : raster := last (map (fun o => match o with Output _ r => r | Raised _ => r0 end) os) r0.

Lemma last_picture_cons shown r os a b : os <> [] -> forallb decoded os = true -> last_picture (Output shown r :: os) b = last_picture os a.
Proof.
  unfold last_picture. intros N D. cbn [map]. destruct os as [|o os]; [contradiction|]. clear N.
  revert o D. induction os as [|o' os IH]; intros o D; cbn [forallb] in D; apply andb_prop in D; destruct D as [D1 D2].
  - destruct o; [reflexivity|discriminate].
  - specialize (IH o' D2). cbn [map] in *. cbn [last] in *. exact IH.
Qed.

Lemma frame_again w h d b scratch d' shown r : 0 < w <= 16383 -> 0 < h <= 16383 -> decoder_good w h d -> dc_conceal d = false ->
  get_frame_output d (chunk_of b) scratch = (d', Output shown r) ->
  forall last, exists out d2, dc_state d2 = dc_state d' /\ dc_conceal d2 = false /\ dc_refs d2 = refs_written last (dc_refs d') r /\
    terminate_frame d last b scratch = Ok (out, d2) /\ bytes_ok out /\ zlen out < 2 ^ 64 /\
    (moderate w h out -> get_frame_output d (chunk_of out) scratch = (d2, Output shown r) /\
     (last = true -> leaves_one_picture d (chunk_of out))).
Proof.
  intros Hw Hh G HC E last. pose proof (dcg_s _ _ _ G) as [Ew Eh _ _ _].
  destruct (uncompressed_chunk (chunk_of b) w h false) as [u|e] eqn:EU.
  2:{ unfold get_frame_output in E. rewrite Ew, Eh, HC, EU in E. discriminate. }
  destruct (uc_key u) eqn:K.
  - destruct (key_again w h d b u scratch d' shown r Hw Hh G HC EU K E last) as (out & A & B & B' & C). exists out, d'.
    assert (uncompressed_chunk (chunk_of b) (ds_w (dc_state d)) (ds_h (dc_state d)) (dc_conceal d) = Ok u) as EU' by (rewrite Ew, Eh, HC; exact EU).
    pose proof (C23_references_after_key_frame _ _ _ _ _ _ _ EU' K E) as R.
    assert (dc_conceal d' = false) as HC'.
    { unfold get_frame_output in E. rewrite EU', K in E. destruct (parse_key _ _) as [s' [[[[hd ms] cs] ids]|e']]; [|discriminate]. unfold show_picture in E.
      destruct (picture_output _ _ _ _ _) as [[r'|]|]; try discriminate. injection E as <- _ _. exact HC. }
    split; [reflexivity|]. split; [exact HC'|]. split; [unfold refs_written; rewrite R; destruct last; reflexivity|]. split; [exact A|]. split; [exact B|]. split; [exact B'|].
    intros L. destruct (C L) as [C1 (u' & C2 & C3)]. split; [exact C1|]. intros _. exists u'. rewrite Ew, Eh, HC. auto.
  - destruct (inter_again w h d b u scratch d' shown r Hw Hh G HC EU K E last) as (out & A). cbv zeta in A. destruct A as (A & B & B' & C). exists out.
    exists (mkDecoder (dc_state d') (refs_written last (dc_refs d') r) false). repeat (split; [reflexivity|]). split; [exact A|]. split; [exact B|]. split; [exact B'|exact C].
Qed.

Lemma run_cons d f l : run_frames d (f :: l) = (let '(d', o) := get_frame_output d (fst f) (snd f) in let '(d'', os) := run_frames d' l in (d'', o :: os)).
Proof. destruct f. reflexivity. Qed.

Lemma run_nonempty d l : l <> [] -> snd (run_frames d l) <> [].
Proof. destruct l as [|f l]; [contradiction|]. intros _. rewrite run_cons. destruct (get_frame_output d (fst f) (snd f)) as [d' o]. destruct (run_frames d' l). discriminate. Qed.

(** Whenever a decoder decodes every frame of a video, the terminator succeeds;
    the video it writes (if its frames are shorter than 2^19 bytes or have at most
    1320 macroblocks) gives the
    same pictures and leaves the same state, and all three references are the
    last picture. *)
Theorem C59_terminated_video :
  forall w h d l, 0 < w <= 16383 -> 0 < h <= 16383 -> decoder_good w h d -> dc_conceal d = false ->
  Forall (frame_input w h) l -> l <> [] -> forallb decoded (snd (run_frames d (map as_chunk l))) = true ->
  exists outs d2, terminate d l = Ok (outs, d2) /\ dc_conceal d2 = false /\ length outs = length l /\ Forall bytes_ok outs /\ Forall (fun b => zlen b < 2 ^ 64) outs /\
    (Forall (moderate w h) outs ->
     forall l', map fst l' = outs -> Forall (fun f => raster_for w h (snd f)) l' ->
     run_frames d (map as_chunk l') = (d2, snd (run_frames d (map as_chunk l))) /\
     dc_state d2 = dc_state (fst (run_frames d (map as_chunk l))) /\
     let r := last_picture (snd (run_frames d (map as_chunk l))) (rf_last (dc_refs d)) in dc_refs d2 = mkRefs r r r).
Proof.
  intros w h d l Hw Hh G HC F NE D. revert d G HC D. induction l as [|[b scratch] l IH]; [contradiction|]. intros d G HC D.
  inversion F as [|? ? [B [L R]] F']; subst. cbn [fst snd] in *. cbn [map] in D |- *. change (as_chunk (b, scratch)) with (chunk_of b, scratch) in D |- *. rewrite run_cons in D |- *. cbn [fst snd] in D |- *.
  destruct (get_frame_output d (chunk_of b) scratch) as [d1 o] eqn:E1. destruct (run_frames d1 (map as_chunk l)) as [dn os] eqn:ER.
  cbn [snd forallb] in D. apply andb_prop in D. destruct D as [D1 D2]. destruct o as [shown r|]; [|discriminate].
  destruct (chunk_of_ok b B L) as [CO CB]. destruct (step_good w h d (chunk_of b) Hw Hh G CO CB) as (d1' & o' & G1 & EC & OG & ST).
  pose proof (ST scratch R) as E1'. rewrite E1 in E1'. injection E1' as <- <-. rewrite HC in EC.
  set (lst := match l with [] => true | _ => false end).
  destruct (frame_again w h d b scratch d1 shown r Hw Hh G HC E1 lst) as (out & d2 & S1 & S2 & S3 & T & BO & LB & AG).
  assert (forall scratch', raster_for w h scratch' -> moderate w h out -> get_frame_output d (chunk_of out) scratch' = (d2, Output shown r)) as AG'.
  { intros sc R' LO. destruct (AG LO) as [A _]. destruct (chunk_of_ok out BO LB) as [CO' CB'].
    destruct (step_good w h d (chunk_of out) Hw Hh G CO' CB') as (dx & ox & _ & _ & _ & S). rewrite (S sc R'). rewrite (S scratch R) in A. exact A. }
  cbn [terminate]. fold lst. rewrite T. cbn [rbind]. destruct l as [|f l].
  - cbn [lst] in *. cbn [map run_frames] in ER. injection ER as <- <-. cbn [terminate rbind]. exists [out], d2. split; [reflexivity|]. split; [exact S2|]. split; [reflexivity|]. split; [constructor; [exact BO|constructor]|]. split; [constructor; [exact LB|constructor]|].
    intros SZ l' EL FL. destruct l' as [|[b' sc'] [|? ?]]; try discriminate. cbn [map fst] in EL. injection EL as ->.
    inversion FL as [|? ? R' _]; subst. inversion SZ as [|? ? LO _]; subst. cbn [snd] in R'.
    cbn [map]. change (as_chunk (out, sc')) with (chunk_of out, sc'). rewrite run_cons. cbn [fst snd run_frames]. rewrite (AG' sc' R' LO). cbn [snd fst]. split; [reflexivity|]. split; [exact S1|]. exact S3.
  - assert (d2 = d1) as ->.
    { destruct d1, d2. cbn in *. congruence. }
    destruct (IH F' ltac:(discriminate) d1 G1 EC) as (outs & dz & T1 & T0 & T2 & T3 & T5 & T4); [rewrite ER; exact D2|].
    rewrite T1. cbn [rbind]. exists (out :: outs), dz. split; [reflexivity|]. split; [exact T0|]. split; [cbn; rewrite T2; reflexivity|]. split; [constructor; assumption|]. split; [constructor; assumption|].
    intros SZ l' EL FL. destruct l' as [|[b' sc'] l']; [discriminate|]. cbn [map fst] in EL. injection EL as -> EL.
    inversion FL as [|? ? R' FL']; subst. inversion SZ as [|? ? LO SZ']; subst. cbn [snd] in R'.
    destruct (T4 SZ' l' eq_refl FL') as (P1 & P2 & P3). rewrite ER in P1, P2, P3. cbn [fst snd] in P1, P2, P3.
    cbn [map]. change (as_chunk (out, sc')) with (chunk_of out, sc'). rewrite run_cons. cbn [fst snd]. rewrite (AG' sc' R' LO), P1. cbn [snd fst]. split; [reflexivity|]. split; [exact P2|].
    cbv zeta in P3 |- *. rewrite P3.
    assert (os <> []) as NO.
    { change os with (snd (dn, os)). rewrite <- ER. apply run_nonempty. discriminate. }
    rewrite (last_picture_cons _ _ _ (rf_last (dc_refs d1)) (rf_last (dc_refs d)) NO D2). reflexivity.
Qed.

(** So another process can take over from there. *)
Theorem C27_terminated_video :
  forall w h d l pool, 0 < w <= 16383 -> 0 < h <= 16383 -> decoder_good w h d -> dc_conceal d = false ->
  Forall (frame_input w h) l -> l <> [] -> forallb decoded (snd (run_frames d (map as_chunk l))) = true -> pool_has w h pool ->
  forall outs d2, terminate d l = Ok (outs, d2) -> Forall (moderate w h) outs ->
  forall l', map fst l' = outs -> Forall (fun f => raster_for w h (snd f)) l' ->
  fst (run_frames d (map as_chunk l')) = d2 /\ import pool (export d2) = Ok d2.
Proof.
  intros w h d l pool Hw Hh G HC F NE D P outs d2 T SZ l' EL FL.
  destruct (C59_terminated_video w h d l Hw Hh G HC F NE D) as (outs' & d2' & T' & CC & LN & BO & LB & K). rewrite T in T'. injection T' as <- <-.
  destruct (K SZ l' EL FL) as (K1 & K2 & K3). cbv zeta in K3. rewrite K1. split; [reflexivity|].
  assert (Forall (frame_input w h) l') as F'.
  { apply Forall_forall. intros f Hf. assert (In (fst f) outs) as Hb by (rewrite <- EL; apply in_map; exact Hf).
    split; [exact (proj1 (Forall_forall _ _) BO _ Hb)|]. split; [|exact (proj1 (Forall_forall _ _) FL _ Hf)].
    pose proof (proj1 (Forall_forall _ _) LB _ Hb) as X. cbv beta in X. lia. }
  pose proof (C57_decoder_never_aborts w h d l' Hw Hh G F') as A. rewrite K1 in A. destruct A as (_ & _ & _ & A1).
  apply (C26_lossless_iff w h d2 pool Hw Hh A1 P). rewrite K3. cbn [rf_last rf_golden rf_alt]. split; [reflexivity|]. split; [reflexivity|]. exact CC.
Qed.

(** ** Example: a key frame and an inter frame; the last and the golden picture
    differ before and agree after the rewriting. *)
Definition video : list (list Z * raster) := [(key_bytes, shaded 5); (inter_bytes, shaded 6)].
Definition same_refs (d : decoder) : bool :=
  forallb (fun '(x, y) => x =? y) (combine (pl_px (ra_y (rf_last (dc_refs d)))) (pl_px (ra_y (rf_golden (dc_refs d))))).
Example C59_example :
  decoder_good 20 10 decoder_two /\ Forall (frame_input 20 10) video /\ forallb decoded (snd (run_frames decoder_two (map as_chunk video))) = true /\
  same_refs (fst (run_frames decoder_two (map as_chunk video))) = false /\
  match terminate decoder_two video with Ok (outs, d) => (map (fun b => zlen b <? 2 ^ 19) outs, same_refs d) | Err _ => ([], false) end = ([true; true], true).
Proof.
  split; [exact decoder_two_good|]. split; [constructor; [apply bytes_input; reflexivity|constructor; [apply bytes_input; reflexivity|constructor]]|].
  split; [vm_compute; reflexivity|]. split; [vm_compute; reflexivity|]. vm_compute. reflexivity.
Qed.

Print Assumptions C59_terminated_video.
Print Assumptions C27_terminated_video.
