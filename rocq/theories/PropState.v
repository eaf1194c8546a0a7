(** Properties C23, C24, C25, C35, C50, C57, C58: what a frame does to the
    decoder. *)
From Verif Require Import Base BoolCoderModel BoolEncProofs ParserModel Tables TreeModel HeaderModel HeaderProofs MVModel MBModel MBProofs MBDecoded.
From Verif Require Import ChunkModel ContainerModel ChunkProofs PropChunk ContainerProofs PropContainer FrameModel FrameProofs PropMacroblocks PropFrame.
From Verif Require Import QuantModel RasterModel TransformModel RasterProofs PredictModel LoopFilterModel PropLoopFilter ReconModel ReconProofs PropPicture.
From Verif Require Import StateModel StateProofs.

(** What the parser reads from a chunk: its header. *)
Definition inter_header (u : uchunk) : InterFrameHeader := fst (inter_frame_header_decode (first_decoder u)).
Definition key_header (u : uchunk) : KeyFrameHeader := fst (key_frame_header_decode (first_decoder u)).

(** ** C57: the decoder survives every input *)

Definition frame_input (w h : Z) (f : list Z * raster) : Prop := bytes_ok (fst f) /\ zlen (fst f) < 2 ^ 64 /\ raster_for w h (snd f).
Definition as_chunk (f : list Z * raster) : chunk * raster := (chunk_of (fst f), snd f).

Lemma chunk_of_ok l : bytes_ok l -> zlen l < 2 ^ 64 -> chunk_ok (chunk_of l) /\ bytes_ok (cbytes (chunk_of l)).
Proof.
  intros B L. pose proof (zlen_nonneg l). split.
  - unfold chunk_ok, chunk_of; cbn. lia.
  - rewrite cbytes_of. exact B.
Qed.

Lemma run_good w h : 0 < w <= 16383 -> 0 < h <= 16383 -> forall l d, decoder_good w h d -> Forall (frame_input w h) l ->
  decoder_good w h (fst (run_frames d (map as_chunk l))) /\ Forall (outcome_good w h) (snd (run_frames d (map as_chunk l))) /\
  length (snd (run_frames d (map as_chunk l))) = length l /\ dc_conceal (fst (run_frames d (map as_chunk l))) = dc_conceal d.
Proof.
  intros Hw Hh. induction l as [|f l IH]; intros d G F; cbn [map run_frames].
  - split; [exact G|]. split; [constructor|]. split; reflexivity.
  - inversion F as [|? ? (B & L & R) F']; subst. destruct (chunk_of_ok (fst f) B L) as [CO CB].
    destruct (step_good w h d (chunk_of (fst f)) Hw Hh G CO CB) as (d' & o & G' & EC & OG & E).
    cbn [as_chunk]. change (as_chunk f) with (chunk_of (fst f), snd f). cbn iota. rewrite (E (snd f) R).
    destruct (IH d' G' F') as (A1 & A2 & A3 & A4). destruct (run_frames d' (map as_chunk l)) as [d'' os]. cbn [fst snd] in *.
    split; [exact A1|]. split; [constructor; assumption|]. split; [cbn; congruence|congruence].
Qed.

(** For every sequence of byte strings, a decoder never fails an assertion and
    never leaves the bounds of its buffers: each frame gives a picture or one
    of the exceptions Invalid, Unsupported and out_of_range, after which the
    decoder can go on. *)
Theorem C57_decoder_never_aborts :
  forall w h d l, 0 < w <= 16383 -> 0 < h <= 16383 -> decoder_good w h d -> Forall (frame_input w h) l ->
  let '(d', os) := run_frames d (map as_chunk l) in
  length os = length l /\ ~ In (Raised FAbort) os /\
  (forall shown r, In (Output shown r) os -> raster_for w h r) /\ decoder_good w h d'.
Proof.
  intros w h d l Hw Hh G F. destruct (run_good w h Hw Hh l d G F) as (A & B & C & _).
  destruct (run_frames d (map as_chunk l)) as [d' os]. cbn [fst snd] in *.
  split; [exact C|]. split.
  - intros I. pose proof (proj1 (Forall_forall _ _) B _ I) as K. cbn in K. congruence.
  - split; [|exact A]. intros shown r I. exact (proj1 (Forall_forall _ _) B _ I).
Qed.

Theorem C57_new_decoder : forall w h r, 0 < w <= 16383 -> 0 < h <= 16383 -> raster_for w h r -> decoder_good w h (new_decoder w h r).
Proof.
  intros w h r Hw Hh R. constructor; cbn; auto. constructor; cbn; auto; try (intros ? ?; discriminate). apply default_pt_good.
Qed.

(** The pictures and the final decoder do not depend on what the recycled
    picture buffers held. *)
Theorem C57_buffers_do_not_matter :
  forall w h d l l', 0 < w <= 16383 -> 0 < h <= 16383 -> decoder_good w h d ->
  Forall (frame_input w h) l -> Forall (frame_input w h) l' -> map fst l = map fst l' ->
  run_frames d (map as_chunk l) = run_frames d (map as_chunk l').
Proof.
  intros w h d l l' Hw Hh G F. revert l' d G. induction F as [|f l (B & L & R) F IH]; intros [|f' l'] d G F' E; try discriminate; [reflexivity|].
  cbn [map] in E. injection E as E1 E2. inversion F' as [|? ? (B' & L' & R') F'']; subst.
  destruct (chunk_of_ok (fst f) B L) as [CO CB].
  destruct (step_good w h d (chunk_of (fst f)) Hw Hh G CO CB) as (d' & o & G' & _ & _ & E).
  cbn [map run_frames]. unfold as_chunk at 1 3. rewrite <- E1. rewrite (E (snd f) R), (E (snd f') R'). rewrite (IH l' d' G' F'' E2). reflexivity.
Qed.

(** ** C24: key frames erase history *)

Lemma key_step w h d1 d2 c u s1 s2 d1' shown r : 0 < w <= 16383 -> 0 < h <= 16383 ->
  decoder_good w h d1 -> decoder_good w h d2 -> dc_conceal d1 = dc_conceal d2 -> chunk_ok c -> bytes_ok (cbytes c) ->
  raster_for w h s1 -> raster_for w h s2 ->
  uncompressed_chunk c w h (dc_conceal d1) = Ok u -> uc_key u = true ->
  get_frame_output d1 c s1 = (d1', Output shown r) -> get_frame_output d2 c s2 = (d1', Output shown r).
Proof.
  intros Hw Hh G1 G2 EC CO CB R1 R2 EU K E1.
  assert (get_frame_output d2 c s1 = (d1', Output shown r)) as E.
  { unfold get_frame_output in *.
    rewrite (stg_w _ _ _ (dcg_s _ _ _ G1)), (stg_h _ _ _ (dcg_s _ _ _ G1)) in E1.
    rewrite (stg_w _ _ _ (dcg_s _ _ _ G2)), (stg_h _ _ _ (dcg_s _ _ _ G2)), <- EC.
    rewrite EU, K in E1. rewrite EU, K.
    destruct (parse_key_forget (dc_state d1) (dc_state d2) u K) as [P1 P2].
    { rewrite (stg_w _ _ _ (dcg_s _ _ _ G1)), (stg_w _ _ _ (dcg_s _ _ _ G2)). reflexivity. }
    { rewrite (stg_h _ _ _ (dcg_s _ _ _ G1)), (stg_h _ _ _ (dcg_s _ _ _ G2)). reflexivity. }
    destruct (parse_key (dc_state d1) u) as [s' rr]. destruct (parse_key (dc_state d2) u) as [s'' rr'].
    cbn [fst snd] in P1, P2. subst rr'. destruct rr as [[[[hd ms] cs] ids]|e]; [|discriminate].
    rewrite <- (P2 _ eq_refl). unfold show_picture in *.
    rewrite (key_picture_refs _ _ (dc_refs d2) (dc_refs d1)) by reflexivity.
    destruct (picture_output _ _ _ _ _) as [[r'|]|]; try discriminate. unfold key_copy_to in *. rewrite <- EC. exact E1. }
  destruct (step_good w h d2 c Hw Hh G2 CO CB) as (d' & o & _ & _ & _ & S).
  rewrite (S s1 R1) in E. rewrite (S s2 R2). exact E.
Qed.

(** Two decoders of the same size with arbitrary pasts (references, tables,
    segmentation, filter deltas) that are given the same key frame and then
    the same frames produce the same outcomes and end up equal. *)
Theorem C24_key_frame_erases_history :
  forall w h d1 d2 k u s1 s2 d1' shown r rest rest',
  0 < w <= 16383 -> 0 < h <= 16383 -> decoder_good w h d1 -> decoder_good w h d2 -> dc_conceal d1 = dc_conceal d2 ->
  frame_input w h (k, s1) -> frame_input w h (k, s2) ->
  uncompressed_chunk (chunk_of k) w h (dc_conceal d1) = Ok u -> uc_key u = true ->
  get_frame_output d1 (chunk_of k) s1 = (d1', Output shown r) ->
  Forall (frame_input w h) rest -> Forall (frame_input w h) rest' -> map fst rest = map fst rest' ->
  run_frames d1 (map as_chunk ((k, s1) :: rest)) = run_frames d2 (map as_chunk ((k, s2) :: rest')).
Proof.
  intros w h d1 d2 k u s1 s2 d1' shown r rest rest' Hw Hh G1 G2 EC (B & L & R1) (_ & _ & R2) EU K E F F' ER. cbn [fst snd] in *.
  destruct (chunk_of_ok k B L) as [CO CB].
  pose proof (key_step w h d1 d2 (chunk_of k) u s1 s2 d1' shown r Hw Hh G1 G2 EC CO CB R1 R2 EU K E) as E2.
  cbn [map run_frames]. unfold as_chunk at 1 3. cbn [fst snd]. rewrite E, E2.
  destruct (step_good w h d1 (chunk_of k) Hw Hh G1 CO CB) as (d' & o & G' & _ & _ & S). rewrite (S s1 R1) in E. injection E as -> _.
  rewrite (C57_buffers_do_not_matter w h d1' rest rest' Hw Hh G' F F' ER). reflexivity.
Qed.

(** ** C23: references *)

Definition copied (flag : option Z) (one two unchanged : raster) : raster :=
  match flag with
  | Some v => if v =? 1 then one else if v =? 2 then two else unchanged
  | None => unchanged
  end.

Lemma inter_copy_cases hd r refs :
  let alt1 := copied (if_copy_to_alternate hd) (rf_last refs) (rf_golden refs) (rf_alt refs) in
  inter_copy_to hd r refs =
  mkRefs (if if_refresh_last hd then r else rf_last refs)
         (if if_refresh_golden hd then r else copied (if_copy_to_golden hd) (rf_last refs) alt1 (rf_golden refs))
         (if if_refresh_alternate hd then r else alt1).
Proof.
  cbv zeta. unfold inter_copy_to, copied. destruct refs as [l g a].
  assert (forall (o : option Z) (x y z : references),
    match o with Some 1 => x | Some 2 => y | _ => z end =
    match o with Some v => if v =? 1 then x else if v =? 2 then y else z | None => z end) as M.
  { intros [[|[p|[p|p|]|]|p]|] x y z; try reflexivity; destruct p; reflexivity. }
  rewrite !M. clear M.
  destruct (if_copy_to_alternate hd) as [v|]; [destruct (v =? 1); [|destruct (v =? 2)]|];
  (destruct (if_copy_to_golden hd) as [v'|]; [destruct (v' =? 1); [|destruct (v' =? 2)]|]);
  destruct (if_refresh_golden hd), (if_refresh_alternate hd), (if_refresh_last hd); reflexivity.
Qed.

(** After an inter frame with header hd and picture r. The golden copy sees
    the alternate picture after the alternate copy. *)
Theorem C23_references_after_inter_frame :
  forall d c u scratch d' shown r,
  uncompressed_chunk c (ds_w (dc_state d)) (ds_h (dc_state d)) (dc_conceal d) = Ok u -> uc_key u = false ->
  get_frame_output d c scratch = (d', Output shown r) ->
  let hd := inter_header u in let old := dc_refs d in let new := dc_refs d' in
  rf_last new = (if if_refresh_last hd then r else rf_last old) /\
  rf_alt new = (if if_refresh_alternate hd then r else copied (if_copy_to_alternate hd) (rf_last old) (rf_golden old) (rf_alt old)) /\
  rf_golden new = (if if_refresh_golden hd then r
                   else copied (if_copy_to_golden hd) (rf_last old)
                               (copied (if_copy_to_alternate hd) (rf_last old) (rf_golden old) (rf_alt old)) (rf_golden old)).
Proof.
  intros d c u scratch d' shown r EU K E. cbv zeta. unfold get_frame_output in E. rewrite EU, K in E.
  destruct (negb (uc_experimental u)); [|discriminate].
  assert (forall s' hd ms cs ids, parse_inter (dc_state d) u = (s', Ok (hd, ms, cs, ids)) -> hd = inter_header u) as H.
  { intros s' hd ms cs ids P. unfold parse_inter in P. rewrite K in P. unfold inter_header.
    destruct (inter_frame_header_decode (first_decoder u)) as [hd' dd]. cbn [fst].
    destruct (negb _); [discriminate|]. destruct (if_macroblocks_decode _ _ _ _ _). destruct (update_map _ _ _) as [[? ?]|]; [|discriminate].
    destruct (frame_tokens _ _ _ _ _); [|discriminate]. congruence. }
  destruct (parse_inter (dc_state d) u) as [s' [[[[hd ms] cs] ids]|e]]; [|discriminate].
  rewrite <- (H _ _ _ _ _ eq_refl). unfold show_picture in E.
  destruct (picture_output _ _ _ _ _) as [[r'|]|]; try discriminate. injection E as <- _ ->. cbn [dc_refs].
  rewrite inter_copy_cases. cbn [rf_last rf_golden rf_alt]. auto.
Qed.

Theorem C23_references_after_key_frame :
  forall d c u scratch d' shown r,
  uncompressed_chunk c (ds_w (dc_state d)) (ds_h (dc_state d)) (dc_conceal d) = Ok u -> uc_key u = true ->
  get_frame_output d c scratch = (d', Output shown r) -> dc_refs d' = mkRefs r r r.
Proof.
  intros d c u scratch d' shown r EU K E. unfold get_frame_output in E. rewrite EU, K in E.
  destruct (parse_key (dc_state d) u) as [s' [[[[hd ms] cs] ids]|e]]; [|discriminate]. unfold show_picture in E.
  destruct (picture_output _ _ _ _ _) as [[r'|]|]; try discriminate. injection E as <- _ ->. reflexivity.
Qed.

(** A frame that throws leaves the references alone. *)
Theorem C23_references_after_exception :
  forall d c scratch d' e, get_frame_output d c scratch = (d', Raised e) -> dc_refs d' = dc_refs d.
Proof.
  intros d c scratch d' e E. unfold get_frame_output in E.
  destruct (uncompressed_chunk _ _ _ _) as [u|]; [|injection E as <- _; reflexivity].
  destruct (uc_key u); [|destruct (negb (uc_experimental u)); [|injection E as <- _; reflexivity]].
  - destruct (parse_key _ _) as [s' [[[[hd ms] cs] ids]|e']]; [|injection E as <- _; reflexivity]. unfold show_picture in E.
    destruct (picture_output _ _ _ _ _) as [[r'|]|]; try discriminate; injection E as <- _; reflexivity.
  - destruct (parse_inter _ _) as [s' [[[[hd ms] cs] ids]|e']]; [|injection E as <- _; reflexivity]. unfold show_picture in E.
    destruct (picture_output _ _ _ _ _) as [[r'|]|]; try discriminate; injection E as <- _; reflexivity.
Qed.

(** Both copies read the references as they were before the frame: false, as
    exchanging golden and alternate leaves the golden picture as it was. *)
Theorem C23_simultaneous_copies_refuted :
  exists hd r old, if_copy_to_golden hd = Some 2 /\ if_copy_to_alternate hd = Some 2 /\
  if_refresh_golden hd = false /\ if_refresh_alternate hd = false /\ ifh_ok hd /\
  rf_golden (inter_copy_to hd r old) <> rf_alt old.
Proof.
  exists (mkIFH None false 0 0 None 0 (mkQI 0 None None None None None) false false (Some 2) (Some 2)
        true false false true (repeat None 1056) None 120 100 128 None None (repeat None 38)).
  exists (mkRaster 0 0 (grey 1 1) (grey 1 1) (grey 1 1)).
  exists (mkRefs (mkRaster 1 0 (grey 1 1) (grey 1 1) (grey 1 1)) (mkRaster 2 0 (grey 1 1) (grey 1 1) (grey 1 1)) (mkRaster 3 0 (grey 1 1) (grey 1 1) (grey 1 1))).
  do 4 (split; [reflexivity|]). split; [|discriminate].
  constructor; cbn -[Z.pow repeat]; unfold o_ok, u_ok; try lia;
    try (intros a E; discriminate); try (split; congruence); try reflexivity;
    try (apply repeat_none_ok); try (intros a E; injection E as <-; lia).
  constructor; cbn -[Z.pow]; unfold o_ok, u_ok; try lia; intros a E; discriminate.
Qed.

(** ** C25 and C50: probabilities *)

(** Entry k of a table after a header. *)
Definition updated_entry (f : Z -> Z) (old : list Z) (ups : list (option Z)) (k : nat) : option Z :=
  match nth_error old k with
  | None => None
  | Some p => Some (match nth_error ups k with Some (Some x) => f x | _ => p end)
  end.

Lemma apply_updates_entry f : forall tbl ups k, nth_error (apply_updates f tbl ups) k = updated_entry f tbl ups k.
Proof.
  induction tbl as [|p tbl IH]; intros [|o ups] k; unfold updated_entry; cbn [apply_updates].
  - destruct k; reflexivity.
  - destruct k; reflexivity.
  - destruct k; cbn; [reflexivity|]. destruct (nth_error tbl k); reflexivity.
  - destruct k; cbn [nth_error]; [reflexivity|]. apply IH.
Qed.

(** The tables a header makes out of others. *)
Record tables_after (old new : ProbabilityTables) (coeff mv : list (option Z)) (y uv : option (list Z)) : Prop := {
  ta_coeff : forall k, nth_error (pt_coeff new) k = updated_entry (fun x => x) (pt_coeff old) coeff k;
  ta_mv : forall k, nth_error (pt_mv new) k = updated_entry (fun x => if x =? 0 then 1 else 2 * x) (pt_mv old) mv k;
  ta_y : pt_y_mode new = match y with Some l => l | None => pt_y_mode old end;
  ta_uv : pt_uv_mode new = match uv with Some l => l | None => pt_uv_mode old end
}.

Lemma nth_error_ext {A} : forall l l' : list A, (forall k, nth_error l k = nth_error l' k) -> l = l'.
Proof.
  induction l as [|a l IH]; intros [|b l'] H; [reflexivity| | |].
  - specialize (H 0%nat). discriminate.
  - specialize (H 0%nat). discriminate.
  - pose proof (H 0%nat) as H0. cbn in H0. f_equal; [congruence|]. apply IH. intros k. exact (H (S k)).
Qed.

Lemma read_half_small x : u_ok 7 x -> read_half_prob x = if x =? 0 then 1 else 2 * x.
Proof.
  unfold u_ok, read_half_prob. change (2 ^ 7) with 128. intros H. destruct (x =? 0); [reflexivity|].
  rewrite Z.shiftl_mul_pow2 by lia. change (2 ^ 1) with 2. unfold wrap. rewrite Z.mod_small by lia. lia.
Qed.

Lemma pt_update_tables pt hd : ifh_ok hd ->
  tables_after pt (pt_update pt hd) (if_token_prob_update hd) (if_mv_prob_update hd) (if_intra_16x16_prob hd) (if_intra_chroma_prob hd).
Proof.
  intros K. constructor; cbn [pt_update pt_coeff pt_mv pt_y_mode pt_uv_mode]; try reflexivity.
  - intros k. apply apply_updates_entry.
  - intros k. rewrite apply_updates_entry. unfold updated_entry. destruct (nth_error (pt_mv pt) k); [|reflexivity].
    destruct (nth_error (if_mv_prob_update hd) k) as [[x|]|] eqn:E; try reflexivity. f_equal. apply read_half_small.
    apply nth_error_In in E. exact (proj1 (Forall_forall _ _) (ifo_m hd K) _ E x eq_refl).
Qed.
Lemma coeff_update_tables pt ups : tables_after pt (coeff_prob_update pt ups) ups [] None None.
Proof.
  constructor; cbn [coeff_prob_update pt_coeff pt_mv pt_y_mode pt_uv_mode]; try reflexivity.
  - intros k. apply apply_updates_entry.
  - intros k. unfold updated_entry. destruct (nth_error (pt_mv pt) k) eqn:E; [|reflexivity]. destruct k; reflexivity.
Qed.

(** An inter frame keeps its tables exactly when its header asks for it,
    whether or not the rest of the frame can be parsed; macroblock headers and
    coefficients are read with the updated tables either way. *)
Theorem C25_inter_frame_tables :
  forall s u, uc_key u = false -> inter_frame_header_supported (inter_header u) = true ->
  let hd := inter_header u in let '(s', r) := parse_inter s u in
  exists frame_tables,
    tables_after (ds_pt s) frame_tables (if_token_prob_update hd) (if_mv_prob_update hd) (if_intra_16x16_prob hd) (if_intra_chroma_prob hd) /\
    ds_pt s' = (if if_refresh_entropy_probs hd then frame_tables else ds_pt s) /\
    forall hd' ms cs ids, r = Ok (hd', ms, cs, ids) ->
      hd' = hd /\
      ms = fst (if_macroblocks_decode hd frame_tables (mb_dim (ds_w s)) (mb_dim (ds_h s)) (snd (inter_frame_header_decode (first_decoder u)))) /\
      frame_tokens (pt_coeff frame_tables) (mb_dim (ds_w s)) (partition_count (if_log2_partitions hd)) u ms = Ok cs.
Proof.
  intros s u K SU. cbv zeta. unfold parse_inter, inter_header in *. rewrite K.
  pose proof (yields_ifh (first_decoder u)) as Y1.
  destruct (inter_frame_header_decode (first_decoder u)) as [hd d]. cbn [fst snd] in *. rewrite SU. cbn [negb].
  pose proof (pt_update_tables (ds_pt s) hd Y1) as T. set (pt := pt_update (ds_pt s) hd) in *.
  destruct (if_macroblocks_decode hd pt (mb_dim (ds_w s)) (mb_dim (ds_h s)) d) as [ms d2] eqn:EM.
  set (s1 := if if_refresh_entropy_probs hd then set_tables s pt else s).
  assert (ds_pt s1 = if if_refresh_entropy_probs hd then pt else ds_pt s) as E1 by (unfold s1; destruct (if_refresh_entropy_probs hd); reflexivity).
  destruct (update_map _ _ _) as [[seg ids]|].
  - destruct (frame_tokens (pt_coeff pt) _ _ u ms) as [cs|e] eqn:ET; exists pt; (split; [exact T|]); (split; [exact E1|]).
    + intros hd' ms' cs' ids' Q. injection Q as <- <- <- <-. rewrite EM. auto.
    + discriminate.
  - exists pt. split; [exact T|]. split; [exact E1|]. discriminate.
Qed.

(** A key frame starts from the default tables. *)
Theorem C25_key_frame_tables :
  forall s u, uc_key u = true -> uc_experimental u = false -> key_frame_header_supported (key_header u) = true ->
  let hd := key_header u in let '(s', r) := parse_key s u in
  exists frame_tables,
    tables_after default_pt frame_tables (kf_token_prob_update hd) [] None None /\
    ds_pt s' = (if kf_refresh_entropy_probs hd then frame_tables else default_pt) /\
    forall hd' ms cs ids, r = Ok (hd', ms, cs, ids) ->
      hd' = hd /\
      ms = fst (kf_macroblocks_decode hd (mb_dim (ds_w s)) (mb_dim (ds_h s)) (snd (key_frame_header_decode (first_decoder u)))) /\
      frame_tokens (pt_coeff frame_tables) (mb_dim (ds_w s)) (partition_count (kf_log2_partitions hd)) u ms = Ok cs.
Proof.
  intros s u K X SU. cbv zeta. unfold parse_key, key_header in *. rewrite K, X. cbn [negb].
  destruct (key_frame_header_decode (first_decoder u)) as [hd d]. cbn [fst snd] in *. rewrite SU. cbn [negb].
  change (ds_pt (key_state (ds_w s) (ds_h s) hd)) with default_pt.
  pose proof (coeff_update_tables default_pt (kf_token_prob_update hd)) as T. set (pt := coeff_prob_update default_pt (kf_token_prob_update hd)) in *.
  destruct (kf_macroblocks_decode hd (mb_dim (ds_w s)) (mb_dim (ds_h s)) d) as [ms d2] eqn:EM.
  set (s1 := if kf_refresh_entropy_probs hd then set_tables (key_state (ds_w s) (ds_h s) hd) pt else key_state (ds_w s) (ds_h s) hd).
  assert (ds_pt s1 = if kf_refresh_entropy_probs hd then pt else default_pt) as E1 by (unfold s1; destruct (kf_refresh_entropy_probs hd); reflexivity).
  destruct (update_map _ _ _) as [[seg ids]|].
  - destruct (frame_tokens (pt_coeff pt) _ _ u ms) as [cs|e] eqn:ET; exists pt; (split; [exact T|]); (split; [exact E1|]).
    + intros hd' ms' cs' ids' Q. injection Q as <- <- <- <-. rewrite ?EM. cbn [fst]. auto.
    + discriminate.
  - exists pt. split; [exact T|]. split; [exact E1|]. discriminate.
Qed.

Lemma apply_updates_twice f tbl ups : apply_updates f (apply_updates f tbl ups) ups = apply_updates f tbl ups.
Proof.
  apply nth_error_ext. intros k. rewrite !apply_updates_entry. unfold updated_entry at 1. rewrite apply_updates_entry.
  unfold updated_entry. destruct (nth_error tbl k); [|reflexivity]. destruct (nth_error ups k) as [[x|]|]; reflexivity.
Qed.

(** C50. Applying a header's updates again changes nothing, and an entry
    changes only if the header has a value for it. *)
Theorem C50_update_idempotent :
  forall pt hd ups,
  pt_update (pt_update pt hd) hd = pt_update pt hd /\
  coeff_prob_update (coeff_prob_update pt ups) ups = coeff_prob_update pt ups.
Proof.
  intros pt hd ups. split.
  - unfold pt_update. cbn [pt_coeff pt_mv pt_y_mode pt_uv_mode]. rewrite !apply_updates_twice.
    destruct (if_intra_16x16_prob hd), (if_intra_chroma_prob hd); reflexivity.
  - unfold coeff_prob_update. cbn [pt_coeff pt_mv pt_y_mode pt_uv_mode]. rewrite apply_updates_twice. reflexivity.
Qed.
Theorem C50_update_entries :
  forall pt hd, ifh_ok hd ->
  tables_after pt (pt_update pt hd) (if_token_prob_update hd) (if_mv_prob_update hd) (if_intra_16x16_prob hd) (if_intra_chroma_prob hd) /\
  tables_after pt (coeff_prob_update pt (if_token_prob_update hd)) (if_token_prob_update hd) [] None None.
Proof. intros pt hd K. split; [apply pt_update_tables, K|apply coeff_update_tables]. Qed.

(** So an encoder may write a frame with tables it has already updated. *)
Theorem C50_serialise_with_updated_tables :
  forall pt show w h khd ihd ms cs,
  key_frame_serialize (coeff_prob_update pt (kf_token_prob_update khd)) show w h khd ms cs = key_frame_serialize pt show w h khd ms cs /\
  inter_frame_serialize (pt_update pt ihd) show w h ihd ms cs = inter_frame_serialize pt show w h ihd ms cs.
Proof.
  intros pt show w h khd ihd ms cs. destruct (C50_update_idempotent pt ihd (kf_token_prob_update khd)) as [A B]. split.
  - unfold key_frame_serialize. rewrite B. reflexivity.
  - unfold inter_frame_serialize. rewrite A. reflexivity.
Qed.

(** ** C35: loop filter deltas *)

(** A header with deltas: those it does not mention become 0. *)
Theorem C35_deltas_after_inter_frame :
  forall s u s' hd ms cs ids, parse_inter s u = (s', Ok (hd, ms, cs, ids)) ->
  match if_mode_lf_adjustments hd with
  | None => ds_fa s' = None
  | Some None => ds_fa s' = Some (match ds_fa s with Some a => a | None => mkFA [0; 0; 0; 0] [0; 0; 0; 0] end)
  | Some (Some upd) =>
      exists a, ds_fa s' = Some a /\ length (fa_ref a) = 4%nat /\ length (fa_mode a) = 4%nat /\
      forall i, (i < 4)%nat ->
        nth i (fa_ref a) 0 = match nth i (ref_update upd) None with Some v => v | None => 0 end /\
        nth i (fa_mode a) 0 = match nth i (mode_update upd) None with Some v => v | None => 0 end
  end.
Proof.
  intros s u s' hd ms cs ids P. unfold parse_inter in P. destruct (uc_key u); [discriminate|].
  pose proof (yields_ifh (first_decoder u)) as Y1.
  destruct (inter_frame_header_decode (first_decoder u)) as [hd' d]. cbn [fst] in Y1.
  destruct (negb _); [discriminate|]. destruct (if_macroblocks_decode _ _ _ _ _) as [ms' d2].
  destruct (update_map _ _ _) as [[seg ids']|]; [|discriminate]. destruct (frame_tokens _ _ _ _ _); [|discriminate].
  injection P as <- <- <- <- <-. cbn [set_seg set_fa ds_fa].
  replace (ds_fa (if if_refresh_entropy_probs hd' then set_tables s (pt_update (ds_pt s) hd') else s)) with (ds_fa s)
    by (destruct (if_refresh_entropy_probs hd'); reflexivity).
  unfold inter_fa. destruct (if_mode_lf_adjustments hd') as [[upd|]|] eqn:EL; [| |reflexivity].
  - exists (mkFA (map (get_or 0) (ref_update upd)) (map (get_or 0) (mode_update upd))).
    destruct (ifo_lf hd' Y1 _ EL upd eq_refl) as [L1 L2 _ _].
    split; [destruct (ds_fa s); reflexivity|]. cbn [fa_ref fa_mode]. rewrite !map_length. split; [exact L1|]. split; [exact L2|].
    intros i _. split; [exact (map_nth (get_or 0) (ref_update upd) None i)|exact (map_nth (get_or 0) (mode_update upd) None i)].
  - destruct (ds_fa s); reflexivity.
Qed.

(** C35 as stated is false of the code: an update that leaves a delta out
    resets it. *)
Theorem C35_deltas_persist_refuted :
  exists old upd new, fa_update old (Some (Some upd)) = Some new /\ lfd_ok upd /\ fa_good old /\
  nth 0 (ref_update upd) None = None /\ nth 0 (fa_ref new) 0 <> nth 0 (fa_ref old) 0.
Proof.
  exists (mkFA [2; 0; -2; -2] [4; -2; 2; 4]), (mkLFD [None; Some 1; None; None] [None; None; None; None]),
         (mkFA [0; 1; 0; 0] [0; 0; 0; 0]).
  split; [reflexivity|]. split; [|split; [|split; [reflexivity|discriminate]]].
  - constructor; cbn; auto; repeat constructor; intros a E; try discriminate. injection E as <-. unfold s_ok. cbn. lia.
  - constructor; cbn; auto; repeat constructor; unfold int8; lia.
Qed.

(** ** C58: segment ids *)

Lemma seg_good_map w h s : seg_good w h s -> map_good w h (sg_map s).
Proof. intros [_ _ _ _ A B C D]. split; [exact A|]. split; [exact B|]. split; [exact C|exact D]. Qed.

Lemma position_inj W i j : (0 < W)%nat -> column_of W i = column_of W j -> row_of W i = row_of W j -> i = j.
Proof.
  intros HW C R. unfold column_of, row_of in *. apply Nat2Z.inj in C. apply Nat2Z.inj in R.
  rewrite (Nat.div_mod i W), (Nat.div_mod j W) by lia. rewrite C, R. reflexivity.
Qed.

Definition segment_of (m : plane) (W i : nat) (b : mbinfo) : Z :=
  match mb_segment b with Some v => v | None => at_px m (column_of W i) (row_of W i) end.

Lemma map_loop_spec w h ms : 0 < w -> 0 < h -> Forall (fun m => o_ok (fun s => 0 <= s < 4) (mb_segment m)) ms ->
  forall i m m' ids, map_good w h m -> (i + length ms <= mb_dim w * mb_dim h)%nat -> map_loop (mb_dim w) i ms m = Some (m', ids) ->
  (forall j b, nth_error ms j = Some b -> nth_error ids j = Some (segment_of m (mb_dim w) (i + j) b) /\
                                           at_px m' (column_of (mb_dim w) (i + j)) (row_of (mb_dim w) (i + j)) = segment_of m (mb_dim w) (i + j) b) /\
  (forall x y, inside m x y = true -> (forall j, (j < length ms)%nat -> ~ (x = column_of (mb_dim w) (i + j) /\ y = row_of (mb_dim w) (i + j))) ->
     at_px m' x y = at_px m x y).
Proof.
  intros Hw Hh F. pose proof (mb_dim_pos w Hw) as PW. induction F as [|b ms Hb F IH]; intros i m m' ids G L E; cbn [map_loop] in E.
  - injection E as <- <-. split; [intros [|j] b Hj; discriminate|reflexivity].
  - cbn [length] in L. pose proof (position_inside w h m i Hw Hh G ltac:(lia)) as I.
    set (x0 := column_of (mb_dim w) i) in *. set (y0 := row_of (mb_dim w) i) in *.
    assert (exists m1, mb_update_map m x0 y0 (mb_segment b) = Some (m1, segment_of m (mb_dim w) i b) /\ map_good w h m1 /\
            at_px m1 x0 y0 = segment_of m (mb_dim w) i b /\
            forall x y, inside m x y = true -> ~ (x = x0 /\ y = y0) -> at_px m1 x y = at_px m x y) as (m1 & E1 & G1 & A1 & U1).
    { unfold mb_update_map, segment_of. fold x0 y0. destruct (mb_segment b) as [v|] eqn:ES.
      - rewrite pset_some by exact I. cbn [obind]. pose proof G as (SH & B1 & B2 & B3).
        assert (map_good w h (put_px m x0 y0 v)) as G1.
        { split; [apply shaped_put, SH|]. split; [exact B1|]. split; [exact B2|]. unfold put_px; cbn [pl_px].
          apply Forall_set_nth; [exact B3|]. pose proof (Hb v eq_refl) as Hs. cbv beta in Hs. lia. }
        assert (inside (put_px m x0 y0 v) x0 y0 = true) as I1 by exact I.
        rewrite pget_some by (exact I1 || apply G1). cbn [obind]. rewrite at_put_eq by assumption.
        eexists. split; [reflexivity|]. split; [exact G1|]. split; [apply at_put_eq; assumption|].
        intros x y IN N. apply at_put_ne; try assumption. intros [-> ->]. apply N. split; reflexivity.
      - cbn [obind]. rewrite pget_some by (exact I || apply G). cbn [obind]. eexists. split; [reflexivity|]. split; [exact G|]. split; reflexivity. }
    rewrite E1 in E. cbn [obind] in E.
    destruct (map_loop (mb_dim w) (S i) ms m1) as [[m2 vs]|] eqn:E2; [|discriminate]. cbn [obind] in E. injection E as <- <-.
    destruct (IH (S i) m1 m2 vs G1 ltac:(lia) E2) as [P Q].
    assert (forall x y, inside m1 x y = inside m x y) as SI.
    { intros x y. apply inside_dims. destruct G as (_ & g1 & g2 & _), G1 as (_ & g3 & g4 & _). split; congruence. }
    assert (forall k, (i < k)%nat -> ~ (column_of (mb_dim w) k = x0 /\ row_of (mb_dim w) k = y0)) as NE.
    { intros k Hk [C R]. pose proof (position_inj (mb_dim w) k i PW C R). lia. }
    split.
    + intros [|j] b' Hj; cbn [nth_error] in Hj |- *.
      * injection Hj as <-. rewrite Nat.add_0_r. fold x0 y0. split; [reflexivity|]. rewrite Q; [exact A1| rewrite SI; exact I|].
        intros j Hj [C R]. apply (NE (S i + j)%nat); [lia|]. split; symmetry; assumption.
      * destruct (P j b' Hj) as [P1 P2]. replace (i + S j)%nat with (S i + j)%nat by lia.
        assert (segment_of m1 (mb_dim w) (S i + j) b' = segment_of m (mb_dim w) (S i + j) b') as ES.
        { unfold segment_of. destruct (mb_segment b'); [reflexivity|]. apply U1; [|apply NE; lia].
          apply (position_inside w h m (S i + j) Hw Hh G). assert (j < length ms)%nat by (apply nth_error_Some; congruence). lia. }
        rewrite <- ES. split; assumption.
    + intros x y IN N. rewrite Q.
      * apply U1; [exact IN|]. intros [-> ->]. apply (N 0%nat); [cbn; lia|]. rewrite Nat.add_0_r. split; reflexivity.
      * rewrite SI. exact IN.
      * intros j Hj [C R]. apply (N (S j)); [cbn; lia|]. replace (i + S j)%nat with (S i + j)%nat by lia. split; assumption.
Qed.

Lemma update_map_spec w h sg ms seg' ids : 0 < w -> 0 < h -> seg_good w h sg ->
  Forall (fun m => o_ok (fun s => 0 <= s < 4) (mb_segment m)) ms -> length ms = (mb_dim w * mb_dim h)%nat ->
  update_map (mb_dim w) (Some sg) ms = Some (seg', ids) ->
  exists sg', seg' = Some sg' /\ sg_absolute sg' = sg_absolute sg /\ sg_quant sg' = sg_quant sg /\ sg_filter sg' = sg_filter sg /\
  (forall i b, nth_error ms i = Some b ->
     let id := match mb_segment b with Some v => v | None => at_px (sg_map sg) (column_of (mb_dim w) i) (row_of (mb_dim w) i) end in
     nth_error ids i = Some id /\ at_px (sg_map sg') (column_of (mb_dim w) i) (row_of (mb_dim w) i) = id) /\
  (forall x y, 0 <= x < w -> 0 <= y < h -> Z.of_nat (mb_dim w) <= x \/ Z.of_nat (mb_dim h) <= y -> at_px (sg_map sg') x y = at_px (sg_map sg) x y).
Proof.
  intros Hw Hh G F L E. unfold update_map in E.
  destruct (map_loop (mb_dim w) 0 ms (sg_map sg)) as [[m' vs]|] eqn:EL; [|discriminate]. cbn [obind] in E. injection E as <- <-.
  assert (map_good w h (sg_map sg)) as GM by (apply seg_good_map, G).
  destruct (map_loop_spec w h ms Hw Hh F 0 (sg_map sg) m' vs GM ltac:(lia) EL) as [P Q].
  eexists. split; [reflexivity|]. cbn [sg_absolute sg_quant sg_filter sg_map]. repeat (split; [reflexivity|]). split.
  - intros i b Hi. cbv zeta. exact (P i b Hi).
  - intros x y Hx Hy O. apply Q.
    + apply inside_iff. destruct GM as (_ & -> & -> & _). lia.
    + intros j Hj [C R]. cbn [Nat.add] in C, R. pose proof (mb_dim_pos w Hw) as PW.
      pose proof (Nat.mod_upper_bound j (mb_dim w) ltac:(lia)) as B1.
      pose proof (Nat.div_lt_upper_bound j (mb_dim w) (mb_dim h) ltac:(lia) ltac:(lia)) as B2.
      unfold column_of, row_of in C, R. generalize dependent (j mod mb_dim w)%nat. generalize dependent (j / mb_dim w)%nat. intros. lia.
Qed.

(** After an inter frame with segmentation, the id of each macroblock is the
    one its header gives or else the one its position had before the frame; 3
    if there was no segmentation before. The map then holds these ids. *)
Theorem C58_inter_frame_segments :
  forall w h s u s' hd ms cs ids sg', 0 < w -> 0 < h -> state_good w h s ->
  parse_inter s u = (s', Ok (hd, ms, cs, ids)) -> ds_seg s' = Some sg' ->
  let before x y := match ds_seg s with Some sg => at_px (sg_map sg) x y | None => 3 end in
  length ids = length ms /\
  forall i b, nth_error ms i = Some b ->
    let x := Z.of_nat (i mod mb_dim w) in let y := Z.of_nat (i / mb_dim w) in
    let id := match mb_segment b with Some v => v | None => before x y end in
    nth_error ids i = Some id /\ at_px (sg_map sg') x y = id.
Proof.
  intros w h s u s' hd ms cs ids sg' Hw Hh G P ES. cbv zeta.
  pose proof (parse_inter_good w h s u Hw Hh G) as PG. rewrite P in PG. destruct PG as (_ & DR & LI).
  destruct (LI hd ms cs ids eq_refl) as [LL _]. split; [exact LL|].
  pose proof (C11_parsed_inter_frame_is_serialisable (ds_pt s) w h u hd ms cs Hw (eq_sym DR)) as (K & _ & LM & FM & _).
  unfold parse_inter in P. destruct (uc_key u); [discriminate|].
  destruct (inter_frame_header_decode (first_decoder u)) as [hd' d].
  destruct (negb _); [discriminate|]. rewrite (stg_w _ _ _ G), (stg_h _ _ _ G) in P.
  destruct (if_macroblocks_decode _ _ _ _ _) as [ms' d2].
  destruct (update_map _ _ _) as [[seg ids']|] eqn:EM; [|discriminate]. destruct (frame_tokens _ _ _ _ _); [|discriminate].
  injection P as <- -> -> -> ->. cbn [set_seg set_fa ds_seg] in ES, EM. subst seg.
  replace (ds_seg (if if_refresh_entropy_probs hd then set_tables s (pt_update (ds_pt s) hd) else s)) with (ds_seg s) in EM
    by (destruct (if_refresh_entropy_probs hd); reflexivity).
  pose proof (inter_seg_good w h (ds_seg s) (if_update_segmentation hd) Hw Hh (stg_seg _ _ _ G) (ifo_seg hd K)) as GS.
  assert (Forall (fun m => o_ok (fun s => 0 <= s < 4) (mb_segment m)) ms) as FS.
  { apply Forall_forall. intros m Hm. apply In_nth_error in Hm. destruct Hm as [i Hi]. apply (FM i m Hi). }
  destruct (inter_seg w h (ds_seg s) (if_update_segmentation hd)) as [sg|] eqn:EI; [|discriminate EM].
  destruct (update_map_spec w h sg ms _ ids Hw Hh (GS sg eq_refl) FS LM EM) as (sg'' & [= <-] & _ & _ & _ & A & _).
  intros i b Hi. destruct (A i b Hi) as [A1 A2]. cbv zeta in A1, A2.
  assert (at_px (sg_map sg) (column_of (mb_dim w) i) (row_of (mb_dim w) i) =
          match ds_seg s with Some sg0 => at_px (sg_map sg0) (column_of (mb_dim w) i) (row_of (mb_dim w) i) | None => 3 end) as EB.
  { assert (i < mb_dim w * mb_dim h)%nat as Hil by (rewrite <- LM; apply nth_error_Some; congruence).
    unfold inter_seg in EI. destruct (if_update_segmentation hd) as [us|]; [|discriminate]. destruct (ds_seg s) as [sg0|].
    - unfold seg_update in EI. destruct (segment_feature_data us); injection EI as <-; reflexivity.
    - assert (sg_map sg = mkPlane w h (repeat 3 (Z.to_nat (w * h)))) as M by (unfold seg_new, seg_update in EI; destruct (segment_feature_data us); injection EI as <-; reflexivity).
      rewrite M. pose proof (seg_blank_good w h Hw Hh) as BG.
      assert (map_good w h (mkPlane w h (repeat 3 (Z.to_nat (w * h))))) as GM by exact (seg_good_map _ _ _ BG).
      pose proof (pix_index_lt _ _ _ (proj1 GM) (position_inside w h _ i Hw Hh GM Hil)) as LT.
      unfold at_px. cbn [pl_px] in LT |- *. apply (repeat_spec (Z.to_nat (w * h)) 3). apply nth_In. exact LT. }
  fold (column_of (mb_dim w) i) (row_of (mb_dim w) i). rewrite EB in A1, A2. split; assumption.
Qed.

(** A key frame with segmentation starts from a map of 3s. *)
Theorem C58_key_frame_segments :
  forall w h s u s' hd ms cs ids sg', 0 < w -> 0 < h -> state_good w h s ->
  parse_key s u = (s', Ok (hd, ms, cs, ids)) -> ds_seg s' = Some sg' ->
  length ids = length ms /\
  forall i b, nth_error ms i = Some b ->
    let id := match mb_segment b with Some v => v | None => 3 end in
    nth_error ids i = Some id /\ at_px (sg_map sg') (Z.of_nat (i mod mb_dim w)) (Z.of_nat (i / mb_dim w)) = id.
Proof.
  intros w h s u s' hd ms cs ids sg' Hw Hh G P ES. cbv zeta.
  pose proof (parse_key_good w h s u Hw Hh G) as PG. rewrite P in PG. destruct PG as (_ & DR & LI).
  destruct (LI hd ms cs ids eq_refl) as [LL _]. split; [exact LL|].
  pose proof (C11_parsed_key_frame_is_serialisable w h u hd ms cs Hw (eq_sym DR)) as (K & _ & LM & FM & _).
  unfold parse_key in P. destruct (negb (uc_key u)); [discriminate|]. destruct (uc_experimental u); [discriminate|].
  destruct (key_frame_header_decode (first_decoder u)) as [hd' d].
  destruct (negb _); [discriminate|]. rewrite (stg_w _ _ _ G), (stg_h _ _ _ G) in P.
  destruct (kf_macroblocks_decode _ _ _ _) as [ms' d2].
  destruct (update_map _ _ _) as [[seg ids']|] eqn:EM; [|discriminate]. destruct (frame_tokens _ _ _ _ _); [|discriminate].
  injection P as <- -> -> -> ->. cbn [set_seg ds_seg] in ES. subst seg.
  match type of EM with update_map _ ?x _ = _ => replace x with (ds_seg (key_state w h hd)) in EM by (destruct (kf_refresh_entropy_probs hd); reflexivity) end.
  pose proof (stg_seg _ _ _ (key_state_good w h hd Hw Hh K)) as GS.
  assert (Forall (fun m => o_ok (fun s => 0 <= s < 4) (mb_segment m)) ms) as FS.
  { apply Forall_forall. intros m Hm. apply (proj1 (Forall_forall _ _) FM m Hm). }
  destruct (ds_seg (key_state w h hd)) as [sg|] eqn:EI; [|discriminate EM].
  destruct (update_map_spec w h sg ms _ ids Hw Hh (GS sg eq_refl) FS LM EM) as (sg'' & [= <-] & _ & _ & _ & A & _).
  intros i b Hi. destruct (A i b Hi) as [A1 A2]. cbv zeta in A1, A2.
  assert (at_px (sg_map sg) (column_of (mb_dim w) i) (row_of (mb_dim w) i) = 3) as EB.
  { assert (i < mb_dim w * mb_dim h)%nat as Hil by (rewrite <- LM; apply nth_error_Some; congruence).
    cbn [key_state ds_seg] in EI. destruct (kf_update_segmentation hd) as [us|]; [|discriminate].
    assert (sg_map sg = mkPlane w h (repeat 3 (Z.to_nat (w * h)))) as M by (unfold seg_new, seg_update in EI; destruct (segment_feature_data us); injection EI as <-; reflexivity).
    rewrite M. pose proof (seg_good_map _ _ _ (seg_blank_good w h Hw Hh)) as GM. cbn [sg_map] in GM.
    pose proof (pix_index_lt _ _ _ (proj1 GM) (position_inside w h _ i Hw Hh GM Hil)) as LT.
    unfold at_px. cbn [pl_px] in LT |- *. apply (repeat_spec (Z.to_nat (w * h)) 3). apply nth_In. exact LT. }
  fold (column_of (mb_dim w) i) (row_of (mb_dim w) i). rewrite EB in A1, A2. split; assumption.
Qed.

(** ** Examples: frames of 20 x 10 pixels, so two macroblocks

    The key frame sets the first coefficient probability to 90, keeps it, has
    segments and a loop filter; the inter frame sets the second one to 110
    for itself only, has one split macroblock, copies the last picture to
    golden and golden to alternate. *)
Definition key_bytes : list Z := [208; 1; 0; 157; 1; 42; 20; 0; 10; 0; 53; 145; 200; 40; 202; 128; 127; 173; 0; 2; 80; 140; 102; 0; 3; 0; 0; 190; 74; 0; 0].
Definition inter_bytes : list Z :=
  [177; 2; 0; 213; 154; 145; 192; 7; 113; 52; 149; 55; 0; 2; 92; 188; 29; 8; 16; 112; 70; 136; 166; 128; 170; 100; 3; 90; 4; 192].

Definition shade (w h seed : Z) : plane := mkPlane w h (map (fun i => (seed + 7 * i) mod 256) (zseq (w * h))).
Definition shaded (seed : Z) : raster := mkRaster 20 10 (shade 32 16 seed) (shade 16 8 (seed + 1)) (shade 16 8 (seed + 2)).
Lemma shade_sized w h seed : 0 < w -> 0 < h -> sized w h (shade w h seed).
Proof.
  intros Hw Hh. split; [|split; reflexivity]. split.
  - unfold shaped. cbn [shade pl_w pl_h pl_px]. unfold zlen, zseq. rewrite !map_length, seq_length. nia.
  - apply Forall_forall. intros b Hb. apply in_map_iff in Hb. destruct Hb as (i & <- & _). unfold byte_ok. lia.
Qed.
Lemma shaded_for seed : raster_for 20 10 (shaded seed).
Proof. split; [|split; reflexivity]. apply raster_sized. split; [|split]; apply shade_sized; reflexivity. Qed.

(** A new decoder and one with a past. *)
Definition decoder_one : decoder := new_decoder 20 10 (shaded 1).
Definition decoder_two : decoder :=
  mkDecoder (mkDS 20 10 (mkPT (repeat 77 1056) (repeat 99 38) [1; 2; 3; 4] [5; 6; 7])
                  (Some (mkSeg true [1; 2; 3; 4] [4; 3; 2; 1] (mkPlane 20 10 (repeat 2 200)))) (Some (mkFA [1; 2; 3; 4] [-4; -3; -2; -1])))
            (mkRefs (shaded 20) (shaded 30) (shaded 40)) false.
Definition frames (l : list (list Z)) (seed : Z) : list (chunk * raster) := map (fun b => (chunk_of b, shaded seed)) l.
Definition pictures (os : list outcome) : list bool := map (fun o => match o with Output _ _ => true | Raised _ => false end) os.

Lemma decoder_one_good : decoder_good 20 10 decoder_one.
Proof. apply C57_new_decoder; try lia. apply shaded_for. Qed.
Lemma o_ok_some {A} (P : A -> Prop) a : P a -> o_ok P (Some a).
Proof. intros H b E. assert (b = a) by congruence. subst b. exact H. Qed.
Lemma Forall_repeat {A} (P : A -> Prop) a n : P a -> Forall P (repeat a n).
Proof. intros H. apply Forall_forall. intros x Hx. apply repeat_spec in Hx. subst x. exact H. Qed.

Lemma decoder_two_good : decoder_good 20 10 decoder_two.
Proof.
  constructor; try apply shaded_for. constructor; [reflexivity|reflexivity| | |].
  - split; [|repeat split]. split; [apply Forall_repeat; unfold prob_ok; lia|]. split; [apply Forall_repeat; unfold prob_ok; lia|].
    split; repeat constructor; unfold prob_ok; lia.
  - apply o_ok_some. constructor.
    + reflexivity.
    + reflexivity.
    + repeat constructor; unfold int8; lia.
    + repeat constructor; unfold int8; lia.
    + split; [reflexivity|]. split; reflexivity.
    + reflexivity.
    + reflexivity.
    + apply Forall_repeat. lia.
  - apply o_ok_some. constructor; cbn; try reflexivity; repeat constructor; unfold int8; lia.
Qed.

Lemma bytes_input l seed : forallb (fun b => (0 <=? b) && (b <? 256)) l = true -> zlen l <? 2 ^ 64 = true -> frame_input 20 10 (l, shaded seed).
Proof. intros A B. split; [apply bytes_okb_spec; exact A|]. split; [cbn [fst]; lia|apply shaded_for]. Qed.

Definition luma_sum (o : outcome) : Z := match o with Output _ r => fold_left Z.add (pl_px (ra_y r)) 0 | Raised _ => -1 end.
Definition same_sums (a b : list outcome) : bool :=
  (length a =? length b)%nat && forallb (fun '(x, y) => luma_sum x =? luma_sum y) (combine a b).

(** Garbage, a truncated frame and an experimental one throw; the frames
    around them give pictures. *)
Example C57_example :
  decoder_good 20 10 decoder_one /\ Forall (fun b => frame_input 20 10 (b, shaded 5)) [key_bytes; [1]; firstn 20 key_bytes; [9; 0; 0; 1]; inter_bytes] /\
  map (fun o => match o with Output _ _ => None | Raised e => Some e end)
    (snd (run_frames decoder_one (frames [key_bytes; [1]; firstn 20 key_bytes; [9; 0; 0; 1]; inter_bytes] 5))) =
  [None; Some FInvalid; Some FInvalid; Some FUnsupported; None].
Proof.
  split; [exact decoder_one_good|]. split.
  - repeat (constructor; [apply bytes_input; vm_compute; reflexivity|]). constructor.
  - vm_compute. reflexivity.
Qed.

(** The two decoders differ on the inter frame alone, and agree after the key
    frame. *)
Example C24_example :
  decoder_good 20 10 decoder_one /\ decoder_good 20 10 decoder_two /\
  frame_input 20 10 (key_bytes, shaded 5) /\ frame_input 20 10 (key_bytes, shaded 6) /\
  frame_input 20 10 (inter_bytes, shaded 5) /\
  match uncompressed_chunk (chunk_of key_bytes) 20 10 false with Ok u => uc_key u | Err _ => false end = true /\
  same_sums (snd (run_frames decoder_one (frames [inter_bytes] 5))) (snd (run_frames decoder_two (frames [inter_bytes] 6))) = false /\
  same_sums (snd (run_frames decoder_one (frames [key_bytes; inter_bytes] 5)))
            (snd (run_frames decoder_two (frames [key_bytes; inter_bytes] 6))) = true.
Proof.
  split; [exact decoder_one_good|]. split; [exact decoder_two_good|].
  do 3 (split; [apply bytes_input; vm_compute; reflexivity|]).
  split; [vm_compute; reflexivity|]. split; vm_compute; reflexivity.
Qed.

(** The inter frame copies the last picture to golden and the golden one to
    alternate. *)
Definition inter_step : decoder * outcome := get_frame_output decoder_two (chunk_of inter_bytes) (shaded 5).
Definition inter_flags (r : res uc_error uchunk) : option (bool * option Z * option Z * bool) :=
  match r with
  | Ok u => Some (uc_key u, if_copy_to_golden (inter_header u), if_copy_to_alternate (inter_header u), if_refresh_last (inter_header u))
  | Err _ => None
  end.
Example C23_example :
  inter_flags (uncompressed_chunk (chunk_of inter_bytes) 20 10 false) = Some (false, Some 1, Some 2, true) /\
  pictures [snd inter_step] = [true] /\
  rf_golden (dc_refs (fst inter_step)) = shaded 20 /\ rf_alt (dc_refs (fst inter_step)) = shaded 30.
Proof. split; [vm_compute; reflexivity|]. split; [vm_compute; reflexivity|]. split; vm_compute; reflexivity. Qed.

(** C25, C35, C50 and C58. *)
Example C25_example :
  let after b := match uncompressed_chunk (chunk_of b) 20 10 false with
                 | Ok u => if uc_key u then ds_pt (fst (parse_key (dc_state decoder_two) u)) else ds_pt (fst (parse_inter (dc_state decoder_two) u))
                 | Err _ => default_pt end in
  after key_bytes = mkPT (90 :: skipn 1 (pt_coeff default_pt)) (pt_mv default_pt) (pt_y_mode default_pt) (pt_uv_mode default_pt) /\
  after inter_bytes = ds_pt (dc_state decoder_two) /\
  match uncompressed_chunk (chunk_of inter_bytes) 20 10 false with Ok u => if_token_prob_update (inter_header u) | Err _ => [] end =
  None :: Some 110 :: repeat None 1054.
Proof. cbv zeta. split; [vm_compute; reflexivity|]. split; vm_compute; reflexivity. Qed.

Example C58_example :
  match uncompressed_chunk (chunk_of inter_bytes) 20 10 false with
  | Ok u => match parse_inter (dc_state decoder_two) u with
            | (s', Ok (hd, ms, cs, ids)) => (map mb_segment ms, ids, match ds_seg s' with Some _ => true | None => false end)
            | _ => ([], [], false) end
  | Err _ => ([], [], false) end = ([Some 0; Some 2], [0; 2], true).
Proof. vm_compute. reflexivity. Qed.

Definition inter_chunk : uchunk :=
  match uncompressed_chunk (chunk_of inter_bytes) 20 10 false with Ok u => u | Err _ => mkUC false true true false null_chunk null_chunk 0 end.
Example C35_example :
  exists s u s' hd ms cs ids a, parse_inter s u = (s', Ok (hd, ms, cs, ids)) /\ if_mode_lf_adjustments hd = None /\ ds_fa s = Some a.
Proof.
  exists (dc_state decoder_two), inter_chunk.
  destruct (parse_inter (dc_state decoder_two) inter_chunk) as [s' r] eqn:E.
  assert (match r with Ok (hd, _, _, _) => if_mode_lf_adjustments hd | Err _ => Some None end = None) as H.
  { change r with (snd (s', r)). rewrite <- E. vm_compute. reflexivity. }
  destruct r as [[[[hd ms] cs] ids]|]; [|discriminate]. exists s', hd, ms, cs, ids. eexists. split; [reflexivity|]. split; [exact H|reflexivity].
Qed.

Print Assumptions C23_references_after_inter_frame.
Print Assumptions C23_references_after_key_frame.
Print Assumptions C23_references_after_exception.
Print Assumptions C23_simultaneous_copies_refuted.
Print Assumptions C24_key_frame_erases_history.
Print Assumptions C25_inter_frame_tables.
Print Assumptions C25_key_frame_tables.
Print Assumptions C35_deltas_after_inter_frame.
Print Assumptions C35_deltas_persist_refuted.
Print Assumptions C50_update_idempotent.
Print Assumptions C50_update_entries.
Print Assumptions C50_serialise_with_updated_tables.
Print Assumptions C57_decoder_never_aborts.
Print Assumptions C57_new_decoder.
Print Assumptions C57_buffers_do_not_matter.
Print Assumptions C58_inter_frame_segments.
Print Assumptions C58_key_frame_segments.
