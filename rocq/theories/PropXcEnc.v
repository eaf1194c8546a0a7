(** C74: the main programs, from raw video to files and back. *)
From Verif Require PropPicture PropChunk IvfProofs PropIvf PropFd PropY4m PropEncode.
From Verif Require Import Base BoolCoderModel ParserModel Tables TreeModel HeaderModel HeaderProofs MVModel MBModel ChunkModel ChunkProofs ContainerModel ContainerProofs FrameModel.
From Verif Require Import QuantModel RasterModel RasterProofs TransformModel PredictModel LoopFilterModel ReconModel StateModel StateProofs PropState SerialModel FdModel Y4mModel IvfModel PlayerModel PropPlayer.
From Verif Require Import EncoderModel PropEncoder SearchModel EncoderApiModel EncoderApiProofs PropEncoderApi SizeProofs PropSize LocalProofs XcEncModel XcEncProofs.

(** ** Only the bytes matter *)

(** Two views of memory with the same bytes are decoded the same: the decoder
    reads nothing outside of its chunk, wherever the chunk is in a file. *)
Theorem C74_only_the_bytes : forall d c c' scratch, chunk_ok c -> chunk_ok c' -> bytes_ok (cbytes c) -> cbytes c = cbytes c' ->
  get_frame_output d c scratch = get_frame_output d c' scratch.
Proof. intros d c c' scratch O O' B E. apply get_frame_output_same; [|exact B]. split; [exact O|]. split; [exact O'|exact E]. Qed.

(** ** What the encoder is asked *)

(** The pictures of the input from the i-th on, and the reader's exception. *)
Inductive reads (pool : Z -> raster) (sur : nat -> surroundings) : nat -> frame_input -> list raster -> option input_error -> Prop :=
| reads_end i inp inp' : next_frame pool (su_in (sur i)) inp = (Ok None, inp') -> reads pool sur i inp [] None
| reads_error i inp inp' e : next_frame pool (su_in (sur i)) inp = (Err e, inp') -> reads pool sur i inp [] (Some e)
| reads_more i inp inp' r l e : next_frame pool (su_in (sur i)) inp = (Ok (Some r), inp') -> reads pool sur (S i) inp' l e -> reads pool sur i inp (r :: l) e.

(** The target size of the i-th picture from here on (see C74_sizes). *)
Fixpoint target (s : stream) (last : Z) (i : nat) : Z :=
  let (n, s') := next_size s last in match i with O => n | S i => target s' n i end.

Definition call_for (m : mode) (size : Z) (u : surroundings) : call :=
  match m with
  | MinimumSsim z => WithMinimumSsim z
  | ConstantQuantizer y => WithQuantizer (y mod 256)
  | TargetFrameSize => WithTargetSize (su_estimate u) size
  end.
Fixpoint calls (m : mode) (sur : nat -> surroundings) (i : nat) (size : nat -> Z) (l : list raster) : list (call * job) :=
  match l with
  | [] => []
  | r :: l => (call_for m (size 0%nat) (sur i), job_of (sur i) r) :: calls m sur (S i) (fun k => size (S k)) l
  end.

(** The encoder after every call, with the bytes the call gave. *)
Fixpoint history {Q} gt minus_one ssim (a : @api Q) (l : list (call * job)) : option (list (@api Q * list Z)) :=
  match l with
  | [] => Some []
  | (c, j) :: l =>
      match api_call gt minus_one ssim a c j with
      | Err _ => None
      | Ok (a', bytes) => match history gt minus_one ssim a' l with Some tr => Some ((a', bytes) :: tr) | None => None end
      end
  end.

(** Whatever the surroundings hold has the right size. *)
Record surroundings_ok (w h : Z) (u : surroundings) : Prop := {
  so_in : raster_for w h (su_in u);
  so_works : forall i, trial_ok w h (su_works u i);
  so_scratch : raster_for w h (su_scratch u);
  so_junk : forall i, zlen (su_junk u i) = (w + 512) * (h + 512)
}.
(** The quantiser, taken modulo 256, has seven bits. *)
Definition mode_ok (m : mode) : Prop := match m with ConstantQuantizer y => y mod 256 <= 127 | _ => True end.
Record settings_ok (w h : Z) (o : settings) : Prop := {
  sto_mode : mode_ok (se_mode o);
  sto_key : se_key o = empty_key_header; sto_inter : se_inter o = empty_inter_header;
  sto_junk : forall i, zlen (se_junk o i) = (w + 512) * (h + 512);
  sto_blank : raster_for w h (se_blank o)
}.
(** The sizes the program is for. *)
Record format_ok (w h : Z) : Prop := { fo_16 : w mod 16 = 0; fo_w : 4 <= w <= 3968; fo_h : 4 <= h <= 3968; fo_blocks : blocks_of w h <= 4700 }.

Lemma calls_ext m sur : forall l i t t', (forall k, t k = t' k) -> calls m sur i t l = calls m sur i t' l.
Proof. induction l as [|r l IH]; intros i t t' E; [reflexivity|]. cbn [calls]. rewrite (E 0%nat), (IH (S i) _ (fun k => t' (S k))) by (intros; apply E). reflexivity. Qed.
Lemma calls_any m sur : m <> TargetFrameSize -> forall l i t t', calls m sur i t l = calls m sur i t' l.
Proof.
  intros NT. induction l as [|r l IH]; intros i t t'; [reflexivity|]. cbn [calls]. f_equal; [|apply IH]. destruct m; try reflexivity. congruence.
Qed.
Lemma choose_calls m sur i s last r l c s' last' : choose m (sur i) s last = (c, s', last') ->
  calls m sur i (target s last) (r :: l) = (c, job_of (sur i) r) :: calls m sur (S i) (target s' last') l.
Proof.
  intros E. cbn [calls]. destruct m as [z|y|]; cbn [choose] in E.
  - injection E as <- <- <-. f_equal. apply calls_any. discriminate.
  - injection E as <- <- <-. f_equal. apply calls_any. discriminate.
  - cbn [target call_for]. destruct (next_size s last) as [n s1] eqn:EN. injection E as <- <- <-. reflexivity.
Qed.
Lemma choose_fits m u s last : mode_ok m -> quantiser_fits (fst (fst (choose m u s last))).
Proof.
  intros O. destruct m as [z|y|]; cbn; [exact I| |]. - unfold wrap. cbn in O. change (2 ^ 8) with 256. lia.
  - destruct (next_size s last). exact I.
Qed.

(** ** One picture after another *)

(** What is claimed about a run from [a]. *)
Record run_ok {Q} (minus_one : Q) (ssim : raster -> raster -> Q) (gt : Q -> Q -> bool) (w h : Z) (a : @api Q) (pics : list raster) (tr : list (@api Q * list Z)) : Prop := {
  ro_length : length tr = length pics;
  ro_short : Forall (fun x => zlen (snd x) < 3400000000) tr;
  ro_bytes : Forall (fun x => bytes_ok (snd x)) tr;
  ro_key : forall k x, nth_error tr k = Some x -> tag_key (snd x) = ((k =? 0)%nat && negb (ap_has a))%bool;
  ro_parses : Forall (fun x => exists u, uncompressed_chunk (chunk_of (snd x)) w h false = Ok u /\ uc_key u = tag_key (snd x)) tr;
  ro_quality : Forall2 (fun x r => ap_ssim (fst x) = Some (ssim (reconstruction (fst x)) r) \/ ap_ssim (fst x) = Some minus_one /\ exists p, gt (ssim p r) minus_one = false) tr pics;
  ro_sized : Forall (fun x => raster_for w h (reconstruction (fst x))) tr;
  ro_decodes : forall d scratches, decoder_good w h d -> (ap_has a = true -> in_step a d) -> Forall (raster_for w h) scratches -> length scratches = length tr ->
    exists d', run_frames d (combine (map (fun x => chunk_of (snd x)) tr) scratches) = (d', map (fun x => Output true (reconstruction (fst x))) tr)
}.

Lemma exported_good {Q} w h (a : @api Q) : api_good w h a -> decoder_good w h (exported a) /\ in_step a (exported a).
Proof.
  intros [[G1 G2 R1 R2 R3] _ _ _ _ _]. split; [constructor; assumption|]. split; [reflexivity|]. exact G2.
Qed.

Lemma job_of_ok w h u r : surroundings_ok w h u -> raster_for w h r -> job_ok w h (job_of u r).
Proof. intros [S1 S2 S3 S4] R. constructor; assumption. Qed.

Lemma short_of l : zlen l < 3400000000 -> IvfProofs.short l.
Proof. unfold IvfProofs.short. change (2 ^ 32) with 4294967296. lia. Qed.

Section Run.
Context {Q : Type}.
Variable gt : Q -> Q -> bool.
Variable minus_one : Q.
Variable ssim : raster -> raster -> Q.

Lemma one_call w h a c j : format_ok w h -> api_good w h a -> one_partition a -> job_ok w h j -> quantiser_fits c ->
  exists a' bytes, api_call gt minus_one ssim a c j = Ok (a', bytes) /\ api_good w h a' /\ one_partition a' /\ ap_has a' = true /\ run_ok minus_one ssim gt w h a [jb_raster j] [(a', bytes)] /\
    forall d scratch, decoder_good w h d -> (ap_has a = true -> in_step a d) -> raster_for w h scratch ->
      exists d', get_frame_output d (chunk_of bytes) scratch = (d', Output true (reconstruction a')) /\ in_step a' d' /\ decoder_good w h d'.
Proof.
  intros [F16 Fw Fh FB] GA OP JO QF. rewrite <- blocks_of_eq in FB by lia.
  destruct (call_ok_main gt minus_one ssim w h a c j F16 ltac:(lia) ltac:(lia) GA JO QF) as (a0 & f0 & bytes0 & y0 & E0 & _ & _ & K0 & _ & _ & _ & _ & _ & _ & (WN & WR) & _).
  destruct (C71_call Q gt minus_one ssim w h a c j F16 ltac:(lia) ltac:(lia) GA JO QF) as (a' & bytes & f & y & E & GA' & HA & BB & WN' & K & _ & _ & SS & OP' & DEC).
  rewrite E in E0. injection E0 as <- <-.
  assert (FC : fits_container w h a bytes) by (right; right; auto).
  assert (SH : zlen bytes < 3400000000) by (apply (written_short (ds_pt (en_state (ap_enc a'))) w h f0 bytes); [lia|lia|exact WN|exact WR]).
  assert (DEC2 : forall d scratch, decoder_good w h d -> (ap_has a = true -> in_step a d) -> raster_for w h scratch ->
      exists d', get_frame_output d (chunk_of bytes) scratch = (d', Output true (reconstruction a')) /\ in_step a' d' /\ decoder_good w h d') by (intros; apply DEC; assumption).
  assert (TK : tag_key bytes = negb (ap_has a)) by (rewrite (written_tag _ _ _ _ _ WN); exact K0).
  exists a', bytes. split; [exact E|]. split; [exact GA'|]. split; [exact (OP' OP)|]. split; [exact HA|]. split; [|exact DEC2]. constructor.
  - reflexivity.
  - repeat constructor. exact SH.
  - repeat constructor. exact BB.
  - intros [|k] x EX; [|destruct k; discriminate]. injection EX as <-. exact TK.
  - repeat constructor. cbn [snd]. destruct (exported_good w h a GA) as [GE SE]. destruct (DEC2 (exported a) (jb_scratch j) GE (fun _ => SE) (jbo_s _ _ _ JO)) as (d' & ED & _).
    pose proof (GE) as [[Ew Eh _ _ _] _ _ _]. apply output_parses in ED; [|apply chunk_ok_of; lia|rewrite cbytes_of; exact BB|reflexivity]. rewrite Ew, Eh, cbytes_of in ED. exact ED.
  - constructor; [exact SS|constructor].
  - constructor; [|constructor]. destruct GA' as [[_ _ R1 _ _] _ _ _ _ _]. exact R1.
  - intros d scratches GD IS FS LS. destruct scratches as [|s [|? ?]]; try discriminate. apply Forall_inv in FS. destruct (DEC2 d s GD IS FS) as (d' & ED & _). exists d'. cbn [map combine snd fst run_frames]. rewrite ED. reflexivity.
Qed.

Lemma run_cons w h a pics r a' bytes tr : run_ok minus_one ssim gt w h a [r] [(a', bytes)] ->
  (forall d scratch, decoder_good w h d -> (ap_has a = true -> in_step a d) -> raster_for w h scratch ->
      exists d', get_frame_output d (chunk_of bytes) scratch = (d', Output true (reconstruction a')) /\ in_step a' d' /\ decoder_good w h d') ->
  ap_has a' = true -> run_ok minus_one ssim gt w h a' pics tr -> run_ok minus_one ssim gt w h a (r :: pics) ((a', bytes) :: tr).
Proof.
  intros [L1 S1 B1 K1 P1 Q1 Z1 _] DEC HA [L2 S2 B2 K2 P2 Q2 Z2 D2]. constructor.
  - cbn. congruence.
  - constructor; [exact (Forall_inv S1)|exact S2].
  - constructor; [exact (Forall_inv B1)|exact B2].
  - intros [|k] x EX; [apply K1; exact EX|]. cbn [nth_error] in EX. rewrite (K2 k x EX), HA. cbn [Nat.eqb negb]. rewrite andb_false_r. reflexivity.
  - constructor; [exact (Forall_inv P1)|exact P2].
  - constructor; [inversion Q1; assumption|exact Q2].
  - constructor; [exact (Forall_inv Z1)|exact Z2].
  - intros d [|s scratches] GD IS FS LS; [discriminate|]. destruct (DEC d s GD IS (Forall_inv FS)) as (d1 & E1 & I1 & G1). destruct (D2 d1 scratches G1 (fun _ => I1) (Forall_inv_tail FS)) as (d' & E2); [cbn in LS; congruence|].
    exists d'. cbn [map combine snd fst run_frames]. rewrite E1, E2. reflexivity.
Qed.

Lemma loop_ok w h m pool sur hash : format_ok w h -> mode_ok m -> (forall i, surroundings_ok w h (sur i)) -> 0 <= hash < 2 ^ 32 -> forall i inp pics e, reads pool sur i inp pics e ->
  forall fuel s last a v fs, (length pics < fuel)%nat -> Forall (raster_for w h) pics -> api_good w h a -> one_partition a ->
  PropIvf.written VP80 w h 1 1 hash fs v -> Forall IvfProofs.short fs -> zlen fs + zlen pics < 2 ^ 32 ->
  exists tr a' v', history gt minus_one ssim a (calls m sur i (target s last) pics) = Some tr /\ run_ok minus_one ssim gt w h a pics tr /\
    xc_loop gt minus_one ssim fuel pool sur m i inp s last a v = (a', v', option_map XInput e) /\ PropIvf.written VP80 w h 1 1 hash (fs ++ map snd tr) v'.
Proof.
  intros FO MO SO HH. assert (FI : PropIvf.fields_ok VP80 w h 1 1) by (destruct FO; repeat split; lia).
  induction 1 as [i inp inp' EN|i inp inp' e EN|i inp inp' r l e EN R IH]; intros fuel s last a v fs LF FP GA OP WV FS LN; (destruct fuel as [|fuel]; [cbn in LF; lia|]); cbn [xc_loop]; rewrite EN.
  - exists [], a, v. split; [reflexivity|]. split; [|split; [reflexivity|]; rewrite app_nil_r; exact WV]. constructor; try constructor; try reflexivity. + intros [|k] x; discriminate. + intros d [|? ?] _ _ _ L; [exists d; reflexivity|discriminate].
  - exists [], a, v. split; [reflexivity|]. split; [|split; [reflexivity|]; rewrite app_nil_r; exact WV]. constructor; try constructor; try reflexivity. + intros [|k] x; discriminate. + intros d [|? ?] _ _ _ L; [exists d; reflexivity|discriminate].
  - pose proof (choose_fits m (sur i) s last MO) as QF. destruct (choose m (sur i) s last) as [[c s'] last'] eqn:EC. cbn [fst] in QF.
    destruct (one_call w h a c (job_of (sur i) r) FO GA OP (job_of_ok w h (sur i) r (SO i) (Forall_inv FP)) QF) as (a' & bytes & E & GA' & OP' & HA & R1 & DEC). cbn [job_of jb_raster] in R1.
    pose proof (Forall_inv (ro_short _ _ _ _ _ _ _ _ R1)) as SH. cbn [snd] in SH. rewrite zlen_cons in LN. pose proof (zlen_nonneg l).
    rewrite (choose_calls m sur i s last r l c s' last' EC). cbn [history]. rewrite E.
    destruct (PropIvf.append_written_short VP80 w h 1 1 hash fs v bytes FI HH FS (short_of _ SH) ltac:(lia) WV) as (v1 & off & EA & WV1 & _). rewrite EA.
    destruct (IH fuel s' last' a' v1 (fs ++ [bytes])) as (tr & a2 & v2 & E2 & R2 & EX & WV2); try assumption; [cbn in LF; lia|exact (Forall_inv_tail FP)|apply Forall_app; split; [exact FS|repeat constructor; apply short_of, SH]|rewrite zlen_app; unfold zlen in *; cbn [length]; lia|].
    rewrite E2, EX. exists ((a', bytes) :: tr), a2, v2. split; [reflexivity|]. split; [apply run_cons; assumption|]. split; [reflexivity|]. cbn [map snd]. rewrite <- app_assoc in WV2. exact WV2.
Qed.
End Run.

(** ** The file *)

Lemma le_bytes_ok n : forall v, bytes_ok (PropChunk.le_bytes n v).
Proof. induction n as [|n IH]; intros v; [constructor|]. cbn [PropChunk.le_bytes]. constructor; [unfold byte_ok; lia|apply IH]. Qed.
Lemma head_ok w h count hash : bytes_ok (PropIvf.image_head VP80 w h 1 1 count hash).
Proof.
  unfold PropIvf.image_head. repeat (apply Forall_app; split); try apply le_bytes_ok; repeat constructor; unfold byte_ok; lia.
Qed.
Lemma body_ok fs : Forall bytes_ok fs -> bytes_ok (IvfProofs.body fs).
Proof. induction 1 as [|f fs B F IH]; [constructor|]. unfold IvfProofs.body. cbn [map concat]. apply Forall_app. split; [apply IvfProofs.stored_ok, B|exact IH]. Qed.
Lemma body_below fs : Forall (fun f : list Z => zlen f < 3400000000) fs -> 0 <= zlen (IvfProofs.body fs) <= zlen fs * 3400000012.
Proof.
  induction 1 as [|f fs S F IH]; [cbn; lia|]. unfold IvfProofs.body. cbn [map concat]. rewrite zlen_app, IvfProofs.stored_length, zlen_cons. fold (IvfProofs.body fs). pose proof (zlen_nonneg f). lia.
Qed.

Lemma file_ok w h hash fs v : format_ok w h -> 0 <= hash < 2 ^ 32 -> PropIvf.written VP80 w h 1 1 hash fs v -> Forall bytes_ok fs -> Forall (fun f : list Z => zlen f < 3400000000) fs -> zlen fs < 2 ^ 31 ->
  bytes_ok (iw_file v) /\ zlen (iw_file v) < 2 ^ 63 /\ exists f, ivf_open (iw_file v) = Ok f /\ iv_fourcc f = VP80 /\ iv_width f = w /\ iv_height f = h /\ iv_hash f = hash /\ PropIvf.shows f fs.
Proof.
  intros [_ Fw Fh _] HH (WF & _ & _) B S L. assert (FI : PropIvf.fields_ok VP80 w h 1 1) by (repeat split; lia).
  pose proof (body_below fs S) as BB. change (2 ^ 31) with 2147483648 in L. pose proof (PropIvf.image_head_zlen VP80 w h 1 1 (zlen fs) hash eq_refl) as HL.
  assert (ZL : zlen (PropIvf.image_head VP80 w h 1 1 (zlen fs) hash ++ IvfProofs.body fs) < 2 ^ 63) by (rewrite zlen_app, HL; change (2 ^ 63) with 9223372036854775808; lia).
  rewrite WF. split; [apply Forall_app; split; [apply head_ok|apply body_ok, B]|]. split; [exact ZL|].
  destruct (PropIvf.open_image VP80 w h 1 1 hash fs [] FI HH) as (f & E & E1 & E2 & E3 & _ & _ & E4 & SH).
  - eapply Forall_impl; [|exact S]. intros a A. apply short_of, A.
  - lia.
  - rewrite app_nil_r. change (2 ^ 64) with 18446744073709551616. change (2 ^ 63) with 9223372036854775808 in ZL. lia.
  - rewrite app_nil_r in E. exists f. auto 8.
Qed.

Section Watching.
Context {Q : Type}.
Variable gt : Q -> Q -> bool.
Variable minus_one : Q.
Variable ssim : raster -> raster -> Q.

(** A player of the file shows what the encoder has kept. *)
Lemma watched w h file f a pics tr d pool : bytes_ok file -> zlen file < 2 ^ 63 -> ivf_open file = Ok f -> PropIvf.shows f (map snd tr) ->
  run_ok minus_one ssim gt w h a pics tr -> decoder_good w h d -> (ap_has a = true -> in_step a d) -> (forall i, raster_for w h (pool i)) ->
  exists p', play pool (mkPlayer d f 0) = (map (fun x => reconstruction (fst x)) tr, p', None) /\ at_eof p' = true.
Proof.
  intros B L EO (S1 & S2 & S3) R GD IS RP. destruct (frame_chunk file f B L EO) as [HC FC].
  assert (NC : Z.to_nat (iv_count f) = length tr) by (rewrite S1; unfold zlen; rewrite map_length; lia).
  assert (exists cs, length cs = length tr /\ (forall k c, nth_error cs k = Some c -> ivf_frame f (0 + Z.of_nat k) = Ok c) /\ map cbytes cs = map snd tr /\ Forall (fun c => chunk_ok c /\ bytes_ok (cbytes c)) cs) as (cs & LC & CK & CB & CF).
  { assert (G : forall n l, length l = n -> (forall k b, nth_error l k = Some b -> nth_error (map snd tr) (length tr - n + k) = Some b) -> (n <= length tr)%nat ->
      exists cs, length cs = n /\ (forall k c, nth_error cs k = Some c -> ivf_frame f (Z.of_nat (length tr - n + k)) = Ok c) /\ map cbytes cs = l /\ Forall (fun c => chunk_ok c /\ bytes_ok (cbytes c)) cs).
    { induction n as [|n IH]; intros l LL H LE.
      - destruct l; [|discriminate]. exists []. split; [reflexivity|]. split; [intros [|k] c; discriminate|]. split; [reflexivity|constructor].
      - destruct l as [|b l]; [discriminate|]. injection LL as LL. destruct (IH l LL) as (cs & L1 & L2 & L3 & L4); [|lia|].
        + intros k x E. replace (length tr - n + k)%nat with (length tr - S n + S k)%nat by lia. apply H. exact E.
        + destruct (S2 (length tr - S n + 0)%nat b (H 0%nat b eq_refl)) as (c & EC & CC). exists (c :: cs). split; [cbn; lia|]. split; [|split; [cbn [map]; congruence|]].
          * intros [|k] x E; [injection E as <-; exact EC|]. replace (length tr - S n + S k)%nat with (length tr - n + k)%nat by lia. apply L2. exact E.
          * constructor; [|exact L4]. specialize (FC (Z.of_nat (length tr - S n + 0)) ltac:(lia)). rewrite EC in FC. tauto. }
    destruct (G (length tr) (map snd tr)) as (cs & L1 & L2 & L3 & L4); [apply map_length|intros k b E; rewrite Nat.sub_diag; exact E|lia|]. exists cs. split; [exact L1|]. split; [|auto].
    intros k c E. apply L2 in E. rewrite Nat.sub_diag in E. exact E. }
  pose proof (C51_watch_is_decoding f pool d 0 cs CK) as W. rewrite (run_frames_same cs d _ CF) in W.
  rewrite <- (map_map cbytes chunk_of), CB, map_map in W.
  destruct (ro_decodes _ _ _ _ _ _ _ _ R d (map (fun k => pool (0 + Z.of_nat k)) (seq 0 (length cs))) GD IS) as (d' & ED).
  { apply Forall_forall. intros x Hx. apply in_map_iff in Hx. destruct Hx as (k & <- & _). apply RP. }
  { rewrite map_length, seq_length. exact LC. }
  unfold event in *. rewrite ED in W. pose proof (C51_play pool (mkPlayer d f 0)) as P. cbn [py_no py_file py_dec] in P. specialize (P ltac:(lia)).
  destruct (play pool (mkPlayer d f 0)) as [[l p'] o]. rewrite Z.sub_0_r, NC, <- LC, W in P. destruct P as (P1 & P2 & _ & _ & P3).
  assert (F : film false (map (fun x : @api Q * list Z => Output true (reconstruction (fst x))) tr) = (map (fun x => reconstruction (fst x)) tr, None)).
  { clear. induction tr as [|x tr IH]; [reflexivity|]. cbn [map film]. rewrite IH. reflexivity. }
  rewrite F in P1. injection P1 as -> ->. exists p'. split; [reflexivity|]. destruct P3 as [[e P3]|[P3 _]]; [discriminate|]. unfold at_eof. rewrite P2, P3. apply Z.eqb_refl.
Qed.

(** Every frame can be taken apart, and says that it is a key frame if it is the
    first of a new encoder. *)
Lemma frame_kinds w h file f a pics tr : bytes_ok file -> zlen file < 2 ^ 63 -> ivf_open file = Ok f -> PropIvf.shows f (map snd tr) -> run_ok minus_one ssim gt w h a pics tr ->
  forall i, 0 <= i < iv_count f -> exists c u, fetch f i = Ok c /\ uncompressed_chunk c w h false = Ok u /\ uc_key u = ((i =? 0) && negb (ap_has a))%bool.
Proof.
  intros B L EO (S1 & S2 & S3) R i Hi. destruct (frame_chunk file f B L EO) as [HC FC]. unfold zlen in S1. rewrite map_length in S1.
  destruct (nth_error tr (Z.to_nat i)) as [x|] eqn:EN; [|apply nth_error_None in EN; lia].
  destruct (S2 (Z.to_nat i) (snd x)) as (c & EC & CC); [apply map_nth_error, EN|]. rewrite Z2Nat.id in EC by lia. specialize (FC i ltac:(lia)). rewrite EC in FC. destruct FC as (_ & CO & CB).
  pose proof (proj1 (Forall_forall _ _) (ro_parses _ _ _ _ _ _ _ _ R) x (nth_error_In _ _ EN)) as (u & EU & KU). pose proof (proj1 (Forall_forall _ _) (ro_short _ _ _ _ _ _ _ _ R) x (nth_error_In _ _ EN)) as SH. cbv beta in SH.
  assert (SV : same_view c (chunk_of (snd x))) by (split; [exact CO|]; split; [apply chunk_ok_of; change (2 ^ 64) with 18446744073709551616; lia|rewrite cbytes_of; exact CC]).
  pose proof (uncompressed_same c (chunk_of (snd x)) w h false SV CB) as U. rewrite EU in U. destruct (uncompressed_chunk c w h false) as [u'|] eqn:EU'; [|destruct U].
  exists c, u'. unfold fetch. rewrite EC. split; [reflexivity|]. split; [exact EU'|]. destruct U as (U & _). rewrite U, KU, (ro_key _ _ _ _ _ _ _ _ R _ _ EN). f_equal. destruct (Z.eqb_spec i 0); destruct (Nat.eqb_spec (Z.to_nat i) 0); lia.
Qed.

End Watching.

Lemma opened w h file f blank : format_ok w h -> ivf_open file = Ok f -> iv_fourcc f = VP80 -> iv_width f = w -> iv_height f = h ->
  player_open file blank = (let! no := seek (Z.to_nat (iv_count f)) (new_decoder w h blank) f 0 in Ok (mkPlayer (new_decoder w h blank) f no)).
Proof.
  intros [_ Fw Fh _] E E4 Ew Eh. unfold player_open. rewrite E. cbv zeta. rewrite Ew, Eh, E4. replace ((w =? 0) || (h =? 0) || (65520 <? w) || (65520 <? h)) with false by lia. reflexivity.
Qed.

(** ** The input *)

(** A reader of a container file or of raw video, of the given dimensions. *)
Inductive opened_input (w h : Z) : frame_input -> Prop :=
| opened_container file blank inp : bytes_ok file -> zlen file < 2 ^ 63 -> raster_for w h blank -> open_ivf file blank = Ok inp ->
    input_width inp = w -> input_height inp = h -> opened_input w h inp
| opened_video s inp : s_eof s = false -> bytes_ok (s_stream s) -> open_y4m s = Ok inp -> input_width inp = w -> input_height inp = h -> opened_input w h inp.

Definition input_good (w h : Z) (i : frame_input) : Prop :=
  match i with
  | FromIvf p => exists file, bytes_ok file /\ zlen file < 2 ^ 63 /\ ivf_open file = Ok (py_file p) /\ 0 <= py_no p <= iv_count (py_file p) /\ decoder_good w h (py_dec p)
  | FromY4m hd s => ym_width hd = w /\ ym_height hd = h /\ bytes_ok (s_stream s)
  end.
Lemma opened_good w h inp : 0 < w <= 3968 -> 0 < h <= 3968 -> opened_input w h inp -> input_good w h inp.
Proof.
  intros Hw Hh [file blank i B L RB E Ew Eh|s i SE B E Ew Eh].
  - unfold open_ivf in E. pose proof (C51_open file blank B L) as O. destruct (player_open file blank) as [p|]; [|discriminate]. injection E as <-. cbn in Ew, Eh. subst w h.
    destruct O as (O1 & _ & O2 & O3 & O4 & O5 & _). exists file. split; [exact B|]. split; [exact L|]. split; [exact O1|]. split; [exact O5|]. rewrite O4. apply C57_new_decoder; [lia|lia|exact RB].
  - unfold open_y4m, open_reader in E. pose proof (PropFd.C48_getline s SE) as G. destruct (getline s) as [[line|e] s1]; [|discriminate]. destruct (parse_header line) as [hd|]; [|discriminate]. injection E as <-. cbn in *. split; [exact Ew|]. split; [exact Eh|].
    destruct G as (_ & [[_ G]|(_ & _ & ->)]); [|constructor].
    + rewrite G in B. apply Forall_app in B. destruct B as [_ B]. inversion B. assumption.
Qed.

Lemma next_good w h pool scratch inp : 0 < w <= 3968 -> 0 < h <= 3968 -> (forall i, raster_for w h (pool i)) -> raster_for w h scratch -> input_good w h inp ->
  match next_frame pool scratch inp with
  | (Ok (Some r), inp') => raster_for w h r /\ input_good w h inp' /\ (input_fuel inp' < input_fuel inp)%nat
  | _ => True
  end.
Proof.
  intros Hw Hh RP RS G. destruct inp as [p|hd s]; cbn [next_frame].
  - destruct G as (file & B & L & E & Hn & GD). destruct (at_eof p) eqn:EE; [exact I|]. pose proof (C51_advance pool p Hn) as A. destruct (advance pool p) as [p' [r|e]]; [|exact I].
    destruct A as (A1 & A2 & A3 & os & W & hs & Eos & _). specialize (A3 EE).
    pose proof (watch_good file (py_file p) pool w h B L E ltac:(lia) ltac:(lia) RP (Z.to_nat (py_no p' - py_no p)) (py_dec p) (py_no p) ltac:(lia) GD) as WG. rewrite W in WG. destruct WG as (G' & _ & RR).
    split; [apply (RR true); rewrite Eos; apply in_or_app; right; left; reflexivity|]. split; [|cbn [input_fuel]; rewrite A1; lia].
    exists file. rewrite A1. split; [exact B|]. split; [exact L|]. split; [exact E|]. split; [lia|exact G'].
  - destruct G as (Ew & Eh & B). destruct (s_eof s) eqn:SE.
    + unfold get_next_frame. rewrite Ew, Eh. replace ((65520 <? w) || (65520 <? h)) with false by lia. unfold getline. cbn [getline_loop]. unfold read. rewrite SE. exact I.
    + pose proof (PropY4m.C47_read_picture hd scratch s w h Ew Eh ltac:(lia) ltac:(lia) RS B SE) as R. destruct (get_next_frame hd scratch s) as [[[r|]|e] s']; try exact I.
      destruct R as (y & u & v & ES & _ & LY & _ & _ & RR & _). split; [exact RR|]. cbn [input_good input_fuel]. rewrite ES in B |- *. split; [split; [exact Ew|split; [exact Eh|]]|].
      * apply Forall_app in B. destruct B as [_ B]. inversion B as [|? ? _ B']; subst. rewrite !app_assoc in B'. apply Forall_app in B'. apply B'.
      * rewrite !app_length. cbn [length]. rewrite !app_length. cbn [frame_word length]. lia.
Qed.

Lemma reads_total w h pool sur : 0 < w <= 3968 -> 0 < h <= 3968 -> (forall i, raster_for w h (pool i)) -> (forall i, raster_for w h (su_in (sur i))) ->
  forall n i inp, (input_fuel inp <= n)%nat -> input_good w h inp -> exists pics e, reads pool sur i inp pics e /\ Forall (raster_for w h) pics /\ (length pics < input_fuel inp)%nat.
Proof.
  intros Hw Hh RP RS. induction n as [|n IH]; intros i inp LF G; [destruct inp; cbn in LF; lia|].
  pose proof (next_good w h pool (su_in (sur i)) inp Hw Hh RP (RS i) G) as N. assert (P : (0 < input_fuel inp)%nat) by (destruct inp; cbn; lia).
  destruct (next_frame pool (su_in (sur i)) inp) as [[[r|]|e] inp'] eqn:E.
  - destruct N as (RR & G' & LT). destruct (IH (S i) inp' ltac:(lia) G') as (pics & e & R & F & L). exists (r :: pics), e. split; [eapply reads_more; eassumption|]. split; [constructor; assumption|cbn; lia].
  - exists [], None. split; [eapply reads_end; eassumption|]. split; [constructor|exact P].
  - exists [], (Some e). split; [eapply reads_error; eassumption|]. split; [constructor|exact P].
Qed.
Lemma reads_unique pool sur i inp pics e : reads pool sur i inp pics e -> forall pics' e', reads pool sur i inp pics' e' -> pics = pics' /\ e = e'.
Proof.
  induction 1 as [i inp inp' E|i inp inp' e E|i inp inp' r l e E R IH]; intros pics' e' R'; inversion R' as [? ? ? E'|? ? ? ? E'|? ? ? ? ? ? E' R2]; subst; rewrite E in E'; try discriminate; injection E'; intros; subst; try (split; reflexivity).
  destruct (IH _ _ R2) as [-> ->]. split; reflexivity.
Qed.

(** Every opened input of supported dimensions delivers one sequence of
    pictures of its dimensions, and ends or raises an exception. *)
Theorem C74_input : forall w h pool sur inp, 0 < w <= 3968 -> 0 < h <= 3968 -> (forall i, raster_for w h (pool i)) -> (forall i, raster_for w h (su_in (sur i))) -> opened_input w h inp ->
  exists pics e, reads pool sur 0 inp pics e /\ Forall (raster_for w h) pics /\ forall pics' e', reads pool sur 0 inp pics' e' -> pics' = pics /\ e' = e.
Proof.
  intros w h pool sur inp Hw Hh RP RS O. destruct (reads_total w h pool sur Hw Hh RP RS (input_fuel inp) 0 inp (le_n _) (opened_good w h inp Hw Hh O)) as (pics & e & R & F & _).
  exists pics, e. split; [exact R|]. split; [exact F|]. intros pics' e' R'. destruct (reads_unique _ _ _ _ _ _ R _ _ R') as [-> ->]. auto.
Qed.

(** From a container file: what a player of the file shows, with its exception. *)
Theorem C74_container_input : forall pool sur i p, 0 <= py_no p <= iv_count (py_file p) ->
  let '(l, _, o) := play pool p in reads pool sur i (FromIvf p) l (option_map InIvf o).
Proof.
  intros pool sur. assert (G : forall fuel i p, (Z.to_nat (iv_count (py_file p) - py_no p) <= fuel)%nat -> 0 <= py_no p <= iv_count (py_file p) ->
    let '(l, _, o) := play_loop fuel pool p in reads pool sur i (FromIvf p) l (option_map InIvf o)).
  { induction fuel as [|fuel IH]; intros i p LF Hn; cbn [play_loop]; destruct (at_eof p) eqn:EE.
    - eapply reads_end. cbn [next_frame]. rewrite EE. reflexivity.
    - unfold at_eof in EE. lia.
    - eapply reads_end. cbn [next_frame]. rewrite EE. reflexivity.
    - pose proof (C51_advance pool p Hn) as A. destruct (advance pool p) as [p' [r|e]] eqn:EA.
      + destruct A as (A1 & A2 & A3 & _). specialize (A3 EE). specialize (IH (S i) p'). rewrite A1 in IH. specialize (IH ltac:(lia) ltac:(lia)). destruct (play_loop fuel pool p') as [[l p2] o].
        eapply reads_more; [cbn [next_frame]; rewrite EE, EA; reflexivity|exact IH].
      + eapply reads_error. cbn [next_frame]. rewrite EE, EA. reflexivity. }
  intros i p Hn. apply G; [lia|exact Hn].
Qed.

(** From any raw video: the pictures up to the reader's first exception, and the
    exception. *)
Inductive pictures_in (hd : y4m_header) (sur : nat -> surroundings) : nat -> source -> list raster -> option y4m_error -> Prop :=
| pi_end i s s' : get_next_frame hd (su_in (sur i)) s = (Ok None, s') -> pictures_in hd sur i s [] None
| pi_error i s s' e : get_next_frame hd (su_in (sur i)) s = (Err e, s') -> pictures_in hd sur i s [] (Some e)
| pi_more i s s' r l e : get_next_frame hd (su_in (sur i)) s = (Ok (Some r), s') -> pictures_in hd sur (S i) s' l e -> pictures_in hd sur i s (r :: l) e.
Theorem C74_any_video_input : forall pool sur hd i s pics e, pictures_in hd sur i s pics e <-> reads pool sur i (FromY4m hd s) pics (option_map InY4m e).
Proof.
  intros pool sur hd i s pics e. split.
  - induction 1 as [i s s' E|i s s' e E|i s s' r l e E _ IH].
    + eapply reads_end. cbn [next_frame]. rewrite E. reflexivity.
    + eapply reads_error. cbn [next_frame]. rewrite E. reflexivity.
    + eapply reads_more; [cbn [next_frame]; rewrite E; reflexivity|exact IH].
  - revert i s e. induction pics as [|r pics IH]; intros i s e R; inversion R as [? ? ? E|? ? ? ? E|? ? ? ? ? ? E R']; subst; cbn [next_frame] in E; destruct (get_next_frame hd (su_in (sur i)) s) as [[x|x] s1] eqn:G; try discriminate.
    + destruct e; [discriminate|]. injection E as -> _. eapply pi_end. exact G.
    + destruct e as [e|]; [|discriminate].
      match goal with H : Some _ = option_map _ _ |- _ => injection H as H; rewrite H in E end.
      injection E as -> _. eapply pi_error. exact G.
    + injection E as -> <-. eapply pi_more; [exact G|]. apply IH. exact R'.
Qed.

(** From raw video of even dimensions that is all there: its pictures. *)
Theorem C74_video_input : forall w h sur pool hd pictures i s, ym_width hd = w -> ym_height hd = h -> 0 < w <= 65520 -> 0 < h <= 65520 -> PropY4m.even w -> PropY4m.even h ->
  (forall i, raster_for w h (su_in (sur i))) -> Forall (raster_for w h) pictures -> PropY4m.supplied s -> s_stream s = flat_map PropY4m.picture_bytes pictures ->
  exists pics, reads pool sur i (FromY4m hd s) pics None /\ Forall2 PropY4m.shows pictures pics.
Proof.
  intros w h sur pool hd. induction pictures as [|p pictures IH]; intros i s EW EH Hw Hh VW VH RS FP SU ES.
  - exists []. split; [|constructor]. destruct (PropY4m.getline_end s SU ES) as (s' & EG & EE). eapply reads_end. cbn [next_frame]. unfold get_next_frame. rewrite EW, EH. replace ((65520 <? w) || (65520 <? h)) with false by lia.
    rewrite EG, EE. reflexivity.
  - cbn [flat_map] in ES. pose proof (Forall_inv FP) as RP. apply Forall_inv_tail in FP.
    assert (BR : bytes_ok (flat_map PropY4m.picture_bytes pictures)).
    { clear -FP Hw Hh. induction FP as [|q l RQ _ IH]; [constructor|]. cbn [flat_map]. apply Forall_app. split; [|exact IH]. apply (PropY4m.raster_bytes _ _ _ RQ); lia. }
    destruct (PropY4m.C47_picture hd w h p (su_in (sur i)) s _ EW EH Hw Hh VW VH RP (RS i) SU BR ES) as (r & s1 & E & ES1 & SU1 & _ & SH).
    destruct (IH (S i) s1 EW EH Hw Hh VW VH RS FP SU1 ES1) as (pics & R & F). exists (r :: pics). split; [|constructor; assumption]. eapply reads_more; [cbn [next_frame]; rewrite E; reflexivity|exact R].
Qed.

(** ** Encoding *)

Definition ending (o : settings) (e : option input_error) : option xc_error :=
  match e with Some x => Some (XInput x) | None => if se_output_state o then Some XOutputState else None end.
(** What the encoder records about a picture: the similarity of what it keeps,
    or its smallest value if no trial of the last pass was better than that. *)
Definition quality_recorded {Q} (gt : Q -> Q -> bool) minus_one ssim (x : @api Q * list Z) (r : raster) : Prop :=
  ap_ssim (fst x) = Some (ssim (reconstruction (fst x)) r) \/ ap_ssim (fst x) = Some minus_one /\ exists p, gt (ssim p r) minus_one = false.

Lemma new_plain {Q} w h r two rt junk a : @new_api Q w h r two rt empty_key_header empty_inter_header junk = Some a -> one_partition a.
Proof. unfold new_api. destruct (_ || _); [discriminate|]. cbv zeta. destruct (safe_refs _ _); [|discriminate]. cbn [obind]. intros E. injection E as <-. split; reflexivity. Qed.
Lemma of_plain {Q} d two rt junk a : @api_of Q d two rt empty_key_header empty_inter_header junk = Some a -> one_partition a.
Proof. unfold api_of. cbv zeta. destruct (_ || _); [discriminate|]. destruct (safe_refs _ _); [|discriminate]. cbn [obind]. intros E. injection E as <-. split; reflexivity. Qed.

Lemma open_dims w h inp : opened_input w h inp -> input_width inp = w /\ input_height inp = h.
Proof. intros [? ? ? ? ? ? ? A B|? ? ? ? ? A B]; auto. Qed.

(** The program writes a file for every sequence of pictures. A player of the
    file starts at its first frame and shows, picture by picture, what the
    encoder keeps, without an exception; the qualities that the encoder records
    are those of the pictures shown. The reader's exception ends the program
    after the pictures before it; --output-state always gives one at the end. *)
Theorem C74_encode : forall Q (gt : Q -> Q -> bool) minus_one ssim combine w h o pool sur inp pics e,
  format_ok w h -> settings_ok w h o -> (forall i, raster_for w h (pool i)) -> (forall i, surroundings_ok w h (sur i)) -> opened_input w h inp ->
  reads pool sur 0 inp pics e -> zlen pics < 2 ^ 31 ->
  exists a file tr, new_api w h (se_blank o) (se_two_pass o) (se_realtime o) (se_key o) (se_inter o) (se_junk o) = Some a /\
    history gt minus_one ssim a (calls (se_mode o) sur 0 (target (se_sizes o) first_size) pics) = Some tr /\
    xc_enc gt minus_one ssim combine o pool sur inp None = (Some file, ending o e) /\
    length tr = length pics /\ Forall2 (quality_recorded gt minus_one ssim) tr pics /\ Forall (fun x => raster_for w h (reconstruction (fst x))) tr /\
    forall blank shown, raster_for w h blank -> (forall i, raster_for w h (shown i)) ->
      exists p p', player_open file blank = Ok p /\ py_no p = 0 /\ iv_width (py_file p) = w /\ iv_height (py_file p) = h /\ iv_count (py_file p) = zlen pics /\
        play shown p = (map (fun x => reconstruction (fst x)) tr, p', None) /\ at_eof p' = true.
Proof.
  intros Q gt minus_one ssim combine w h o pool sur inp pics e FO [MO EK EI EJ EB] RP SO OI R LP. pose proof FO as [F16 Fw Fh FB].
  assert (OG : input_good w h inp) by (apply opened_good; [lia|lia|exact OI]).
  destruct (reads_total w h pool sur ltac:(lia) ltac:(lia) RP (fun i => so_in _ _ _ (SO i)) (input_fuel inp) 0 inp (le_n _) OG) as (pics1 & e1 & R1 & FP & LF).
  destruct (reads_unique _ _ _ _ _ _ R1 _ _ R) as [-> ->].
  destruct (C71_new Q w h (se_blank o) (se_two_pass o) (se_realtime o) (se_key o) (se_inter o) (se_junk o) F16 Fw Fh EB) as (a & EA & GA & HA); [rewrite EK; apply C71_empty_kept|rewrite EI; apply C71_empty_kept|exact EJ|].
  assert (OP : one_partition a) by (rewrite EK, EI in EA; exact (new_plain _ _ _ _ _ _ _ EA)).
  destruct (PropIvf.open_written VP80 w h 1 1 ltac:(repeat split; lia)) as (v0 & EW & W0).
  destruct (loop_ok gt minus_one ssim w h (se_mode o) pool sur 0 FO MO SO ltac:(lia) 0 inp pics e R (input_fuel inp) (se_sizes o) first_size a v0 [] LF FP GA OP W0 ltac:(constructor) ltac:(change (zlen (@nil (list Z))) with 0; lia)) as (tr & a' & v & EH & RO & EX & WV).
  cbn [app] in WV. pose proof RO as [RL RS RB _ _ RQ RZ _].
  assert (LT : zlen (map snd tr) < 2 ^ 31) by (unfold zlen in *; rewrite map_length, RL; exact LP).
  destruct (file_ok w h 0 (map snd tr) v FO ltac:(lia) WV) as (BF & LFI & f & EO & F4 & FW & FH & _ & SH); [apply Forall_map; exact RB|apply Forall_map; exact RS|exact LT|].
  destruct (open_dims w h inp OI) as [DW DH].
  exists a, (iw_file v), tr. split; [exact EA|]. split; [exact EH|]. split.
  { unfold xc_enc. rewrite DW, DH. cbv zeta. replace ((65520 <? w) || (65520 <? h)) with false by lia. rewrite EW, EA, EX. destruct e; reflexivity. }
  split; [exact RL|]. split; [exact RQ|]. split; [exact RZ|]. intros blank shown RBl RSh.
  assert (GD : decoder_good w h (new_decoder w h blank)) by (apply C57_new_decoder; [lia|lia|exact RBl]).
  destruct (watched gt minus_one ssim w h (iw_file v) f a pics tr (new_decoder w h blank) shown BF LFI EO SH RO GD ltac:(congruence) RSh) as (p' & EP & AE).
  exists (mkPlayer (new_decoder w h blank) f 0), p'. split; [|split; [reflexivity|split; [exact FW|split; [exact FH|split; [|split; [exact EP|exact AE]]]]]].
  - rewrite (opened w h (iw_file v) f blank FO EO F4 FW FH). pose proof (frame_kinds gt minus_one ssim w h (iw_file v) f a pics tr BF LFI EO SH RO) as FK. destruct (frame_chunk _ _ BF LFI EO) as [HC _].
    destruct (Z.to_nat (iv_count f)) as [|n] eqn:EN; cbn [seek].
    + destruct (Z.ltb_spec 0 (iv_count f)); [lia|reflexivity].
    + destruct (Z.ltb_spec 0 (iv_count f)); [|lia]. destruct (FK 0 ltac:(lia)) as (c & u & E1 & E2 & E3). rewrite E1. cbn [new_decoder dc_state dc_conceal fresh_state ds_w ds_h]. rewrite E2, E3, HA. reflexivity.
  - destruct SH as (S1 & _). cbn [py_file]. rewrite S1. unfold zlen. rewrite map_length, RL. reflexivity.
Qed.

(** Continuing from a decoder: the file says which state it belongs to. A player
    with that state accepts the file and shows what the encoder keeps; a player
    without it takes no frame of the file, and says nothing. *)
Theorem C74_continue : forall Q (gt : Q -> Q -> bool) minus_one ssim combine w h o pool sur inp pics e d,
  format_ok w h -> settings_ok w h o -> (forall i, raster_for w h (pool i)) -> (forall i, surroundings_ok w h (sur i)) -> opened_input w h inp ->
  reads pool sur 0 inp pics e -> zlen pics < 2 ^ 31 -> decoder_good w h d -> ds_seg (dc_state d) = None ->
  exists a file f tr, api_of d (se_two_pass o) (se_realtime o) (se_key o) (se_inter o) (se_junk o) = Some a /\
    history gt minus_one ssim a (calls (se_mode o) sur 0 (target (se_sizes o) first_size) pics) = Some tr /\
    xc_enc gt minus_one ssim combine o pool sur inp (Some d) = (Some file, ending o e) /\
    length tr = length pics /\ Forall2 (quality_recorded gt minus_one ssim) tr pics /\
    ivf_open file = Ok f /\ iv_width f = w /\ iv_height f = h /\ iv_count f = zlen pics /\ iv_hash f = minihash combine d /\
    forall shown, (forall i, raster_for w h (shown i)) ->
      (exists p p', player_resume combine d f = Ok p /\ play shown p = (map (fun x => reconstruction (fst x)) tr, p', None) /\ at_eof p' = true) /\
      forall blank, exists p, player_open file blank = Ok p /\ play shown p = ([], p, None).
Proof.
  intros Q gt minus_one ssim combine w h o pool sur inp pics e d FO [MO EK EI EJ EB] RP SO OI R LP GD SD. pose proof FO as [F16 Fw Fh FB].
  assert (OG : input_good w h inp) by (apply opened_good; [lia|lia|exact OI]).
  destruct (reads_total w h pool sur ltac:(lia) ltac:(lia) RP (fun i => so_in _ _ _ (SO i)) (input_fuel inp) 0 inp (le_n _) OG) as (pics1 & e1 & R1 & FP & LF).
  destruct (reads_unique _ _ _ _ _ _ R1 _ _ R) as [-> ->].
  destruct (C71_continue Q w h d (se_two_pass o) (se_realtime o) (se_key o) (se_inter o) (se_junk o) F16 Fw Fh GD SD) as (a & EA & GA & HA & IS); [rewrite EK; apply C71_empty_kept|rewrite EI; apply C71_empty_kept|exact EJ|].
  assert (OP : one_partition a) by (rewrite EK, EI in EA; exact (of_plain _ _ _ _ _ EA)).
  assert (MH : wrap 32 (hash_of combine (get_hash combine (exported a))) = minihash combine d).
  { unfold minihash, get_hash, exported. cbn [dc_state dc_refs]. destruct IS as [IS _]. rewrite <- IS. reflexivity. }
  assert (HR : 0 <= minihash combine d < 2 ^ 32) by (unfold minihash; apply wrap_pos; lia).
  destruct (PropIvf.open_written VP80 w h 1 1 ltac:(repeat split; lia)) as (v0 & EW & W0). apply (PropIvf.hash_written VP80 w h 1 1 0 _ _ (minihash combine d) eq_refl) in W0.
  destruct (loop_ok gt minus_one ssim w h (se_mode o) pool sur (minihash combine d) FO MO SO HR 0 inp pics e R (input_fuel inp) (se_sizes o) first_size a (writer_set_hash v0 (minihash combine d)) [] LF FP GA OP W0 ltac:(constructor) ltac:(change (zlen (@nil (list Z))) with 0; lia)) as (tr & a' & v & EH & RO & EX & WV).
  cbn [app] in WV. pose proof RO as [RL RS RB _ _ RQ RZ _].
  assert (LT : zlen (map snd tr) < 2 ^ 31) by (unfold zlen in *; rewrite map_length, RL; exact LP).
  destruct (file_ok w h (minihash combine d) (map snd tr) v FO HR WV) as (BF & LFI & f & EO & F4 & FW & FH & HF & SH); [apply Forall_map; exact RB|apply Forall_map; exact RS|exact LT|].
  destruct (open_dims w h inp OI) as [DW DH].
  exists a, (iw_file v), f, tr. split; [exact EA|]. split; [exact EH|]. split.
  { unfold xc_enc. rewrite DW, DH. cbv zeta. replace ((65520 <? w) || (65520 <? h)) with false by lia. rewrite EW, EA, MH, EX. destruct e; reflexivity. }
  split; [exact RL|]. split; [exact RQ|]. split; [exact EO|]. split; [exact FW|]. split; [exact FH|].
  split; [destruct SH as (S1 & _); rewrite S1; unfold zlen; rewrite map_length, RL; reflexivity|]. split; [exact HF|]. intros shown RSh. split.
  - destruct (watched gt minus_one ssim w h (iw_file v) f a pics tr d shown BF LFI EO SH RO GD (fun _ => IS) RSh) as (p' & EP & AE).
    exists (mkPlayer d f 0), p'. split; [|split; [exact EP|exact AE]]. apply C51_resume. pose proof GD as [[Ew Eh _ _ _] _ _ _]. rewrite Ew, Eh. auto 8.
  - intros blank. exists (mkPlayer (new_decoder w h blank) f (iv_count f)). rewrite (opened w h (iw_file v) f blank FO EO F4 FW FH).
    pose proof (frame_kinds gt minus_one ssim w h (iw_file v) f a pics tr BF LFI EO SH RO) as FK. destruct (frame_chunk _ _ BF LFI EO) as [HC _].
    assert (SK : forall fuel no, (Z.to_nat (iv_count f - no) <= fuel)%nat -> 0 <= no <= iv_count f -> seek fuel (new_decoder w h blank) f no = Ok (iv_count f)).
    { induction fuel as [|fuel IH]; intros no L1 L2; cbn [seek]; (destruct (Z.ltb_spec no (iv_count f)); [|f_equal; lia]); [lia|].
      destruct (FK no ltac:(lia)) as (c & u & E1 & E2 & E3). rewrite E1. cbn [new_decoder dc_state dc_conceal fresh_state ds_w ds_h]. rewrite E2, E3, HA. rewrite andb_false_r. apply IH; lia. }
    rewrite SK by lia. split; [reflexivity|]. unfold play. cbn [py_file py_no]. rewrite Z.sub_diag. cbn [Z.to_nat play_loop]. unfold at_eof. cbn [py_no py_file]. rewrite Z.eqb_refl. reflexivity.
Qed.

(** A state of other dimensions: the first picture ends the program, and the file
    has no frames. *)
Theorem C74_wrong_size : forall Q (gt : Q -> Q -> bool) minus_one ssim combine w h w' h' o pool sur inp r pics e d,
  format_ok w h -> format_ok w' h' -> (w, h) <> (w', h') -> se_key o = empty_key_header -> se_inter o = empty_inter_header ->
  (forall i, zlen (se_junk o i) = (w' + 512) * (h' + 512)) ->
  (forall i, raster_for w h (pool i)) -> (forall i, raster_for w h (su_in (sur i))) -> opened_input w h inp ->
  reads pool sur 0 inp (r :: pics) e -> decoder_good w' h' d -> ds_seg (dc_state d) = None ->
  exists file f, xc_enc gt minus_one ssim combine o pool sur inp (Some d) = (Some file, Some XScaling) /\
    ivf_open file = Ok f /\ iv_count f = 0 /\ iv_width f = w /\ iv_height f = h /\ iv_hash f = minihash combine d.
Proof.
  intros Q gt minus_one ssim combine w h w' h' o pool sur inp r pics e d FO [F16 Fw Fh FB] NE EK EI EJ RP RS OI R GD SD. pose proof FO as [_ Ow Oh _].
  assert (OG : input_good w h inp) by (apply opened_good; [lia|lia|exact OI]).
  destruct (reads_total w h pool sur ltac:(lia) ltac:(lia) RP RS (input_fuel inp) 0 inp (le_n _) OG) as (pics1 & e1 & R1 & FP & LF).
  destruct (reads_unique _ _ _ _ _ _ R1 _ _ R) as [-> ->].
  destruct (C71_continue Q w' h' d (se_two_pass o) (se_realtime o) (se_key o) (se_inter o) (se_junk o) F16 Fw Fh GD SD) as (a & EA & GA & HA & IS); [rewrite EK; apply C71_empty_kept|rewrite EI; apply C71_empty_kept|exact EJ|].
  assert (MH : wrap 32 (hash_of combine (get_hash combine (exported a))) = minihash combine d).
  { unfold minihash, get_hash, exported. cbn [dc_state dc_refs]. destruct IS as [IS _]. rewrite <- IS. reflexivity. }
  assert (HR : 0 <= minihash combine d < 2 ^ 32) by (unfold minihash; apply wrap_pos; lia).
  destruct (PropIvf.open_written VP80 w h 1 1 ltac:(repeat split; lia)) as (v0 & EW & W0). apply (PropIvf.hash_written VP80 w h 1 1 0 _ _ (minihash combine d) eq_refl) in W0.
  destruct (file_ok w h (minihash combine d) [] _ FO HR W0) as (_ & _ & f & EO & _ & FW & FH & HF & SH); [constructor|constructor|reflexivity|].
  destruct (open_dims w h inp OI) as [DW DH].
  exists (iw_file (writer_set_hash v0 (minihash combine d))), f. split.
  - unfold xc_enc. rewrite DW, DH. cbv zeta. replace ((65520 <? w) || (65520 <? h)) with false by lia. rewrite EW, EA, MH.
    destruct (input_fuel inp) as [|fuel]; [lia|]. cbn [xc_loop].
    assert (EN : exists inp', next_frame pool (su_in (sur 0%nat)) inp = (Ok (Some r), inp')) by (inversion R; subst; eauto). destruct EN as [inp' ->].
    destruct (choose (se_mode o) (sur 0%nat) (se_sizes o) first_size) as [[c s'] last'].
    rewrite (C71_other_size Q gt minus_one ssim w' h' a c (job_of (sur 0%nat) r) GA); [reflexivity|].
    apply Forall_inv in FP. destruct FP as (_ & E1 & E2). intros [S1 S2]. cbn [job_of jb_raster] in S1, S2. apply NE. congruence.
  - split; [exact EO|]. destruct SH as (S1 & _). split; [exact S1|]. auto.
Qed.

(** ** The sizes *)

Definition space (c : Z) : Prop := c = 32 \/ 9 <= c <= 13.
Definition digit (c : Z) : Prop := 48 <= c <= 57.
Fixpoint value (ds : list Z) : Z := match ds with [] => 0 | c :: r => (c - 48) * 10 ^ zlen r + value r end.
(** Spaces (at least one, but for the first number) and the digits of a number. *)
Record entry (first : bool) (x : list Z * list Z) : Prop := {
  ey_spaces : Forall space (fst x); ey_apart : first = false -> fst x <> [];
  ey_digits : Forall digit (snd x); ey_some : snd x <> []
}.
Fixpoint listing (l : list (list Z * list Z)) : list Z := match l with [] => [] | x :: l => fst x ++ snd x ++ listing l end.
Definition fits (x : list Z * list Z) : Prop := value (snd x) < 2 ^ 64.

(** What is after the numbers, and the size it stands for: the last one before
    it, if there is nothing; 0, if it is not a number; the largest, if it is too
    large. *)
Inductive remainder (last : Z) : list Z -> Z -> Prop :=
| rm_nothing l : Forall space l -> remainder last l last
| rm_word l c r : Forall space l -> ~ space c -> ~ digit c -> c <> 43 -> c <> 45 -> remainder last (l ++ c :: r) 0
| rm_large l ds r : Forall space l -> l <> [] -> Forall digit ds -> 2 ^ 64 <= value ds -> (forall c r', r = c :: r' -> ~ digit c) -> remainder last (l ++ ds ++ r) (2 ^ 64 - 1).

Lemma is_space_spec c : is_space c = true <-> space c.
Proof. unfold is_space, space. lia. Qed.
Lemma is_digit_spec c : is_digit c = true <-> digit c.
Proof. unfold is_digit, digit. lia. Qed.
Lemma skip_all l r : Forall space l -> (forall c r', r = c :: r' -> ~ space c) -> skip_spaces (l ++ r) = r.
Proof.
  induction 1 as [|c l H _ IH]; intros N; cbn [app].
  - destruct r as [|c r]; [reflexivity|]. cbn [skip_spaces]. destruct (is_space c) eqn:E; [|reflexivity]. apply is_space_spec in E. destruct (N _ _ eq_refl E).
  - cbn [skip_spaces]. rewrite (proj2 (is_space_spec c) H). apply IH, N.
Qed.
Lemma digits_all ds r : Forall digit ds -> (forall c r', r = c :: r' -> ~ digit c) -> leading_digits (ds ++ r) = ds.
Proof.
  induction 1 as [|c l H _ IH]; intros N; cbn [app].
  - destruct r as [|c r]; [reflexivity|]. cbn [leading_digits]. destruct (is_digit c) eqn:E; [|reflexivity]. apply is_digit_spec in E. destruct (N _ _ eq_refl E).
  - cbn [leading_digits]. rewrite (proj2 (is_digit_spec c) H), IH by exact N. reflexivity.
Qed.
Lemma number_value ds : number ds = value ds.
Proof.
  unfold number. assert (G : forall ds acc, fold_left (fun v c => 10 * v + (c - 48)) ds acc = acc * 10 ^ zlen ds + value ds).
  { clear ds. induction ds as [|c ds IH]; intros acc; cbn [fold_left value]; [change (zlen (@nil Z)) with 0; lia|]. rewrite IH. unfold zlen. cbn [length]. rewrite Nat2Z.inj_succ, Z.pow_succ_r by lia. ring. }
  rewrite G. lia.
Qed.
Lemma value_nonneg ds : Forall digit ds -> 0 <= value ds.
Proof. induction 1 as [|c l H _ IH]; cbn [value]; [lia|]. unfold digit in H. assert (0 <= (c - 48) * 10 ^ zlen l) by (apply Z.mul_nonneg_nonneg; [lia|apply Z.pow_nonneg; lia]). lia. Qed.

Lemma extract_number l ds r old : Forall space l -> Forall digit ds -> ds <> [] -> (forall c r', r = c :: r' -> ~ digit c) ->
  extract_size (mkStream (l ++ ds ++ r) false false) old =
    (if 2 ^ 64 <=? value ds then 2 ^ 64 - 1 else value ds, mkStream r (match r with [] => true | _ => false end) (2 ^ 64 <=? value ds)).
Proof.
  intros L D N R. unfold extract_size. cbn [st_eof st_fail st_rest orb]. pose proof (value_nonneg ds D) as V.
  rewrite skip_all; [|exact L|]. 2: { intros c r' E. destruct ds as [|c0 ds]; [congruence|]. injection E as -> _. apply Forall_inv in D. unfold digit, space in *. lia. }
  pose proof (digits_all ds r D R) as LD. destruct ds as [|c ds]; [congruence|]. cbn [app] in *. pose proof (Forall_inv D) as C. unfold digit in C.
  destruct (Z.eqb_spec c 45); [lia|]. destruct (Z.eqb_spec c 43); [lia|]. cbv zeta beta iota. rewrite LD.
  change (c :: ds ++ r) with ((c :: ds) ++ r). rewrite skipn_app, skipn_all, Nat.sub_diag. cbn [app skipn]. rewrite number_value.
  destruct (Z.leb_spec (2 ^ 64) (value (c :: ds))); [reflexivity|]. unfold wrap. rewrite Z.mod_small by lia. reflexivity.
Qed.

Lemma target_stuck : forall k s last, st_fail s = true \/ st_eof s = true -> target s last k = last.
Proof.
  induction k as [|k IH]; intros s last H; cbn [target]; unfold next_size; (destruct (st_eof s) eqn:EE; [try reflexivity|]).
  - unfold extract_size. destruct H as [H|H]; [|congruence]. rewrite EE, H. reflexivity.
  - apply IH. auto.
  - unfold extract_size. destruct H as [H|H]; [|congruence]. rewrite EE, H. cbn [orb]. apply IH. auto.
Qed.

Lemma target_remainder last t x : remainder last t x -> forall k, target (mkStream t false false) last k = x.
Proof.
  intros H k. assert (G : forall n s', next_size (mkStream t false false) last = (n, s') -> n = x /\ (st_fail s' = true \/ st_eof s' = true) -> target (mkStream t false false) last k = x).
  { intros n s' E (-> & ST). destruct k as [|k]; cbn [target]; rewrite E; [reflexivity|]. apply target_stuck. exact ST. }
  destruct H as [l SL|l c r SL NS ND N43 N45|l ds r SL NE D BIG R].
  - eapply G; [unfold next_size; cbn [st_eof]; unfold extract_size; cbn [st_eof st_fail st_rest orb]; rewrite <- (app_nil_r l), (skip_all l []) by (exact SL || discriminate); reflexivity|]. cbn [st_fail]. auto.
  - eapply G; [unfold next_size; cbn [st_eof]; unfold extract_size; cbn [st_eof st_fail st_rest orb]; rewrite skip_all by (try exact SL; intros ? ? E; injection E as -> _; exact NS);
      destruct (Z.eqb_spec c 45); [congruence|]; destruct (Z.eqb_spec c 43); [congruence|]; cbv zeta beta iota; cbn [leading_digits];
      (destruct (is_digit c) eqn:EC; [apply is_digit_spec in EC; contradiction|]); cbn [length skipn]; reflexivity|]. cbn [st_fail]. auto.
  - assert (ND : ds <> []) by (intros ->; cbn [value] in BIG; lia).
    eapply G; [unfold next_size; cbn [st_eof]; apply extract_number; assumption|]. cbn [st_fail]. destruct (Z.leb_spec (2 ^ 64) (value ds)); [auto|lia].
Qed.

Lemma remainder_nil last t x : remainder last t x -> t = [] -> x = last.
Proof. intros [l SL|l c r|l ds r SL NE] E; [reflexivity|destruct l; discriminate|]. destruct l; [congruence|discriminate]. Qed.

Definition entries (l : list (list Z * list Z)) : Prop := match l with [] => True | x :: l => entry true x /\ Forall (entry false) l end.
(** A space or a letter after a number ends it. *)
Definition ends_number (l : list (list Z * list Z)) (t : list Z) : Prop := l = [] \/ forall c r, t = c :: r -> ~ digit c.

(** The k-th picture gets the k-th number of the file, and what the remainder
    stands for when there are no more. *)
Theorem C74_sizes : forall l t x k,
  entries l -> Forall fits l -> ends_number l t -> remainder (last (map (fun y => value (snd y)) l) first_size) t x ->
  target (stream_of (listing l ++ t)) first_size k = nth k (map (fun y => value (snd y)) l) x.
Proof.
  assert (G : forall l b t x k old, match l with [] => True | y :: l => entry b y /\ Forall (entry false) l end -> Forall fits l -> ends_number l t ->
    remainder (last (map (fun y => value (snd y)) l) old) t x -> target (mkStream (listing l ++ t) false false) old k = nth k (map (fun y => value (snd y)) l) x).
  { induction l as [|y l IH]; intros b t x k old EN FI ND R; cbn [listing app].
    - cbn [map last] in R. rewrite (target_remainder _ _ _ R). cbn [map]. destruct k; reflexivity.
    - destruct EN as [[SP _ DI SO] EN]. pose proof (Forall_inv FI) as FY. apply Forall_inv_tail in FI. unfold fits in FY.
      assert (NXT : forall c r', listing l ++ t = c :: r' -> ~ digit c).
      { intros c r' E. destruct l as [|z l]; cbn [listing app] in E; [destruct ND as [ND|ND]; [discriminate|exact (ND _ _ E)]|].
        apply Forall_inv in EN. destruct EN as [SPz APz _ _]. destruct (fst z) as [|c0 ?]; [destruct (APz eq_refl eq_refl)|]. injection E as -> _. apply Forall_inv in SPz. unfold space, digit in *. lia. }
      rewrite <- !app_assoc.
      assert (EX : next_size (mkStream (fst y ++ snd y ++ listing l ++ t) false false) old = (value (snd y), mkStream (listing l ++ t) (match listing l ++ t with [] => true | _ => false end) false)).
      { unfold next_size. cbn [st_eof]. rewrite extract_number by assumption. destruct (Z.leb_spec (2 ^ 64) (value (snd y))); [lia|reflexivity]. }
      destruct k as [|k]; cbn [target map nth]; rewrite EX; [reflexivity|].
      assert (RL : last (map (fun z => value (snd z)) (y :: l)) old = last (map (fun z => value (snd z)) l) (value (snd y))).
      { cbn [map]. generalize (map (fun z : list Z * list Z => value (snd z)) l). intros m. generalize (value (snd y)). clear. induction m as [|v m IH]; intros n; [reflexivity|]. cbn [last] in *. destruct m; [reflexivity|apply (IH n)]. }
      rewrite RL in R.
      destruct (listing l ++ t) as [|c rest] eqn:EL.
      + rewrite target_stuck by (right; reflexivity). apply app_eq_nil in EL. destruct EL as [EL ->].
        destruct l as [|z l]; [|exfalso; apply Forall_inv in EN; destruct EN as [_ APz _ _]; cbn [listing] in EL; apply app_eq_nil in EL; destruct EL as [EL _]; exact (APz eq_refl EL)].
        cbn [map last] in R. assert (XE : x = value (snd y)); [|rewrite XE; destruct k; reflexivity].
        exact (remainder_nil _ _ _ R eq_refl).
      + rewrite <- EL. apply (IH false); [|exact FI|destruct ND as [ND|ND]; [discriminate|right; exact ND]|exact R].
        destruct l as [|z l]; [exact I|]. split; [exact (Forall_inv EN)|exact (Forall_inv_tail EN)]. }
  intros l t x k EN FI ND R. exact (G l true t x k first_size EN FI ND R).
Qed.
(** Without a file of sizes there is no limit. *)
Theorem C74_no_sizes : forall k, target no_stream first_size k = first_size.
Proof. intros k. apply target_stuck. left. reflexivity. Qed.

(** ** Decoding *)

(** A Y4M file with these pictures, with the header before the first. *)
Definition video (l : list raster) : list Z :=
  match l with [] => [] | r :: _ => header_string (header_for r) ++ flat_map PropY4m.picture_bytes l end.

Lemma begun out (l : list raster) : out <> [] -> (match out, l with [], r :: _ => header_string (header_for r) | _, _ => out end) = out.
Proof. destruct out; [congruence|reflexivity]. Qed.
Lemma decode_loop w h pool : 0 < w <= 65520 -> 0 < h <= 65520 -> forall fuel p l p' e out, play_loop fuel pool p = (l, p', e) -> Forall (raster_for w h) l ->
  vp8decode_loop fuel pool p out = ((match out, l with [], r :: _ => header_string (header_for r) | _, _ => out end) ++ flat_map PropY4m.picture_bytes l, p', option_map VPlayer e).
Proof.
  intros Hw Hh. induction fuel as [|fuel IH]; intros p l p' e out E F; cbn [play_loop vp8decode_loop] in *.
  - assert (l = [] /\ p' = p /\ e = None) as (-> & -> & ->) by (destruct (at_eof p); injection E as <- <- <-; auto). destruct (at_eof p), out; cbn [flat_map option_map]; rewrite ?app_nil_r; reflexivity.
  - destruct (at_eof p). { injection E as <- <- <-. destruct out; cbn [flat_map option_map]; rewrite ?app_nil_r; reflexivity. }
    destruct (advance pool p) as [p1 [r|er]].
    + destruct (play_loop fuel pool p1) as [[l1 p2] o1] eqn:EL. injection E as <- <- <-. pose proof (Forall_inv F) as RF. apply Forall_inv_tail in F. cbv zeta.
      destruct (PropY4m.display_rectangle_spec w h r ltac:(lia) ltac:(lia) RF ltac:(lia)) as (d & ED & _ & CD). rewrite ED.
      assert (PB : PropY4m.picture_bytes r = frame_word ++ [10] ++ concat d).
      { unfold PropY4m.picture_bytes. destruct RF as (_ & -> & ->). rewrite CD. cbv zeta. reflexivity. }
      rewrite (IH p1 l1 p2 o1 _ EL F). cbn [flat_map]. rewrite PB. f_equal. f_equal. rewrite begun.
      * destruct out as [|c out]; [change (zlen (@nil Z) =? 0) with true; cbv iota; rewrite app_nil_l|replace (zlen (c :: out) =? 0) with false by (unfold zlen; cbn [length]; lia)]; rewrite <- !app_assoc; reflexivity.
      * intros EE. apply app_eq_nil in EE. destruct EE as [_ EE]. discriminate.
    + injection E as <- <- <-. destruct out; cbn [flat_map option_map]; rewrite ?app_nil_r; reflexivity.
Qed.

(** vp8decode writes the pictures that a player shows. *)
Theorem C74_vp8decode : forall w h pool p l p' e, 0 < w <= 65520 -> 0 < h <= 65520 -> play pool p = (l, p', e) -> Forall (raster_for w h) l ->
  vp8decode pool p = (video l, p', option_map VPlayer e).
Proof.
  intros w h pool p l p' e Hw Hh E F. unfold vp8decode. unfold play in E. rewrite (decode_loop w h pool Hw Hh _ _ _ _ _ [] E F). f_equal. f_equal. destruct l; reflexivity.
Qed.

(** For every file that opens. *)
Theorem C74_decode_any : forall file pool blank p, bytes_ok file -> zlen file < 2 ^ 63 -> player_open file blank = Ok p ->
  let w := iv_width (py_file p) in let h := iv_height (py_file p) in
  w <= 16383 -> h <= 16383 -> raster_for w h blank -> (forall i, raster_for w h (pool i)) ->
  let '(l, p', e) := play pool p in Forall (raster_for w h) l /\ vp8decode pool p = (video l, p', option_map VPlayer e).
Proof.
  intros file pool blank p B L O w h Hw Hh RB RP. pose proof (C51_any_file file pool blank p B L O Hw Hh RB RP) as A. pose proof (C51_open file blank B L) as OP. rewrite O in OP. destruct OP as (_ & _ & W & H & _).
  destruct (play pool p) as [[l p'] e] eqn:E. destruct A as (F & _). split; [exact F|]. apply (C74_vp8decode w h pool p l p' e); [subst w; lia|subst h; lia|exact E|exact F].
Qed.

Lemma header_bytes hd : PropY4m.header_ok hd -> bytes_ok (header_string hd).
Proof.
  intros (A & B & C & D & E & F).
  assert (DB : forall n, PropY4m.uint16 n -> bytes_ok (decimal n)).
  { intros n U. refine (Forall_impl _ _ (proj1 (proj2 (PropY4m.decimal_spec n U)))). intros c K. apply is_digit_spec in K. unfold digit in K. unfold byte_ok; lia. }
  assert (K1 : forall c l, 0 <= c < 256 -> bytes_ok l -> bytes_ok (c :: l)) by (intros; constructor; assumption).
  unfold header_string, header_line, magic. apply Forall_app. split; [|repeat constructor; lia].
  repeat match goal with |- Forall _ (decimal _) => apply DB; assumption | |- Forall _ (_ ++ _) => apply Forall_app; split | |- Forall _ (_ :: _) => constructor; [unfold byte_ok; try lia|] | |- Forall _ [] => constructor end.
  - destruct (ym_inter hd); cbn [interlacing_letter]; lia.
  - destruct (ym_colour hd); repeat constructor; unfold byte_ok; lia.
Qed.

(** From raw video to raw video. *)
Theorem C74_pipeline : forall Q (gt : Q -> Q -> bool) minus_one ssim combine w h o pool sur hd source pictures blank shown,
  format_ok w h -> h mod 2 = 0 -> settings_ok w h o -> (forall i, raster_for w h (pool i)) -> (forall i, surroundings_ok w h (sur i)) ->
  PropY4m.header_ok hd -> ym_width hd = w -> ym_height hd = h -> PropY4m.is_420 (ym_colour hd) = true ->
  Forall (raster_for w h) pictures -> zlen pictures < 2 ^ 31 -> PropY4m.supplied source -> s_stream source = header_string hd ++ flat_map PropY4m.picture_bytes pictures ->
  raster_for w h blank -> (forall i, raster_for w h (shown i)) ->
  exists inp pics a file tr p p', open_y4m source = Ok inp /\ reads pool sur 0 inp pics None /\ Forall2 PropY4m.shows pictures pics /\
    new_api w h (se_blank o) (se_two_pass o) (se_realtime o) (se_key o) (se_inter o) (se_junk o) = Some a /\
    history gt minus_one ssim a (calls (se_mode o) sur 0 (target (se_sizes o) first_size) pics) = Some tr /\
    xc_enc gt minus_one ssim combine o pool sur inp None = (Some file, ending o None) /\
    player_open file blank = Ok p /\ length tr = length pictures /\
    vp8decode shown p = (video (map (fun x => reconstruction (fst x)) tr), p', None) /\
    forall s2 scratches, pictures <> [] -> PropY4m.supplied s2 -> s_stream s2 = video (map (fun x => reconstruction (fst x)) tr) ->
      Forall (raster_for w h) scratches -> length scratches = S (length pictures) ->
      exists s3 rs s4, open_reader s2 = (Ok (mkY4m w h 24 1 1 1 Progressive C420), s3) /\ read_all (mkY4m w h 24 1 1 1 Progressive C420) scratches s3 = (Ok rs, s4) /\
        Forall2 PropY4m.shows (map (fun x => reconstruction (fst x)) tr) rs.
Proof.
  intros Q gt minus_one ssim combine w h o pool sur hd source pictures blank shown FO H2 SO RP SU HO EW EH C4 FP LP SS ES RB RS. pose proof FO as [F16 Fw Fh _].
  assert (VW : PropY4m.even w) by (unfold PropY4m.even; lia). assert (VH : PropY4m.even h) by (unfold PropY4m.even; lia).
  destruct (PropY4m.C47_open hd source _ HO ltac:(lia) ltac:(lia) C4 SS ES) as (s1 & EO & E1 & S1). rewrite EW, EH in EO.
  set (hd1 := mkY4m w h (ym_fps_n hd) (ym_fps_d hd) (ym_par_n hd) (ym_par_d hd) (ym_inter hd) C420) in *.
  destruct (C74_video_input w h sur pool hd1 pictures 0 s1 eq_refl eq_refl ltac:(lia) ltac:(lia) VW VH (fun i => so_in _ _ _ (SU i)) FP S1 E1) as (pics & R & SH).
  assert (LE : length pictures = length pics) by (clear -SH; induction SH; cbn [length]; congruence).
  assert (BR : bytes_ok (flat_map PropY4m.picture_bytes pictures)).
  { clear -FP Fw Fh. induction FP as [|q l RQ _ IH]; [constructor|]. cbn [flat_map]. apply Forall_app. split; [|exact IH]. apply (PropY4m.raster_bytes _ _ _ RQ); lia. }
  assert (OY : open_y4m source = Ok (FromY4m hd1 s1)) by (unfold open_y4m; rewrite EO; reflexivity).
  assert (OI : opened_input w h (FromY4m hd1 s1)).
  { apply (opened_video w h source); [exact (proj1 SS)|rewrite ES; apply Forall_app; split; [apply header_bytes, HO|exact BR]|exact OY|reflexivity|reflexivity]. }
  destruct (C74_encode Q gt minus_one ssim combine w h o pool sur _ pics None FO SO RP SU OI R ltac:(unfold zlen in *; lia)) as (a & file & tr & EA & ET & EX & LT & _ & FZ & PL).
  destruct (PL blank shown RB RS) as (p & p' & OP & _ & _ & _ & _ & EP & _).
  assert (FM : Forall (raster_for w h) (map (fun x => reconstruction (fst x)) tr)) by (apply Forall_map; exact FZ).
  exists (FromY4m hd1 s1), pics, a, file, tr, p, p'. split; [exact OY|]. split; [exact R|]. split; [exact SH|]. split; [exact EA|]. split; [exact ET|]. split; [exact EX|]. split; [exact OP|]. split; [congruence|].
  split; [exact (C74_vp8decode w h shown p _ p' None ltac:(lia) ltac:(lia) EP FM)|].
  intros s2 scratches NE S2 E2 FS LS. destruct (map (fun x => reconstruction (fst x)) tr) as [|r0 rs0] eqn:EM.
  { exfalso. apply NE. destruct pictures; [reflexivity|]. destruct tr; [cbn [length] in *; lia|discriminate]. }
  cbn [video] in E2. pose proof (Forall_inv FM) as (_ & D1 & D2).
  destruct (PropY4m.C47_open (header_for r0) s2 _ ltac:(unfold PropY4m.header_ok, PropY4m.uint16, header_for; cbn [ym_width ym_height ym_fps_n ym_fps_d ym_par_n ym_par_d]; lia) ltac:(cbn [header_for ym_width]; lia) ltac:(cbn [header_for ym_height]; lia) eq_refl S2 E2) as (s3 & EO3 & E3 & S3).
  cbn [header_for ym_width ym_height ym_fps_n ym_fps_d ym_par_n ym_par_d ym_inter] in EO3. rewrite D1, D2 in EO3.
  destruct (PropY4m.C47_file (mkY4m w h 24 1 1 1 Progressive C420) w h (r0 :: rs0) scratches s3 eq_refl eq_refl ltac:(lia) ltac:(lia) VW VH FM FS) as (rs & s4 & E4 & F4 & _); [rewrite <- EM, map_length; lia|exact S3|exact E3|].
  exists s3, rs, s4. auto.
Qed.

(** ** Examples *)

Import PropEncode.

Definition ex_around (_ : nat) : surroundings := mkSurroundings ex_r32 (fun _ y => 200 - y) (fun _ => ex_trial) ex_r32 ex_r32 (fun _ => ex_junk).
(** "90 70" and a line end. *)
Definition ex_settings (state : bool) : settings := mkSettings TargetFrameSize true false (stream_of [57; 48; 32; 55; 48; 10]) state empty_key_header empty_inter_header (fun _ => ex_junk) ex_r32.
Definition ex_film : list Z := header_string (header_for ex_o32) ++ flat_map PropY4m.picture_bytes [ex_o32; ex_r32].
Definition ex_source (tail : list Z) : source := mkSource (ex_film ++ tail) (repeat (Upto 7) (Z.to_nat 1700)) false.

Lemma ex_format : format_ok 32 16.
Proof. constructor; [reflexivity|lia|lia|vm_compute; discriminate]. Qed.
Lemma ex_settings_ok b : settings_ok 32 16 (ex_settings b).
Proof. constructor; [exact I|reflexivity|reflexivity|exact ex_junk_ok|exact ex_r32_for]. Qed.
Lemma ex_around_ok i : surroundings_ok 32 16 (ex_around i).
Proof. pose proof ex_job_ok as [A B C D]. constructor; [exact ex_r32_for|exact B|exact ex_r32_for|exact ex_junk_ok]. Qed.
Lemma ex_o32_for : raster_for 32 16 ex_o32.
Proof. exact (jbo_o _ _ _ ex_job_ok). Qed.
Lemma ex_supplied tail : zlen tail <= 10 -> PropY4m.supplied (ex_source tail).
Proof.
  intros L. split; [reflexivity|]. split.
  - unfold PropFd.no_refusal, ex_source. cbn [s_answers]. apply Forall_forall. intros a H. apply repeat_spec in H. subst a. discriminate.
  - unfold ex_source. cbn [s_stream s_answers]. unfold zlen in *. rewrite app_length, repeat_length, Nat2Z.inj_add, Z2Nat.id by lia.
    assert (E : Z.of_nat (length ex_film) = 1596) by (vm_compute; reflexivity). lia.
Qed.

(** Raw video of two pictures; the target sizes are 90, 70, 70, ... *)
Example C74_pipeline_example :
  format_ok 32 16 /\ settings_ok 32 16 (ex_settings false) /\ (forall i, surroundings_ok 32 16 (ex_around i)) /\
  PropY4m.header_ok (header_for ex_o32) /\ Forall (raster_for 32 16) [ex_o32; ex_r32] /\ PropY4m.supplied (ex_source []) /\ s_stream (ex_source []) = ex_film ++ [] /\
  map (target (se_sizes (ex_settings false)) first_size) [0; 1; 2; 3]%nat = [90; 70; 70; 70].
Proof.
  split; [exact ex_format|]. split; [apply ex_settings_ok|]. split; [exact ex_around_ok|].
  split; [unfold PropY4m.header_ok, PropY4m.uint16; cbn; lia|]. split; [repeat (constructor; [first [exact ex_o32_for|exact ex_r32_for]|]); constructor|].
  split; [apply ex_supplied; unfold zlen; cbn; lia|]. split; [reflexivity|vm_compute; reflexivity].
Qed.

Lemma ex_opened tail : zlen tail <= 10 -> bytes_ok tail -> exists inp, open_y4m (ex_source tail) = Ok inp /\ opened_input 32 16 inp.
Proof.
  intros L B. unfold ex_source, ex_film.
  destruct (PropY4m.C47_open (header_for ex_o32) (ex_source tail) (flat_map PropY4m.picture_bytes [ex_o32; ex_r32] ++ tail)) as (s' & E & _).
  - unfold PropY4m.header_ok, PropY4m.uint16; cbn; lia.
  - reflexivity.
  - reflexivity.
  - reflexivity.
  - exact (ex_supplied tail L).
  - unfold ex_source, ex_film. cbn [s_stream]. rewrite <- app_assoc. reflexivity.
  - exists (FromY4m (mkY4m 32 16 24 1 1 1 Progressive C420) s'). assert (EO : open_y4m (ex_source tail) = Ok (FromY4m (mkY4m 32 16 24 1 1 1 Progressive C420) s')) by (unfold open_y4m; rewrite E; reflexivity).
    split; [exact EO|]. apply (opened_video 32 16 (ex_source tail)); [reflexivity| |exact EO|reflexivity|reflexivity].
    cbn [ex_source s_stream]. apply Forall_app. split; [|exact B]. unfold ex_film. apply Forall_app. split; [apply header_bytes; unfold PropY4m.header_ok, PropY4m.uint16; cbn; lia|].
    cbn [flat_map]. rewrite app_nil_r. apply Forall_app. split; [apply (PropY4m.raster_bytes 32 16 _ ex_o32_for)|apply (PropY4m.raster_bytes 32 16 _ ex_r32_for)]; lia.
Qed.

(** Damaged video: the encoder is given two pictures and the program ends with
    the reader's exception. *)
Definition seen (n : nat) (i : frame_input) : option (nat * bool) :=
  (fix go n i k := match n with
   | O => None
   | S n => match next_frame some_pool ex_r32 i with (Ok (Some _), i') => go n i' (S k) | (Ok None, _) => Some (k, false) | (Err _, _) => Some (k, true) end
   end) n i O.
Example C74_encode_example : exists inp, open_y4m (ex_source [70; 70; 10]) = Ok inp /\ opened_input 32 16 inp /\
  format_ok 32 16 /\ settings_ok 32 16 (ex_settings true) /\ (forall i, surroundings_ok 32 16 (ex_around i)) /\ seen 5 inp = Some (2%nat, true).
Proof.
  destruct (ex_opened [70; 70; 10]) as (inp & E & O); [unfold zlen; cbn; lia|repeat constructor; unfold byte_ok; lia|]. exists inp. split; [exact E|]. split; [exact O|].
  split; [exact ex_format|]. split; [apply ex_settings_ok|]. split; [exact ex_around_ok|].
  assert (K : match open_y4m (ex_source [70; 70; 10]) with Ok i => seen 5 i = Some (2%nat, true) | Err _ => False end) by (vm_compute; reflexivity). rewrite E in K. exact K.
Qed.

(** A state to continue from: a decoder that has shown a picture. *)
Definition ex_state : decoder := mkDecoder (dc_state (new_decoder 32 16 ex_o32)) (mkRefs ex_o32 ex_r32 ex_o32) true.
Example C74_continue_example : decoder_good 32 16 ex_state /\ ds_seg (dc_state ex_state) = None /\ minihash Z.add ex_state <> 0 /\ exists inp, open_y4m (ex_source []) = Ok inp /\ opened_input 32 16 inp.
Proof.
  split; [|split; [reflexivity|split; [vm_compute; discriminate|apply ex_opened; [unfold zlen; cbn; lia|constructor]]]].
  destruct (C57_new_decoder 32 16 ex_o32 ltac:(lia) ltac:(lia) ex_o32_for) as [A B C D]. constructor; [exact A|exact ex_o32_for|exact ex_r32_for|exact ex_o32_for].
Qed.

(** The same state with video of 20 x 10 pixels' size, rounded to whole blocks. *)
Example C74_wrong_size_example : format_ok 16 16 /\ format_ok 32 16 /\ (16, 16) <> (32, 16) /\ (forall i, zlen (se_junk (ex_settings false) i) = (32 + 512) * (16 + 512)).
Proof. split; [constructor; [reflexivity|lia|lia|vm_compute; discriminate]|]. split; [exact ex_format|]. split; [discriminate|exact ex_junk_ok]. Qed.

(** "012 7" and a word: 12, 7, 0, 0, ...; too large a number after 5; blanks. *)
Example C74_sizes_example :
  entries [([], [48; 49; 50]); ([32; 10], [55])] /\ Forall fits [([], [48; 49; 50]); ([32; 10], [55])] /\ ends_number [([], [48; 49; 50]); ([32; 10], [55])] [120; 49] /\
  remainder 7 [120; 49] 0 /\ map (target (stream_of [48; 49; 50; 32; 10; 55; 120; 49]) first_size) [0; 1; 2; 3]%nat = [12; 7; 0; 0] /\
  remainder 5 (32 :: repeat 57 20) (2 ^ 64 - 1) /\ remainder 5 [32] 5.
Proof.
  split; [split; [|constructor; [|constructor]]; constructor; cbn [fst snd]; unfold space, digit; try discriminate; repeat (constructor; try lia)|].
  split; [repeat constructor|]. split; [right; intros c r E; injection E as <- _; unfold digit; lia|].
  split; [apply (rm_word 7 [] 120 [49]); unfold space, digit; try lia; constructor|]. split; [vm_compute; reflexivity|].
  split; [|constructor; repeat constructor].
  rewrite <- (app_nil_r (repeat 57 20)). apply (rm_large 5 [32] (repeat 57 20) []); [repeat constructor|discriminate|repeat (constructor; [unfold digit; lia|]); constructor|vm_compute; discriminate|discriminate].
Qed.

(** A frame in the middle of a file, and on its own. *)
Definition ex_placed : chunk := mkChunk ([1; 2; 3] ++ key_bytes ++ [9]) 3 (zlen key_bytes).
Definition shows_it (x : decoder * outcome) : bool := match snd x with Output s _ => s | _ => false end.
Example C74_only_the_bytes_example :
  chunk_ok ex_placed /\ chunk_ok (chunk_of key_bytes) /\ cbytes ex_placed = cbytes (chunk_of key_bytes) /\ shows_it (get_frame_output decoder_one ex_placed (shaded 5)) = true.
Proof. split; [vm_compute; repeat split; discriminate|]. split; [apply chunk_ok_of; vm_compute; reflexivity|]. split; vm_compute; reflexivity. Qed.

(** One picture from a container file with a hidden frame, and a player of it. *)
Example C74_container_input_example :
  match player_open some_file (shaded 1) with
  | Ok p => 0 <= py_no p <= iv_count (py_file p) /\ opened_input 20 10 (FromIvf p) /\ let '(l, p', o) := play some_pool p in
      length l = 1%nat /\ o = None /\ zlen (video l) = 354 /\ vp8decode some_pool p = (video l, p', None)
  | Err _ => False
  end.
Proof.
  destruct (player_open some_file (shaded 1)) as [p|] eqn:E; [|vm_compute in E; discriminate].
  assert (K : match player_open some_file (shaded 1) with Ok p => (0 <= py_no p <= iv_count (py_file p) /\ iv_width (py_file p) = 20 /\ iv_height (py_file p) = 10) /\
    let '(l, p', o) := play some_pool p in length l = 1%nat /\ o = None /\ zlen (video l) = 354 /\ fst (fst (vp8decode some_pool p)) = video l | Err _ => False end) by (vm_compute; repeat split; first [reflexivity|discriminate]).
  rewrite E in K. destruct K as ((K1 & K2 & K3) & K). split; [exact K1|]. split.
  - apply (opened_container 20 10 some_file (shaded 1)); [apply PropPicture.bytes_okb_spec; vm_compute; reflexivity|vm_compute; reflexivity|apply shaded_for|unfold open_ivf; rewrite E; reflexivity|exact K2|exact K3].
  - destruct (play some_pool p) as [[l p'] o] eqn:EP. destruct K as (L & -> & Z & V). split; [exact L|]. split; [reflexivity|]. split; [exact Z|].
    pose proof (C74_decode_any some_file some_pool (shaded 1) p) as A. cbv zeta in A. rewrite K2, K3, EP in A. destruct A as [_ A]; [apply PropPicture.bytes_okb_spec; vm_compute; reflexivity|vm_compute; reflexivity|exact E|lia|lia|apply shaded_for|intros; apply shaded_for|exact A].
Qed.
Print Assumptions C74_only_the_bytes.
Print Assumptions C74_input.
Print Assumptions C74_container_input.
Print Assumptions C74_any_video_input.
Print Assumptions C74_video_input.
Print Assumptions C74_encode.
Print Assumptions C74_continue.
Print Assumptions C74_wrong_size.
Print Assumptions C74_sizes.
Print Assumptions C74_no_sizes.
Print Assumptions C74_vp8decode.
Print Assumptions C74_decode_any.
Print Assumptions C74_pipeline.
