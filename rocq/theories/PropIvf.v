(** Properties C14 to C17: IVF files. *)
From Verif Require Import Base ChunkModel ChunkProofs PropChunk ContainerProofs IvfModel IvfProofs.

(** ** What an IVF file looks like *)

Definition image_head (fourcc : list Z) (w h rate scale count hash : Z) : list Z :=
  [68; 75; 73; 70] ++ [0; 0] ++ le_bytes 2 32 ++ fourcc ++ le_bytes 2 w ++ le_bytes 2 h ++ le_bytes 4 rate ++ le_bytes 4 scale ++
  le_bytes 4 count ++ le_bytes 4 hash.

(** Values that fit their fields. *)
Definition fields_ok (fourcc : list Z) (w h rate scale : Z) : Prop :=
  length fourcc = 4%nat /\ 0 <= w < 2 ^ 16 /\ 0 <= h < 2 ^ 16 /\ 0 <= rate < 2 ^ 32 /\ 0 <= scale < 2 ^ 32.

Lemma image_slices fourcc w h rate scale count hash tail : fields_ok fourcc w h rate scale -> 0 <= count < 2 ^ 32 -> 0 <= hash < 2 ^ 32 ->
  let l := image_head fourcc w h rate scale count hash ++ tail in
  zlen (image_head fourcc w h rate scale count hash) = 32 /\
  slice l 0 4 = DKIF /\ le_value (slice l 4 2) = 0 /\ le_value (slice l 6 2) = 32 /\
  opened l = mkIvf (chunk_of l) fourcc w h rate scale count hash /\ le_value (slice l 24 4) = count.
Proof.
  intros (LF & Hw & Hh & Hr & Hs) Hc Hx l.
  destruct fourcc as [|a [|b [|c [|d [|? ?]]]]]; try discriminate.
  assert (S24 : slice l 24 4 = le_bytes 4 count) by reflexivity.
  assert (V : forall n v, 0 <= v < 2 ^ (8 * Z.of_nat n) -> le_value (le_bytes n v) = v) by (intros n v Hv; rewrite le_value_bytes; apply Z.mod_small, Hv).
  split; [reflexivity|]. split; [reflexivity|]. split; [reflexivity|]. split; [reflexivity|]. split; [|rewrite S24; apply V; assumption].
  unfold opened. rewrite S24.
  change (slice l 8 4) with [a; b; c; d]. change (slice l 12 2) with (le_bytes 2 w). change (slice l 14 2) with (le_bytes 2 h).
  change (slice l 16 4) with (le_bytes 4 rate). change (slice l 20 4) with (le_bytes 4 scale). change (slice l 28 4) with (le_bytes 4 hash).
  rewrite !V by assumption. reflexivity.
Qed.

(** The reader sees [fs]. *)
Definition shows (v : ivf) (fs : list (list Z)) : Prop :=
  iv_count v = zlen fs /\
  (forall i f, nth_error fs i = Some f -> exists c, ivf_frame v (Z.of_nat i) = Ok c /\ cbytes c = f) /\
  (forall i, zlen fs <= i -> ivf_frame v i = Err RangeError).

(** A complete file followed by anything. *)
Lemma open_image fourcc w h rate scale hash fs post : fields_ok fourcc w h rate scale -> 0 <= hash < 2 ^ 32 ->
  Forall short fs -> zlen fs < 2 ^ 32 -> zlen (image_head fourcc w h rate scale (zlen fs) hash ++ body fs ++ post) < 2 ^ 64 ->
  exists v, ivf_open (image_head fourcc w h rate scale (zlen fs) hash ++ body fs ++ post) = Ok v /\
    iv_fourcc v = fourcc /\ iv_width v = w /\ iv_height v = h /\ iv_rate v = rate /\ iv_scale v = scale /\ iv_hash v = hash /\ shows v fs.
Proof.
  intros FO Hx SF LF LT. pose proof (zlen_nonneg fs).
  destruct (image_slices fourcc w h rate scale (zlen fs) hash (body fs ++ post) FO ltac:(lia) Hx) as (E0 & E1 & E2 & E3 & E4 & E5).
  set (hd := image_head fourcc w h rate scale (zlen fs) hash) in *. set (l := hd ++ body fs ++ post) in *.
  rewrite (ivf_open_cases l LT), E1, E2, E3, E4, E5.
  assert (32 <= zlen l) by (unfold l; rewrite zlen_app, E0; pose proof (zlen_nonneg (body fs ++ post)); lia).
  destruct (Z.eqb_spec (zlen l) 0); [lia|]. destruct (Z.ltb_spec (zlen l) 32); [lia|]. cbn [negb Z.eqb Pos.eqb].
  change (same_bytes DKIF DKIF) with true. cbn [negb].
  assert (Z.to_nat (zlen fs) = length fs) as -> by (unfold zlen; lia).
  assert (ivf_index (chunk_of l) (length fs) 32 = Ok (offsets 32 fs)) as ->.
  { rewrite <- E0. apply index_spec; assumption. }
  cbn [truncated rbind]. eexists. split; [reflexivity|]. do 6 (split; [reflexivity|]). split; [reflexivity|]. split.
  - intros i f E. apply (frame_spec fs hd post (Z.of_nat i) f); [exact LT|reflexivity|cbn [iv_index]; rewrite E0; reflexivity|lia|].
    rewrite Nat2Z.id. exact E.
  - intros i Hi. pose proof (zlen_nonneg fs); apply (frame_range _ i fs 32); [reflexivity|lia|exact Hi].
Qed.

(** ** The writer *)

Definition written (fourcc : list Z) (w h rate scale : Z) (hash : Z) (fs : list (list Z)) (v : writer) : Prop :=
  iw_file v = image_head fourcc w h rate scale (zlen fs) hash ++ body fs /\ iw_size v = zlen (iw_file v) /\ iw_count v = zlen fs.

Lemma image_head_length fourcc w h rate scale count hash : length fourcc = 4%nat -> length (image_head fourcc w h rate scale count hash) = 32%nat.
Proof. intros L. unfold image_head. rewrite !app_length, !le_bytes_length, L. reflexivity. Qed.

Lemma image_head_zlen fourcc w h rate scale count hash : length fourcc = 4%nat -> zlen (image_head fourcc w h rate scale count hash) = 32.
Proof. intros L. unfold zlen. rewrite image_head_length by exact L. reflexivity. Qed.

Lemma patch_count fourcc w h rate scale count hash count' tail : length fourcc = 4%nat ->
  patch (image_head fourcc w h rate scale count hash ++ tail) 24 (le32_bytes count') = image_head fourcc w h rate scale count' hash ++ tail.
Proof. intros L. destruct fourcc as [|a [|b [|c [|d [|? ?]]]]]; try discriminate. rewrite le32_bytes_spec. reflexivity. Qed.
Lemma patch_hash fourcc w h rate scale count hash hash' tail : length fourcc = 4%nat ->
  patch (image_head fourcc w h rate scale count hash ++ tail) 28 (le32_bytes hash') = image_head fourcc w h rate scale count hash' ++ tail.
Proof. intros L. destruct fourcc as [|a [|b [|c [|d [|? ?]]]]]; try discriminate. rewrite le32_bytes_spec. reflexivity. Qed.

Lemma body_app a b : body (a ++ b) = body a ++ body b.
Proof. unfold body. rewrite map_app, concat_app. reflexivity. Qed.
Lemma body_bound fs : Forall short fs -> 0 <= zlen (body fs) <= zlen fs * (2 ^ 32 - 1).
Proof.
  induction 1 as [|f fs S F IH]; [cbn; lia|]. unfold body. cbn [map concat]. rewrite zlen_app, stored_length, zlen_cons. unfold short in S. pose proof (zlen_nonneg f).
  fold (body fs). lia.
Qed.

Lemma open_written fourcc w h rate scale : fields_ok fourcc w h rate scale ->
  exists v, writer_open fourcc w h rate scale = Ok v /\ written fourcc w h rate scale 0 [] v.
Proof.
  intros (LF & _). unfold writer_open. assert (zlen fourcc = 4) as -> by (unfold zlen; lia). cbn [Z.eqb Pos.eqb negb perform app].
  rewrite Z.add_0_l, Z.eqb_refl. cbn [negb]. eexists. split; [reflexivity|]. split; [|split]; cbn [iw_file iw_size iw_count]; [|reflexivity|reflexivity].
  unfold body. cbn [map concat]. rewrite app_nil_r. unfold ivf_header, image_head. rewrite !le16_bytes_spec, !le32_bytes_spec. reflexivity.
Qed.

Lemma append_written fourcc w h rate scale hash fs v f : fields_ok fourcc w h rate scale -> 0 <= hash < 2 ^ 32 -> zlen f < 2 ^ 32 -> zlen fs + 1 < 2 ^ 32 -> 44 + zlen (body fs) + zlen f < 2 ^ 64 ->
  written fourcc w h rate scale hash fs v ->
  exists v' o, writer_append v f = Ok (v', o) /\ written fourcc w h rate scale hash (fs ++ [f]) v' /\
    iw_file v' = fold_left perform (append_ops (iw_count v) f) (iw_file v) /\ slice (iw_file v') (Z.to_nat o) (length f) = f.
Proof.
  intros FO Hx Sf LN BB (WF & WS & WC). pose proof (zlen_nonneg fs). pose proof FO as (L4 & _).
  destruct (image_slices fourcc w h rate scale (zlen fs) hash (body fs) FO ltac:(lia) Hx) as (_ & _ & _ & _ & _ & E5).
  destruct (image_slices fourcc w h rate scale (zlen fs + 1) hash (body fs ++ stored f) FO ltac:(lia) Hx) as (_ & _ & _ & _ & _ & E6).
  assert (frame_header f ++ f = stored f) as EH.
  { unfold frame_header, stored. pose proof (zlen_nonneg f). rewrite le32_bytes_spec. unfold wrap. rewrite Z.mod_small by lia. rewrite <- app_assoc. reflexivity. }
  assert (perform (perform (iw_file v) (Append (frame_header f))) (Append f) = iw_file v ++ stored f) as EF by (cbn [perform]; rewrite <- app_assoc, EH; reflexivity).
  assert (zlen (iw_file v) = 32 + zlen (body fs)) as ZF.
  { rewrite WF, zlen_app. rewrite image_head_zlen by exact L4. lia. }
  pose proof (stored_length f) as SL. pose proof (zlen_nonneg f). pose proof (zlen_nonneg (body fs)).
  assert (stored_count (iw_file v) = zlen fs) as SC by (rewrite WF; exact E5).
  unfold writer_append. rewrite SC, WC, Z.eqb_refl, WS, Z.eqb_refl.
  cbn [negb]. rewrite EF. assert (zlen (frame_header f) = 12) as -> by reflexivity.
  unfold wrap. rewrite (Z.mod_small (zlen (iw_file v) + 12)) by lia. rewrite (Z.mod_small (zlen (iw_file v) + 12 + zlen f)) by lia. rewrite (Z.mod_small (zlen fs + 1)) by lia.
  rewrite zlen_app, SL. destruct (Z.eqb_spec (zlen (iw_file v) + (12 + zlen f)) (zlen (iw_file v) + 12 + zlen f)); [|lia]. cbn [negb].
  assert (perform (iw_file v ++ stored f) (Patch 24 (le32_bytes (zlen fs + 1))) = image_head fourcc w h rate scale (zlen fs + 1) hash ++ body fs ++ stored f) as EP.
  { cbn [perform]. rewrite WF, <- app_assoc. apply patch_count, L4. }
  rewrite EP. change (stored_count ?x) with (le_value (slice x 24 4)). rewrite E6, Z.eqb_refl. cbn [negb].
  eexists _, _. split; [reflexivity|]. cbn [iw_file iw_size iw_count]. split; [|split].
  - split; [|split]; cbn [iw_file iw_size iw_count].
    + rewrite body_app, zlen_app. unfold body at 3. cbn [map concat]. rewrite app_nil_r. reflexivity.
    + rewrite zlen_app. rewrite image_head_zlen by exact L4. rewrite zlen_app, SL. lia.
    + rewrite zlen_app. reflexivity.
  - cbn [append_ops fold_left]. rewrite EF. unfold wrap. rewrite Z.mod_small by lia. symmetry. exact EP.
  - set (hd := image_head fourcc w h rate scale (zlen fs + 1) hash). unfold stored.
    replace (hd ++ body fs ++ le_bytes 4 (zlen f) ++ repeat 0 8 ++ f) with ((hd ++ body fs ++ le_bytes 4 (zlen f) ++ repeat 0 8) ++ f ++ []) by (rewrite app_nil_r, <- !app_assoc; reflexivity).
    rewrite <- (slice_mid (hd ++ body fs ++ le_bytes 4 (zlen f) ++ repeat 0 8) f []) at 4. f_equal.
    rewrite ZF. rewrite !app_length, le_bytes_length, repeat_length. unfold hd. rewrite image_head_length by exact L4. unfold zlen. lia.
Qed.

Lemma append_written_short fourcc w h rate scale hash fs v f : fields_ok fourcc w h rate scale -> 0 <= hash < 2 ^ 32 -> Forall short fs -> short f -> zlen fs + 1 < 2 ^ 32 ->
  written fourcc w h rate scale hash fs v ->
  exists v' o, writer_append v f = Ok (v', o) /\ written fourcc w h rate scale hash (fs ++ [f]) v' /\
    iw_file v' = fold_left perform (append_ops (iw_count v) f) (iw_file v) /\ slice (iw_file v') (Z.to_nat o) (length f) = f.
Proof.
  intros FO Hx SF Sf LN W. pose proof (body_bound fs SF). pose proof (zlen_nonneg fs). unfold short in Sf. apply append_written; try assumption; [lia|nia].
Qed.

Lemma hash_written fourcc w h rate scale hash fs v x : length fourcc = 4%nat ->
  written fourcc w h rate scale hash fs v -> written fourcc w h rate scale x fs (writer_set_hash v x).
Proof.
  intros L4 (WF & WS & WC). assert (iw_file (writer_set_hash v x) = image_head fourcc w h rate scale (zlen fs) x ++ body fs) as E.
  { cbn [writer_set_hash iw_file perform]. rewrite WF. apply patch_hash, L4. }
  split; [exact E|]. split; [|exact WC]. rewrite E. cbn [writer_set_hash iw_size]. rewrite WS, WF, !zlen_app. rewrite !image_head_zlen by exact L4. reflexivity.
Qed.

(** ** C14 *)

Inductive event : Type := Frame (f : list Z) | Hash (x : Z).
Fixpoint write_events (v : writer) (l : list event) : res writer_error writer :=
  match l with
  | [] => Ok v
  | Frame f :: r => let! (v', _) := writer_append v f in write_events v' r
  | Hash x :: r => write_events (writer_set_hash v x) r
  end.
Definition appended (l : list event) : list (list Z) := flat_map (fun e => match e with Frame f => [f] | Hash _ => [] end) l.
Definition last_hash (l : list event) (x0 : Z) : Z := fold_left (fun x e => match e with Frame _ => x | Hash y => y end) l x0.
Definition event_fits (e : event) : Prop := match e with Frame f => short f | Hash x => 0 <= x < 2 ^ 32 end.

Lemma write_events_written fourcc w h rate scale : fields_ok fourcc w h rate scale -> forall l hash fs v,
  0 <= hash < 2 ^ 32 -> Forall short fs -> Forall event_fits l -> zlen fs + zlen (appended l) < 2 ^ 32 -> written fourcc w h rate scale hash fs v ->
  exists v', write_events v l = Ok v' /\ written fourcc w h rate scale (last_hash l hash) (fs ++ appended l) v'.
Proof.
  intros FO. induction l as [|e l IH]; intros hash fs v Hx SF FL LN W.
  - exists v. split; [reflexivity|]. cbn. rewrite app_nil_r. exact W.
  - inversion FL as [|? ? Fe FL']; subst. destruct e as [f|x]; cbn [event_fits] in Fe.
    + unfold appended in LN. cbn [flat_map] in LN. fold (appended l) in LN. rewrite zlen_app in LN. change (zlen [f]) with 1 in LN. pose proof (zlen_nonneg (appended l)).
      destruct (append_written_short fourcc w h rate scale hash fs v f FO Hx SF Fe ltac:(lia) W) as (v' & o & E & W' & _).
      destruct (IH hash (fs ++ [f]) v' Hx) as (v2 & E2 & W2); [apply Forall_app; auto|exact FL'|rewrite zlen_app; change (zlen [f]) with 1; lia|exact W'|].
      exists v2. cbn [write_events]. rewrite E. cbn [rbind]. split; [exact E2|]. unfold appended. cbn [flat_map]. fold (appended l). rewrite <- app_assoc in W2. exact W2.
    + destruct (IH x fs (writer_set_hash v x)) as (v2 & E2 & W2); [exact Fe|exact SF|exact FL'|exact LN|exact (hash_written _ _ _ _ _ _ _ _ x (proj1 FO) W)|].
      exists v2. split; [exact E2|exact W2].
Qed.

Lemma appended_short l : Forall event_fits l -> Forall short (appended l).
Proof. induction 1 as [|e l Fe FL IH]; [constructor|]. unfold appended. cbn [flat_map]. apply Forall_app. split; [|exact IH]. destruct e; [constructor; [exact Fe|constructor]|constructor]. Qed.
Lemma last_hash_range l : Forall event_fits l -> forall x, 0 <= x < 2 ^ 32 -> 0 <= last_hash l x < 2 ^ 32.
Proof. unfold last_hash. induction 1 as [|e l Fe FL IH]; intros x Hx; [exact Hx|]. cbn [fold_left]. apply IH. destruct e; [exact Hx|exact Fe]. Qed.

(** Appends and settings of the hash in any order: no assertion fails, and
    the reader finds everything. Frames of 2^32 - 12 bytes or more are excluded
    (see below). *)
Theorem C14_round_trip :
  forall fourcc w h rate scale l, fields_ok fourcc w h rate scale -> Forall event_fits l -> zlen (appended l) < 2 ^ 32 ->
  exists v0 v iv, writer_open fourcc w h rate scale = Ok v0 /\ write_events v0 l = Ok v /\ ivf_open (iw_file v) = Ok iv /\
    iv_fourcc iv = fourcc /\ iv_width iv = w /\ iv_height iv = h /\ iv_rate iv = rate /\ iv_scale iv = scale /\
    iv_hash iv = last_hash l 0 /\ shows iv (appended l).
Proof.
  intros fourcc w h rate scale l FO FL LN. destruct (open_written fourcc w h rate scale FO) as (v0 & E0 & W0).
  destruct (write_events_written fourcc w h rate scale FO l 0 [] v0 ltac:(lia) ltac:(constructor) FL ltac:(cbn; lia) W0) as (v & E & (WF & WS & WC)).
  cbn [app] in *.
  pose proof (appended_short l FL) as SF. pose proof (last_hash_range l FL 0 ltac:(lia)) as Hx.
  destruct (open_image fourcc w h rate scale (last_hash l 0) (appended l) [] FO Hx SF LN) as (iv & EI & R).
  { rewrite app_nil_r, zlen_app. rewrite image_head_zlen by apply FO. pose proof (body_bound _ SF). pose proof (zlen_nonneg (appended l)). nia. }
  rewrite app_nil_r, <- WF in EI. exists v0, v, iv. repeat (split; [assumption|]). exact R.
Qed.

(** The offset that append_frame returns is where the frame is. *)
Theorem C14_offset :
  forall fourcc w h rate scale l f, fields_ok fourcc w h rate scale -> Forall event_fits (l ++ [Frame f]) -> zlen (appended (l ++ [Frame f])) < 2 ^ 32 ->
  exists v0 v v' o, writer_open fourcc w h rate scale = Ok v0 /\ write_events v0 l = Ok v /\ writer_append v f = Ok (v', o) /\
    firstn (length f) (skipn (Z.to_nat o) (iw_file v')) = f.
Proof.
  intros fourcc w h rate scale l f FO FL LN. destruct (open_written fourcc w h rate scale FO) as (v0 & E0 & W0).
  apply Forall_app in FL. destruct FL as [FL Ff]. inversion Ff as [|? ? Sf _]; subst.
  unfold appended in LN. rewrite flat_map_app, zlen_app in LN. fold (appended l) in LN. change (zlen (flat_map _ [Frame f])) with 1 in LN.
  destruct (write_events_written fourcc w h rate scale FO l 0 [] v0 ltac:(lia) ltac:(constructor) FL ltac:(cbn; lia) W0) as (v & E & W). cbn [app] in *.
  pose proof (appended_short l FL) as SF. pose proof (last_hash_range l FL 0 ltac:(lia)) as Hx.
  destruct (append_written_short fourcc w h rate scale _ _ v f FO Hx SF Sf ltac:(lia) W) as (v' & o & EA & _ & _ & S).
  exists v0, v, v', o. auto.
Qed.

(** Frames of 2^32 - 12 bytes or more: the reader computes the position of
    the next frame in 32 bits, so that C14 fails for them. *)
Theorem C14_huge_frame_refuted :
  ~ (forall fourcc w h rate scale fs, fields_ok fourcc w h rate scale -> Forall (fun f => zlen f < 2 ^ 32) fs -> zlen fs < 2 ^ 32 ->
     exists v0 v iv, writer_open fourcc w h rate scale = Ok v0 /\ write_events v0 (map Frame fs) = Ok v /\ ivf_open (iw_file v) = Ok iv /\ shows iv fs).
Proof.
  intros A.
  assert (exists f : list Z, zlen f = 2 ^ 32 - 12) as [f Lf].
  { exists (repeat 0 (Z.to_nat (2 ^ 32 - 12))). unfold zlen. rewrite repeat_length. lia. }
  assert (fields_ok VP80 0 0 0 0) as FO by (repeat split; lia).
  destruct (A VP80 0 0 0 0 [f; []] FO) as (v0 & v & iv & E0 & E & EI & SH); [|cbn; lia|].
  { constructor; [lia|]. constructor; [cbn; lia|constructor]. }
  destruct (open_written VP80 0 0 0 0 FO) as (v0' & E0' & W0). assert (v0' = v0) as -> by congruence.
  cbn [map write_events] in E.
  destruct (append_written VP80 0 0 0 0 0 [] v0 f FO ltac:(lia) ltac:(lia) ltac:(cbn; lia) ltac:(change (zlen (body [])) with 0; lia) W0) as (v1 & o1 & E1 & W1 & _).
  assert (zlen (body ([] ++ [f])) = 2 ^ 32) as LB by (cbn [app]; unfold body; cbn [map concat]; rewrite app_nil_r, stored_length; lia).
  destruct (append_written VP80 0 0 0 0 0 ([] ++ [f]) v1 [] FO ltac:(lia) ltac:(cbn; lia) ltac:(cbn; lia) ltac:(rewrite LB; cbn; lia) W1) as (v2 & o2 & E2 & W2 & _).
  rewrite E1 in E. cbn [rbind] in E. rewrite E2 in E. cbn [rbind] in E. assert (v2 = v) as -> by congruence.
  destruct W2 as (WF & _ & _). cbn [app] in WF.
  assert (zlen [f; []] = 2) as L2 by reflexivity. rewrite L2 in WF.
  destruct (image_slices VP80 0 0 0 0 2 0 (body [f; []]) FO ltac:(lia) ltac:(lia)) as (H0 & H1 & H2 & H3 & H4 & H5).
  rewrite <- WF in H1, H2, H3, H4, H5.
  set (hd := image_head VP80 0 0 0 0 2 0) in *.
  assert (body [f; []] = stored f ++ stored []) as EB by (unfold body; cbn [map concat]; rewrite app_nil_r; reflexivity). rewrite EB in WF.
  assert (zlen (iw_file v) = 2 ^ 32 + 44) as LF by (rewrite WF, !zlen_app, H0, !stored_length, Lf; reflexivity).
  destruct (header_read hd f (stored []) ltac:(lia) ltac:(rewrite <- WF; lia)) as (c & EC & EL). rewrite <- WF, H0 in EC.
  assert (forall n, ivf_index (chunk_of (iw_file v)) (S n) 32 = let! r := ivf_index (chunk_of (iw_file v)) n 32 in Ok ((44, 2 ^ 32 - 12) :: r)) as STEP.
  { intros n. cbn [ivf_index]. change IVF_FRAME_HEADER_LEN with 12. rewrite EC. cbn [rbind]. rewrite EL. cbn [rbind]. rewrite Lf. reflexivity. }
  assert (ivf_index (chunk_of (iw_file v)) 2 32 = Ok [(44, 2 ^ 32 - 12); (44, 2 ^ 32 - 12)]) as IX by (rewrite STEP, STEP; reflexivity).
  rewrite (ivf_open_cases (iw_file v) ltac:(lia)), H1, H2, H3, H4, H5 in EI.
  destruct (Z.eqb_spec (zlen (iw_file v)) 0); [lia|]. destruct (Z.ltb_spec (zlen (iw_file v)) 32); [lia|].
  change (same_bytes DKIF DKIF) with true in EI. cbn [negb Z.eqb Pos.eqb] in EI. change (Z.to_nat 2) with 2%nat in EI. rewrite IX in EI. cbn [truncated rbind] in EI.
  destruct SH as (_ & SH & _). destruct (SH 1%nat [] eq_refl) as (c1 & F1 & B1).
  assert (iv_file iv = chunk_of (iw_file v) /\ iv_index iv = [(44, 2 ^ 32 - 12); (44, 2 ^ 32 - 12)]) as (I1 & I2).
  { clear - EI. injection EI as <-. split; reflexivity. }
  unfold ivf_frame in F1. rewrite I1, I2 in F1. change (nth_error _ _) with (Some (44, 2 ^ 32 - 12)) in F1. cbv iota beta in F1.
  destruct (sub_slice (iw_file v) 44 (2 ^ 32 - 12) ltac:(lia) ltac:(lia) ltac:(lia) ltac:(lia)) as (G1 & G2 & _).
  rewrite G1 in F1. assert (c1 = mkChunk (iw_file v) 44 (2 ^ 32 - 12)) as -> by congruence.
  pose proof (zlen_cbytes _ G2) as ZB. rewrite B1 in ZB. cbn in ZB. lia.
Qed.

(** ** C15 *)

(** No file makes the reader read outside of it, neither while it is opened
    nor later. A file has fewer than 2^63 bytes (off_t). *)
Theorem C15_any_file :
  forall file, bytes_ok file -> zlen file < 2 ^ 63 ->
  match ivf_open file with
  | Err e => e <> IUndefined
  | Ok v =>
      (forall i, 0 <= i ->
         match ivf_frame v i with
         | Ok c => i < iv_count v /\ exists o n, (o + n <= length file)%nat /\ cbytes c = firstn n (skipn o file) /\ chunk_ok c
         | Err e => e = RangeError
         end) /\
      32 <= zlen file /\ 0 <= iv_count v < 2 ^ 32 /\ 0 <= iv_width v < 2 ^ 16 /\ 0 <= iv_height v < 2 ^ 16
  end.
Proof.
  intros file B L. rewrite (ivf_open_cases file ltac:(lia)).
  destruct (zlen file =? 0); [discriminate|]. destruct (Z.ltb_spec (zlen file) 32); [discriminate|].
  destruct (negb (same_bytes _ _)); [discriminate|]. destruct (negb (_ =? 0)); [discriminate|]. destruct (negb (_ =? 32)); [discriminate|].
  assert (forall o n, 0 <= le_value (slice file o n) < 2 ^ (8 * Z.of_nat n)) as R.
  { intros o n. assert (0 <= le_value (slice file o n) < 2 ^ (8 * zlen (slice file o n))) as R by (apply le_value_range, slice_bytes_ok, B).
    split; [apply R|]. eapply Z.lt_le_trans; [apply R|]. apply Z.pow_le_mono_r; [lia|]. unfold zlen, slice. rewrite firstn_length. lia. }
  destruct (index_safe file B L (Z.to_nat (le_value (slice file 24 4))) 32 ltac:(lia)) as [-> | (r & E & F)]; [discriminate|].
  rewrite E. cbn [truncated rbind]. split; [|split; [assumption|split; [apply (R 24%nat 4%nat)|split; [apply (R 12%nat 2%nat)|apply (R 14%nat 2%nat)]]]].
  intros i Hi. unfold ivf_frame. cbn [opened iv_index iv_file iv_count].
  destruct (nth_error r (Z.to_nat i)) as [[o n]|] eqn:EN; [|reflexivity].
  pose proof (proj1 (Forall_forall _ _) F _ (nth_error_In _ _ EN)) as [Ho Hn]. cbn [fst snd] in Ho, Hn.
  destruct (Z_le_gt_dec (o + n) (zlen file)) as [In|Out].
  - destruct (sub_slice file o n ltac:(lia) ltac:(lia) ltac:(lia) In) as (E1 & E2 & E3). rewrite E1. split.
    + apply index_length in E. assert (Z.to_nat i < length r)%nat by (apply nth_error_Some; congruence). pose proof (R 24%nat 4%nat). lia.
    + exists (Z.to_nat o), (Z.to_nat n). split; [unfold zlen in In; lia|split; [exact E3|exact E2]].
  - rewrite csub_range; [reflexivity|lia|lia|lia|change (c_size (chunk_of file)) with (zlen file); lia].
Qed.

(** ** C16 *)

(** The files that may be left behind if the writer stops while it performs
    [ops]: write(2) may have handed over any number of the bytes; the four
    bytes stored through the mapping arrive together. *)
Inductive left_behind : list Z -> list file_op -> list Z -> Prop :=
| left_before file ops : left_behind file ops file
| left_within file l k ops : left_behind file (Append l :: ops) (file ++ firstn k l)
| left_after file op ops file' : left_behind (perform file op) ops file' -> left_behind file (op :: ops) file'.

Lemma left_cases file ops file' : left_behind file ops file' ->
  file' = file \/ (exists l ops' k, ops = Append l :: ops' /\ file' = file ++ firstn k l) \/ (exists op ops', ops = op :: ops' /\ left_behind (perform file op) ops' file').
Proof. destruct 1; [left; reflexivity|right; left; eexists _, _, _; split; reflexivity|right; right; eexists _, _; split; [reflexivity|assumption]]. Qed.

(** Wherever the last append of a history stops, the file can be opened and
    shows the frames before it, or it was complete. *)
Theorem C16_crash_points :
  forall fourcc w h rate scale l f, fields_ok fourcc w h rate scale -> Forall event_fits (l ++ [Frame f]) -> zlen (appended (l ++ [Frame f])) < 2 ^ 32 ->
  exists v0 v v' o, writer_open fourcc w h rate scale = Ok v0 /\ write_events v0 l = Ok v /\ writer_append v f = Ok (v', o) /\
    iw_file v' = fold_left perform (append_ops (iw_count v) f) (iw_file v) /\
    forall file', left_behind (iw_file v) (append_ops (iw_count v) f) file' ->
      exists iv, ivf_open file' = Ok iv /\ iv_fourcc iv = fourcc /\ iv_width iv = w /\ iv_height iv = h /\ iv_rate iv = rate /\ iv_scale iv = scale /\
        iv_hash iv = last_hash l 0 /\
        (shows iv (appended l) \/ file' = iw_file v' /\ shows iv (appended l ++ [f])).
Proof.
  intros fourcc w h rate scale l f FO FL LN. destruct (open_written fourcc w h rate scale FO) as (v0 & E0 & W0).
  apply Forall_app in FL. destruct FL as [FL Ff]. inversion Ff as [|? ? Sf _]; subst. cbn [event_fits] in Sf.
  unfold appended in LN. rewrite flat_map_app, zlen_app in LN. fold (appended l) in LN. change (zlen (flat_map _ [Frame f])) with 1 in LN.
  destruct (write_events_written fourcc w h rate scale FO l 0 [] v0 ltac:(lia) ltac:(constructor) FL ltac:(cbn; lia) W0) as (v & E & W). cbn [app] in *.
  pose proof (appended_short l FL) as SF. pose proof (last_hash_range l FL 0 ltac:(lia)) as Hx.
  destruct (append_written_short fourcc w h rate scale _ _ v f FO Hx SF Sf ltac:(lia) W) as (v' & o & EA & W' & EF & _).
  exists v0, v, v', o. do 4 (split; [assumption|]). intros file' LB.
  destruct W as (WF & _ & WC). destruct W' as (WF' & _ & _).
  pose proof (body_bound _ SF) as BB. pose proof (zlen_nonneg (appended l)). unfold short in Sf. pose proof (zlen_nonneg f).
  assert (forall post, zlen post <= 12 + zlen f -> file' = iw_file v ++ post -> exists iv, ivf_open file' = Ok iv /\ iv_fourcc iv = fourcc /\ iv_width iv = w /\ iv_height iv = h /\ iv_rate iv = rate /\ iv_scale iv = scale /\
        iv_hash iv = last_hash l 0 /\ (shows iv (appended l) \/ file' = iw_file v' /\ shows iv (appended l ++ [f]))) as OLD.
  { intros post Lp ->. rewrite WF, <- app_assoc.
    destruct (open_image fourcc w h rate scale (last_hash l 0) (appended l) post FO Hx SF ltac:(lia)) as (iv & EI & R1 & R2 & R3 & R4 & R5 & R6 & R7).
    { rewrite !zlen_app, image_head_zlen by apply FO. nia. }
    exists iv. repeat (split; [assumption|]). left. exact R7. }
  assert (forall k (x : list Z), zlen (firstn k x) <= zlen x) as FN by (intros; unfold zlen; rewrite firstn_length; lia).
  unfold append_ops in *.
  destruct (left_cases _ _ _ LB) as [-> | [(x & ops & k & EO & ->) | (op & ops & EO & LB1)]].
  - apply (OLD []); [change (zlen (@nil Z)) with 0; lia|symmetry; apply app_nil_r].
  - injection EO as <- <-. apply (OLD (firstn k (frame_header f))); [|reflexivity]. specialize (FN k (frame_header f)). change (zlen (frame_header f)) with 12 in FN. lia.
  - injection EO as <- <-. cbn [perform] in LB1. destruct (left_cases _ _ _ LB1) as [-> | [(x & ops & k & EO & ->) | (op & ops & EO & LB2)]].
    + apply (OLD (frame_header f)); [change (zlen (frame_header f)) with 12; lia|reflexivity].
    + injection EO as <- <-. apply (OLD (frame_header f ++ firstn k f)); [|symmetry; apply app_assoc]. rewrite zlen_app. change (zlen (frame_header f)) with 12. specialize (FN k f). lia.
    + injection EO as <- <-. cbn [perform] in LB2. destruct (left_cases _ _ _ LB2) as [-> | [(x & ops & k & EO & ->) | (op & ops & EO & LB3)]].
      * apply (OLD (frame_header f ++ f)); [|symmetry; apply app_assoc]. rewrite zlen_app. change (zlen (frame_header f)) with 12. lia.
      * discriminate.
      * injection EO as <- <-. assert (file' = iw_file v') as ->.
        { destruct (left_cases _ _ _ LB3) as [-> | [(x & ops & k & EO & ->) | (op & ops & EO & LB4)]]; [|discriminate|discriminate]. rewrite EF. reflexivity. }
        destruct (open_image fourcc w h rate scale (last_hash l 0) (appended l ++ [f]) [] FO Hx) as (iv & EI & R1 & R2 & R3 & R4 & R5 & R6 & R7).
        { apply Forall_app. split; [exact SF|constructor; [exact Sf|constructor]]. }
        { rewrite zlen_app. change (zlen [f]) with 1. lia. }
        { rewrite app_nil_r, zlen_app, image_head_zlen by apply FO. rewrite body_app, zlen_app. unfold body at 2. cbn [map concat]. rewrite app_nil_r, stored_length. nia. }
        rewrite app_nil_r, <- WF' in EI. exists iv. repeat (split; [assumption|]). right. split; [reflexivity|exact R7].
Qed.

(** While the file is created: nothing can be opened before the header is
    complete. *)
Theorem C16_creation :
  forall fourcc w h rate scale file', fields_ok fourcc w h rate scale -> left_behind [] [Append (ivf_header fourcc w h rate scale)] file' ->
  match ivf_open file' with
  | Err e => (e = ISystem \/ e = IInvalid) /\ zlen file' < 32
  | Ok iv => shows iv [] /\ file' = ivf_header fourcc w h rate scale
  end.
Proof.
  intros fourcc w h rate scale file' FO LB.
  set (hd := ivf_header fourcc w h rate scale) in *.
  assert (hd = image_head fourcc w h rate scale 0 0) as EH by (unfold hd, ivf_header, image_head; rewrite !le16_bytes_spec, !le32_bytes_spec; reflexivity).
  assert (length hd = 32%nat) as LH by (rewrite EH; apply image_head_length, FO).
  assert (exists k, file' = firstn k hd) as (k & ->).
  { destruct (left_cases _ _ _ LB) as [-> | [(x & ops & k & EO & ->) | (op & ops & EO & LB1)]].
    - exists 0%nat. reflexivity.
    - injection EO as <- <-. exists k. reflexivity.
    - injection EO as <- <-. exists 32%nat. rewrite <- LH, firstn_all. destruct (left_cases _ _ _ LB1) as [-> | [(x & ops & k & EO & ->) | (op & ops & EO & LB2)]]; [reflexivity|discriminate|discriminate]. }
  destruct (Nat.le_gt_cases 32 k) as [Hk|Hk].
  - rewrite firstn_all2 by lia. destruct (open_image fourcc w h rate scale 0 [] [] FO ltac:(lia) ltac:(constructor) ltac:(cbn; lia)) as (iv & EI & R).
    { change (body [] ++ []) with (@nil Z). rewrite app_nil_r, image_head_zlen by apply FO. lia. }
    change (zlen []) with 0 in EI. change (body [] ++ []) with (@nil Z) in EI. rewrite app_nil_r, <- EH in EI. rewrite EI. split; [apply R|reflexivity].
  - assert (zlen (firstn k hd) < 32) as L by (unfold zlen; rewrite firstn_length; lia).
    rewrite (ivf_open_cases (firstn k hd) ltac:(lia)). destruct (zlen (firstn k hd) =? 0); [split; [auto|exact L]|]. destruct (Z.ltb_spec (zlen (firstn k hd)) 32); [split; [auto|exact L]|lia].
Qed.

(** Without the assumption that the four bytes of the count arrive together,
    C16 fails: of 255 frames none is left if only the first byte of 256 has
    been stored. *)
Theorem C16_torn_count_refuted :
  ~ (forall fourcc w h rate scale l f, fields_ok fourcc w h rate scale -> Forall event_fits (l ++ [Frame f]) -> zlen (appended (l ++ [Frame f])) < 2 ^ 32 ->
     forall v0 v v' o k, writer_open fourcc w h rate scale = Ok v0 -> write_events v0 l = Ok v -> writer_append v f = Ok (v', o) -> (k <= 4)%nat ->
     forall iv, ivf_open (patch ((iw_file v ++ frame_header f) ++ f) 24 (firstn k (le32_bytes (wrap 32 (iw_count v + 1))))) = Ok iv ->
     shows iv (appended l) \/ shows iv (appended l ++ [f])).
Proof.
  intros A. assert (fields_ok VP80 0 0 0 0) as FO by (repeat split; lia).
  assert (exists fs : list (list Z), zlen fs = 255 /\ Forall short fs /\ zlen (body fs) < 2 ^ 13) as (fs & LF & SF & LB).
  { exists (repeat [] 255). split; [reflexivity|]. split; [apply Forall_forall; intros x Hx; apply repeat_spec in Hx; subst; unfold short; cbn; lia|].
    change (zlen (body (repeat [] 255))) with 3060. lia. }
  set (l := map Frame fs) in *.
  assert (appended l = fs) as EA by (unfold l, appended; clear; induction fs as [|f fs IH]; [reflexivity|]; cbn [map flat_map app]; rewrite IH; reflexivity).
  assert (Forall event_fits l) as FL by (unfold l; apply Forall_map; exact SF).
  assert (last_hash l 0 = 0) as EX by (unfold l, last_hash; clear; generalize 0 as x; induction fs as [|f fs IH]; intros x; [reflexivity|]; exact (IH x)).
  destruct (open_written VP80 0 0 0 0 FO) as (v0 & E0 & W0).
  destruct (write_events_written VP80 0 0 0 0 FO l 0 [] v0 ltac:(lia) ltac:(constructor) FL) as (v & E & W); [rewrite EA; cbn; lia|exact W0|].
  cbn [app] in W. rewrite EA, EX in W. pose proof W as (WF & _ & WC).
  destruct (append_written_short VP80 0 0 0 0 0 fs v [] FO ltac:(lia) SF ltac:(unfold short; cbn; lia) ltac:(lia) W) as (v' & o & EAp & _).
  assert (patch ((iw_file v ++ frame_header []) ++ []) 24 (firstn 1 (le32_bytes (wrap 32 (iw_count v + 1)))) = image_head VP80 0 0 0 0 0 0 ++ body [] ++ (body fs ++ frame_header [])) as EP.
  { rewrite WC, LF, app_nil_r, WF, LF, <- app_assoc. reflexivity. }
  destruct (open_image VP80 0 0 0 0 0 [] (body fs ++ frame_header []) FO ltac:(lia) ltac:(constructor) ltac:(cbn; lia)) as (iv & EI & _ & _ & _ & _ & _ & _ & S1 & _).
  { rewrite !zlen_app, image_head_zlen by reflexivity. change (zlen (frame_header [])) with 12. change (zlen (body [])) with 0. lia. }
  change (zlen []) with 0 in EI. rewrite <- EP in EI.
  destruct (A VP80 0 0 0 0 l [] FO) with (v0 := v0) (v := v) (v' := v') (o := o) (k := 1%nat) (iv := iv) as [(C & _)|(C & _)]; [| |exact E0|exact E|exact EAp|lia|exact EI| |].
  - apply Forall_app. split; [exact FL|]. constructor; [unfold event_fits, short; cbn; lia|constructor].
  - unfold appended. rewrite flat_map_app. fold (appended l). rewrite EA, zlen_app, LF. cbn. lia.
  - rewrite EA, S1 in C. change (zlen (@nil (list Z))) with 0 in C. lia.
  - rewrite EA, S1, zlen_app in C. cbn in C. lia.
Qed.

(** ** C17 *)

Lemma copy_written fourcc w h rate scale hash src : fields_ok fourcc w h rate scale -> 0 <= hash < 2 ^ 32 -> forall fs pre gs out,
  shows src (pre ++ fs) -> Forall short fs -> Forall short gs -> zlen gs + zlen fs < 2 ^ 32 -> written fourcc w h rate scale hash gs out ->
  exists out', copy_frames src (length fs) (zlen pre) out = Ok out' /\ written fourcc w h rate scale hash (gs ++ fs) out'.
Proof.
  intros FO Hx. induction fs as [|f fs IH]; intros pre gs out SH SF SG LN W.
  - exists out. split; [reflexivity|]. rewrite app_nil_r. exact W.
  - inversion SF as [|? ? Sf SF']; subst. rewrite zlen_cons in LN. pose proof (zlen_nonneg fs). pose proof (zlen_nonneg gs).
    destruct SH as (S1 & S2 & S3). destruct (S2 (length pre) f) as (c & EC & BC).
    { rewrite nth_error_app2, Nat.sub_diag by lia. reflexivity. }
    destruct (append_written_short fourcc w h rate scale hash gs out f FO Hx SG Sf ltac:(lia) W) as (out1 & o & EA & W1 & _).
    destruct (IH (pre ++ [f]) (gs ++ [f]) out1) as (out2 & E2 & W2).
    + rewrite <- app_assoc. split; [exact S1|split; [exact S2|exact S3]].
    + exact SF'.
    + apply Forall_app. split; [exact SG|constructor; [exact Sf|constructor]].
    + rewrite zlen_app. change (zlen [f]) with 1. lia.
    + exact W1.
    + exists out2. cbn [length copy_frames]. change (zlen pre) with (Z.of_nat (length pre)). rewrite EC, BC, EA.
      rewrite zlen_app in E2. change (zlen [f]) with 1 in E2. change (zlen pre) with (Z.of_nat (length pre)) in E2. split; [exact E2|].
      rewrite <- app_assoc in W2. exact W2.
Qed.

Definition holds (file : list Z) (w h : Z) (fs : list (list Z)) : Prop :=
  exists v, ivf_open file = Ok v /\ iv_width v = w /\ iv_height v = h /\ shows v fs.

(** Two files of the same size. *)
Theorem C17_merge :
  forall file1 file2 w h fs1 fs2, 0 <= w < 2 ^ 16 -> 0 <= h < 2 ^ 16 -> holds file1 w h fs1 -> holds file2 w h fs2 ->
  Forall short fs1 -> Forall short fs2 -> zlen fs1 + zlen fs2 < 2 ^ 32 ->
  exists out, merge file1 file2 = Ok out /\ holds out w h (fs1 ++ fs2).
Proof.
  intros file1 file2 w h fs1 fs2 Hw Hh (v1 & O1 & W1 & H1 & S1) (v2 & O2 & W2 & H2 & S2) F1 F2 LN.
  assert (fields_ok VP80 w h 1 1) as FO by (repeat split; lia).
  pose proof (zlen_nonneg fs1). pose proof (zlen_nonneg fs2).
  unfold merge. rewrite O1, O2, W1, W2, H1, H2, !Z.eqb_refl. cbn [negb orb].
  destruct (open_written VP80 w h 1 1 FO) as (o0 & -> & P0).
  rewrite (proj1 S1), (proj1 S2). replace (Z.to_nat (zlen fs1)) with (length fs1) by (unfold zlen; lia). replace (Z.to_nat (zlen fs2)) with (length fs2) by (unfold zlen; lia).
  destruct (copy_written VP80 w h 1 1 0 v1 FO ltac:(lia) fs1 [] [] o0 S1 F1 ltac:(constructor) ltac:(cbn; lia) P0) as (o1 & E1 & P1).
  destruct (copy_written VP80 w h 1 1 0 v2 FO ltac:(lia) fs2 [] fs1 o1 S2 F2 F1 ltac:(lia) P1) as (o2 & E2 & P2).
  change (zlen []) with 0 in E1, E2. rewrite E1. cbn [rbind]. rewrite E2. cbn [rbind]. eexists. split; [reflexivity|].
  destruct P2 as (PF & _ & _). assert (Forall short (fs1 ++ fs2)) as SF by (apply Forall_app; auto).
  pose proof (body_bound _ SF) as BB. rewrite zlen_app in BB.
  destruct (open_image VP80 w h 1 1 0 (fs1 ++ fs2) [] FO ltac:(lia) SF) as (iv & EI & R1 & R2 & R3 & R4 & R5 & R6 & R7).
  { rewrite zlen_app. exact LN. }
  { rewrite app_nil_r, zlen_app, image_head_zlen by reflexivity. nia. }
  rewrite app_nil_r, <- PF in EI. exists iv. auto.
Qed.

Theorem C17_dimensions :
  forall file1 file2 v1 v2, ivf_open file1 = Ok v1 -> ivf_open file2 = Ok v2 -> (iv_width v1, iv_height v1) <> (iv_width v2, iv_height v2) ->
  merge file1 file2 = Err MDimensions.
Proof.
  intros file1 file2 v1 v2 O1 O2 D. unfold merge. rewrite O1, O2.
  destruct (Z.eqb_spec (iv_width v1) (iv_width v2)) as [EW|]; [|reflexivity]. destruct (Z.eqb_spec (iv_height v1) (iv_height v2)) as [EH|]; [|reflexivity]. congruence.
Qed.

Lemma copy_readable src : forall n i out out', copy_frames src n i out = Ok out' -> exists fs, length fs = n /\
  forall k f, nth_error fs k = Some f -> exists c, ivf_frame src (i + Z.of_nat k) = Ok c /\ cbytes c = f.
Proof.
  induction n as [|n IH]; intros i out out' E.
  - exists []. split; [reflexivity|]. intros [|k] f; discriminate.
  - cbn [copy_frames] in E. destruct (ivf_frame src i) as [c|] eqn:EC; [|discriminate]. destruct (writer_append out (cbytes c)) as [[o1 p]|]; [|discriminate].
    destruct (IH _ _ _ E) as (fs & L & R). exists (cbytes c :: fs). split; [cbn; lia|]. intros [|k] f EN.
    + injection EN as <-. exists c. rewrite Z.add_0_r. auto.
    + destruct (R k f EN) as (d & ED & EB). exists d. split; [|exact EB]. rewrite <- ED. f_equal. lia.
Qed.

(** Conversely nothing else is merged. *)
Theorem C17_only_valid_files :
  forall file1 file2 out, bytes_ok file1 -> bytes_ok file2 -> zlen file1 < 2 ^ 63 -> zlen file2 < 2 ^ 63 -> merge file1 file2 = Ok out ->
  exists w h fs1 fs2, 0 <= w < 2 ^ 16 /\ 0 <= h < 2 ^ 16 /\ holds file1 w h fs1 /\ holds file2 w h fs2.
Proof.
  intros file1 file2 out B1 B2 L1 L2 E. unfold merge in E.
  pose proof (C15_any_file file1 B1 L1) as A1. pose proof (C15_any_file file2 B2 L2) as A2. unfold holds.
  destruct (ivf_open file1) as [v1|] eqn:O1; [|discriminate]. destruct (ivf_open file2) as [v2|] eqn:O2; [|discriminate].
  destruct A1 as (A1 & _ & C1 & W1 & H1). destruct A2 as (A2 & _ & C2 & _ & _).
  destruct (Z.eqb_spec (iv_width v1) (iv_width v2)) as [EW|]; [|discriminate]. destruct (Z.eqb_spec (iv_height v1) (iv_height v2)) as [EH|]; [|discriminate]. cbn [negb orb] in E.
  destruct (writer_open _ _ _ _ _) as [o0|]; [|discriminate].
  destruct (copy_frames v1 _ _ _) as [o1|] eqn:E1; cbn [rbind] in E; [|discriminate]. destruct (copy_frames v2 _ _ _) as [o2|] eqn:E2; cbn [rbind] in E; [|discriminate].
  assert (forall v (P : chunk -> Prop) (A : forall i, 0 <= i -> match ivf_frame v i with Ok c => i < iv_count v /\ P c | Err e => e = RangeError end) fs, 0 <= iv_count v -> length fs = Z.to_nat (iv_count v) ->
    (forall k f, nth_error fs k = Some f -> exists c, ivf_frame v (0 + Z.of_nat k) = Ok c /\ cbytes c = f) -> shows v fs) as SH.
  { intros v P A fs Hc L R. assert (zlen fs = iv_count v) as LZ by (unfold zlen; lia). split; [symmetry; exact LZ|]. split; [exact R|].
    intros i Hi. specialize (A i ltac:(lia)). destruct (ivf_frame v i) as [c|e]; [destruct A as [A _]; lia|congruence]. }
  destruct (copy_readable _ _ _ _ _ E1) as (fs1 & LF1 & R1). destruct (copy_readable _ _ _ _ _ E2) as (fs2 & LF2 & R2).
  exists (iv_width v1), (iv_height v1), fs1, fs2. split; [exact W1|]. split; [exact H1|]. split.
  - exists v1. split; [reflexivity|]. split; [reflexivity|]. split; [reflexivity|]. exact (SH v1 _ A1 fs1 (proj1 C1) LF1 R1).
  - exists v2. split; [reflexivity|]. split; [symmetry; exact EW|]. split; [symmetry; exact EH|]. exact (SH v2 _ A2 fs2 (proj1 C2) LF2 R2).
Qed.

(** A list of files, merged one after the other. *)
Fixpoint merge_list (file : list Z) (rest : list (list Z)) : res merge_error (list Z) :=
  match rest with
  | [] => Ok file
  | f :: r => let! m := merge file f in merge_list m r
  end.
Theorem C17_list :
  forall w h, 0 <= w < 2 ^ 16 -> 0 <= h < 2 ^ 16 -> forall files contents, Forall2 (fun file fs => holds file w h fs) files contents ->
  forall file fs, holds file w h fs -> Forall short (fs ++ concat contents) -> zlen (fs ++ concat contents) < 2 ^ 32 ->
  exists out, merge_list file files = Ok out /\ holds out w h (fs ++ concat contents).
Proof.
  intros w h Hw Hh files contents F. induction F as [|file1 fs1 files contents H1 F IH]; intros file fs H SF LN.
  - exists file. split; [reflexivity|]. cbn [concat]. rewrite app_nil_r. exact H.
  - cbn [concat] in *. rewrite app_assoc in SF, LN |- *. pose proof SF as SF'. apply Forall_app in SF'. destruct SF' as [SF1 _]. apply Forall_app in SF1. destruct SF1 as [S0 S1].
    rewrite zlen_app in LN. pose proof (zlen_nonneg (concat contents)). rewrite zlen_app in LN.
    destruct (C17_merge file file1 w h fs fs1 Hw Hh H H1 S0 S1 ltac:(lia)) as (m & EM & HM).
    destruct (IH m (fs ++ fs1) HM SF ltac:(rewrite !zlen_app; lia)) as (out & EO & HO). exists out. cbn [merge_list]. rewrite EM. cbn [rbind]. auto.
Qed.

(** ** Examples *)

Example C14_example : exists v0 v iv, writer_open VP80 176 144 30 1 = Ok v0 /\
  write_events v0 [Frame [1; 2; 3]; Hash 77; Frame []; Hash 4026531840; Frame [9]] = Ok v /\ ivf_open (iw_file v) = Ok iv /\
  iv_width iv = 176 /\ iv_hash iv = 4026531840 /\ iv_count iv = 3 /\
  map (fun i => match ivf_frame iv i with Ok c => Some (cbytes c) | Err _ => None end) [0; 1; 2; 3] = [Some [1; 2; 3]; Some []; Some [9]; None].
Proof. eexists _, _, _. repeat (split; [vm_compute; reflexivity|]). vm_compute. reflexivity. Qed.

(** A header that announces two frames; the second one is cut short. *)
Example C15_example :
  let file := ivf_header VP80 16 16 1 1 in
  let file := patch file 24 [2; 0; 0; 0] ++ stored [5; 6] ++ [200; 0; 0; 0; 0; 0; 0; 0; 0; 0; 0; 0] in
  bytes_ok file /\ match ivf_open file with
  | Ok iv => match ivf_frame iv 0 with Ok c => cbytes c = [5; 6] | Err _ => False end /\ ivf_frame iv 1 = Err RangeError
  | Err _ => False
  end.
Proof.
  cbv zeta. split; [|vm_compute; auto].
  match goal with |- bytes_ok ?l => let l' := eval vm_compute in l in change l with l' end.
  repeat (constructor; [unfold byte_ok; lia|]). constructor.
Qed.

Example C16_example : left_behind [1; 2] [Append [3; 4; 5]; Append [6]] [1; 2; 3; 4; 5] /\ left_behind [1; 2] [Append [3; 4; 5]; Append [6]] [1; 2; 3].
Proof. split; [apply left_after; exact (left_before [1; 2; 3; 4; 5] _)|exact (left_within [1; 2] [3; 4; 5] 1 _)]. Qed.

Example C17_example : exists v0 v1 v2 out,
  writer_open VP80 16 32 1 1 = Ok v0 /\ write_events v0 [Frame [1; 2]] = Ok v1 /\ write_events v0 [Frame [3]; Frame []] = Ok v2 /\
  merge (iw_file v1) (iw_file v2) = Ok out /\ holds out 16 32 [[1; 2]; [3]; []].
Proof.
  assert (fields_ok VP80 16 32 1 1) as FO by (repeat split; lia).
  destruct (C14_round_trip VP80 16 32 1 1 [Frame [1; 2]] FO) as (v0 & v1 & i1 & E0 & E1 & O1 & _ & W1 & H1 & _ & _ & _ & S1); [constructor; [unfold event_fits, short; cbn; lia|constructor]|cbn; lia|].
  destruct (C14_round_trip VP80 16 32 1 1 [Frame [3]; Frame []] FO) as (v0' & v2 & i2 & E0' & E2 & O2 & _ & W2 & H2 & _ & _ & _ & S2); [repeat (constructor; [unfold event_fits, short; cbn; lia|]); constructor|cbn; lia|].
  assert (v0' = v0) as -> by congruence.
  destruct (C17_merge (iw_file v1) (iw_file v2) 16 32 [[1; 2]] [[3]; []] ltac:(lia) ltac:(lia)) as (out & EM & HM).
  - exists i1. auto.
  - exists i2. auto.
  - constructor; [unfold short; cbn; lia|constructor].
  - repeat (constructor; [unfold short; cbn; lia|]). constructor.
  - cbn. lia.
  - exists v0, v1, v2, out. auto.
Qed.

Print Assumptions C14_round_trip.
Print Assumptions C14_offset.
Print Assumptions C14_huge_frame_refuted.
Print Assumptions C15_any_file.
Print Assumptions C16_crash_points.
Print Assumptions C16_creation.
Print Assumptions C16_torn_count_refuted.
Print Assumptions C17_merge.
Print Assumptions C17_dimensions.
Print Assumptions C17_only_valid_files.
Print Assumptions C17_list.
