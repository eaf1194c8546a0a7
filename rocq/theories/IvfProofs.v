(** Lemmas about IVF files. *)
From Verif Require Import Base ChunkModel ChunkProofs PropChunk ContainerProofs IvfModel.

Definition slice (l : list Z) (o n : nat) : list Z := firstn n (skipn o l).

Lemma slice_bytes_ok l o n : bytes_ok l -> bytes_ok (slice l o n).
Proof.
  intros B. apply Forall_forall. intros x Hx. unfold slice in Hx.
  apply (proj1 (Forall_forall _ _) B). rewrite <- (firstn_skipn o l). apply in_or_app. right.
  rewrite <- (firstn_skipn n (skipn o l)). apply in_or_app. left. exact Hx.
Qed.

Lemma le16_bytes_spec v : le16_bytes v = le_bytes 2 v.
Proof. reflexivity. Qed.
Lemma le32_bytes_spec v : le32_bytes v = le_bytes 4 v.
Proof. unfold le32_bytes. cbn [le_bytes]. rewrite !Z.div_div by lia. reflexivity. Qed.

(** ** Reader *)

Lemma sub_slice l o n : zlen l < 2 ^ 64 -> 0 <= o -> 0 <= n -> o + n <= zlen l ->
  csub (chunk_of l) o n = Ok (mkChunk l o n) /\ chunk_ok (mkChunk l o n) /\ cbytes (mkChunk l o n) = slice l (Z.to_nat o) (Z.to_nat n).
Proof.
  intros L Ho Hn S. pose proof (chunk_ok_of l L) as C. split; [|split].
  - rewrite (csub_spec (chunk_of l) o n C Ho Hn S). reflexivity.
  - exact (csub_ok (chunk_of l) o n C Ho Hn S).
  - reflexivity.
Qed.

Lemma field_spec l o n k : 32 <= zlen l -> zlen l < 2 ^ 64 -> 0 <= o -> n = Z.of_nat k -> o + n <= 32 ->
  (let! c := csub (mkChunk l 0 32) o n in extract k c) = Ok (le_value (slice l (Z.to_nat o) k)) /\
  (let! c := csub (mkChunk l 0 32) o n in to_string c) = Ok (slice l (Z.to_nat o) k).
Proof.
  intros L1 L2 Ho -> S.
  assert (chunk_ok (mkChunk l 0 32)) as C by (apply (sub_slice l 0 32); lia).
  rewrite (csub_spec _ o (Z.of_nat k) C Ho ltac:(lia) S). cbn [rbind c_mem c_off].
  assert (chunk_ok (mkChunk l (0 + o) (Z.of_nat k))) as C' by (apply (sub_slice l o (Z.of_nat k)); lia).
  assert (cbytes (mkChunk l (0 + o) (Z.of_nat k)) = slice l (Z.to_nat o) k) as E.
  { unfold cbytes, slice. cbn [c_mem c_off c_size]. rewrite Z.add_0_l, Nat2Z.id. reflexivity. }
  rewrite (extract_spec k _ C'), (to_string_spec _ C'), E. cbn [c_size]. destruct (Z.ltb_spec (Z.of_nat k) (Z.of_nat k)); [lia|].
  split; [|reflexivity]. do 2 f_equal. unfold slice. rewrite firstn_firstn, Nat.min_id. reflexivity.
Qed.

(** What the reader makes of a file. *)
Definition opened (l : list Z) (index : list (Z * Z)) : ivf :=
  mkIvf (chunk_of l) (slice l 8 4) (le_value (slice l 12 2)) (le_value (slice l 14 2)) (le_value (slice l 16 4)) (le_value (slice l 20 4))
        (le_value (slice l 24 4)) (le_value (slice l 28 4)) index.
Lemma ivf_open_cases l : zlen l < 2 ^ 64 ->
  ivf_open l =
    if zlen l =? 0 then Err ISystem
    else if zlen l <? 32 then Err IInvalid
    else if negb (same_bytes (slice l 0 4) DKIF) then Err IInvalid
    else if negb (le_value (slice l 4 2) =? 0) then Err IUnsupported
    else if negb (le_value (slice l 6 2) =? 32) then Err IUnsupported
    else let! index := truncated (ivf_index (chunk_of l) (Z.to_nat (le_value (slice l 24 4))) 32) in Ok (opened l index).
Proof.
  intros L. unfold ivf_open. destruct (Z.eqb_spec (zlen l) 0) as [E|E]; [reflexivity|].
  change IVF_HEADER_LEN with 32. destruct (Z.ltb_spec (zlen l) 32) as [S|S].
  { rewrite csub_range; [reflexivity|lia|lia|lia|]. cbn [chunk_of c_size]. lia. }
  rewrite (proj1 (sub_slice l 0 32 L ltac:(lia) ltac:(lia) ltac:(lia))). cbn [truncated rbind].
  unfold le16, le32.
  rewrite (proj2 (field_spec l 8 4 4 S L ltac:(lia) eq_refl ltac:(lia))).
  rewrite (proj1 (field_spec l 12 2 2 S L ltac:(lia) eq_refl ltac:(lia))).
  rewrite (proj1 (field_spec l 14 2 2 S L ltac:(lia) eq_refl ltac:(lia))).
  rewrite (proj1 (field_spec l 16 4 4 S L ltac:(lia) eq_refl ltac:(lia))).
  rewrite (proj1 (field_spec l 20 4 4 S L ltac:(lia) eq_refl ltac:(lia))).
  rewrite (proj1 (field_spec l 24 4 4 S L ltac:(lia) eq_refl ltac:(lia))).
  rewrite (proj1 (field_spec l 28 4 4 S L ltac:(lia) eq_refl ltac:(lia))).
  rewrite (proj2 (field_spec l 0 4 4 S L ltac:(lia) eq_refl ltac:(lia))).
  rewrite (proj1 (field_spec l 4 2 2 S L ltac:(lia) eq_refl ltac:(lia))).
  rewrite (proj1 (field_spec l 6 2 2 S L ltac:(lia) eq_refl ltac:(lia))).
  cbn [truncated rbind]. reflexivity.
Qed.

Lemma same_bytes_spec a : forall b, same_bytes a b = true <-> a = b.
Proof.
  induction a as [|x a IH]; intros [|y b]; cbn [same_bytes]; try (split; [discriminate|congruence]); [split; reflexivity|].
  rewrite Bool.andb_true_iff, IH, Z.eqb_eq. split; [intros [-> ->]; reflexivity|]. intros E. injection E as -> ->. auto.
Qed.

(** ** Frames in a file *)

(** A frame as it is stored. *)
Definition stored (f : list Z) : list Z := le_bytes 4 (zlen f) ++ repeat 0 8 ++ f.
Definition body (fs : list (list Z)) : list Z := concat (map stored fs).
Fixpoint offsets (p : Z) (fs : list (list Z)) : list (Z * Z) :=
  match fs with
  | [] => []
  | f :: r => (p + 12, zlen f) :: offsets (p + 12 + zlen f) r
  end.
Lemma stored_length f : zlen (stored f) = 12 + zlen f.
Proof. unfold stored. rewrite !zlen_app. change (zlen (le_bytes 4 (zlen f))) with 4. change (zlen (repeat 0 8)) with 8. lia. Qed.
Lemma stored_ok f : bytes_ok f -> bytes_ok (stored f).
Proof.
  intros B. unfold stored. apply bytes_ok_app. split; [apply le_bytes_ok|]. apply bytes_ok_app. split; [|exact B].
  apply Forall_forall. intros x Hx. apply repeat_spec in Hx. subst. unfold byte_ok. lia.
Qed.

Definition short (f : list Z) : Prop := zlen f < 2 ^ 32 - 12.

Lemma slice_mid pre x post : slice (pre ++ x ++ post) (length pre) (length x) = x.
Proof. unfold slice. rewrite skipn_app, skipn_all, Nat.sub_diag. cbn [app skipn]. rewrite firstn_app, firstn_all, Nat.sub_diag. cbn [firstn]. apply app_nil_r. Qed.

Lemma header_read pre f post : zlen f < 2 ^ 32 -> zlen (pre ++ stored f ++ post) < 2 ^ 64 ->
  exists c, csub (chunk_of (pre ++ stored f ++ post)) (zlen pre) 12 = Ok c /\ le32 c = Ok (zlen f).
Proof.
  intros SF L. set (l := pre ++ stored f ++ post) in *.
  assert (zlen l = zlen pre + 12 + zlen f + zlen post) as ZL by (unfold l; rewrite !zlen_app, stored_length; lia).
  pose proof (zlen_nonneg pre). pose proof (zlen_nonneg f). pose proof (zlen_nonneg post).
  destruct (sub_slice l (zlen pre) 12 L ltac:(lia) ltac:(lia) ltac:(lia)) as (E1 & E2 & E3). eexists. split; [exact E1|].
  assert (cbytes (mkChunk l (zlen pre) 12) = le_bytes 4 (zlen f) ++ repeat 0 8) as E4.
  { rewrite E3. assert (l = pre ++ (le_bytes 4 (zlen f) ++ repeat 0 8) ++ f ++ post) as -> by (unfold l, stored; rewrite <- !app_assoc; reflexivity).
    replace (Z.to_nat (zlen pre)) with (length pre) by (unfold zlen; lia). change (Z.to_nat 12) with (length (le_bytes 4 (zlen f) ++ repeat 0 8)). apply slice_mid. }
  unfold le32. rewrite (proj1 (C22_fixed_width 4 _ ltac:(auto) E2) (zlen f) (repeat 0 8) ltac:(change (2 ^ (8 * Z.of_nat 4)) with (2 ^ 32); lia) E4). reflexivity.
Qed.

Lemma index_spec fs : forall pre post, Forall short fs -> zlen (pre ++ body fs ++ post) < 2 ^ 64 ->
  ivf_index (chunk_of (pre ++ body fs ++ post)) (length fs) (zlen pre) = Ok (offsets (zlen pre) fs).
Proof.
  induction fs as [|f fs IH]; intros pre post F L; [reflexivity|].
  inversion F as [|? ? SF F']; subst. unfold short in SF. cbn [length ivf_index offsets]. change IVF_FRAME_HEADER_LEN with 12.
  assert (pre ++ body (f :: fs) ++ post = pre ++ stored f ++ body fs ++ post) as EL by (unfold body; cbn [map concat]; rewrite <- !app_assoc; reflexivity).
  rewrite EL in *. destruct (header_read pre f (body fs ++ post) ltac:(lia) L) as (c & -> & E). cbn [rbind]. rewrite E. cbn [rbind].
  pose proof (zlen_nonneg pre). pose proof (zlen_nonneg f). pose proof (zlen_nonneg (body fs ++ post)).
  assert (zlen pre + 12 + zlen f < 2 ^ 64) by (rewrite !zlen_app, stored_length in L; rewrite zlen_app in *; lia).
  unfold wrap. rewrite (Z.mod_small (12 + zlen f)) by lia. rewrite !Z.mod_small by lia.
  replace (zlen pre + (12 + zlen f)) with (zlen (pre ++ stored f)) by (rewrite zlen_app, stored_length; lia).
  assert (pre ++ stored f ++ body fs ++ post = (pre ++ stored f) ++ body fs ++ post) as E2 by (rewrite <- !app_assoc; reflexivity). rewrite E2 in *.
  rewrite (IH (pre ++ stored f) post F' L). cbn [rbind]. rewrite zlen_app, stored_length. do 3 f_equal. lia.
Qed.

Lemma index_length file n : forall p r, ivf_index file n p = Ok r -> length r = n.
Proof.
  induction n as [|n IH]; intros p r E; cbn [ivf_index] in E; [injection E as <-; reflexivity|].
  destruct (csub file p IVF_FRAME_HEADER_LEN) as [c|]; cbn [rbind] in E; [|discriminate]. destruct (le32 c); cbn [rbind] in E; [|discriminate].
  match type of E with rbind ?x _ = _ => destruct x eqn:ER end; cbn [rbind] in E; [|discriminate]. injection E as <-. cbn [length]. f_equal. apply (IH _ _ ER).
Qed.

Lemma index_safe l : bytes_ok l -> zlen l < 2 ^ 63 -> forall n p, 0 <= p < 2 ^ 64 ->
  ivf_index (chunk_of l) n p = Err RangeError \/
  exists r, ivf_index (chunk_of l) n p = Ok r /\ Forall (fun e => 0 <= fst e <= zlen l /\ 0 <= snd e < 2 ^ 32) r.
Proof.
  intros B L. induction n as [|n IH]; intros p Hp; cbn [ivf_index]; [right; eexists; split; [reflexivity|constructor]|]. change IVF_FRAME_HEADER_LEN with 12.
  destruct (Z_le_gt_dec (p + 12) (zlen l)) as [In|Out].
  - destruct (sub_slice l p 12 ltac:(lia) ltac:(lia) ltac:(lia) In) as (E1 & E2 & E3). rewrite E1. cbn [rbind].
    unfold le32. rewrite (extract_spec 4 _ E2). cbn [c_size]. change (12 <? Z.of_nat 4) with false. cbn [rbind].
    set (k := le_value _). assert (0 <= k < 2 ^ 32) as Hk.
    { assert (0 <= k < 2 ^ (8 * zlen (firstn 4 (cbytes (mkChunk l p 12))))) as R.
      { apply le_value_range. rewrite E3. assert (bytes_ok (slice l (Z.to_nat p) (Z.to_nat 12))) as BS by (apply slice_bytes_ok, B). exact (slice_bytes_ok _ 0 4 BS). }
      assert (zlen (firstn 4 (cbytes (mkChunk l p 12))) = 4) as ZR; [|rewrite ZR in R; exact R].
      pose proof (zlen_cbytes _ E2) as Z. unfold zlen in *. cbn [c_size] in Z. rewrite firstn_length. lia. }
    destruct (IH (wrap 64 (p + wrap 32 (12 + k)))) as [-> | (r & -> & F)]; [unfold wrap; apply Z.mod_pos_bound; lia|left; reflexivity|].
    right. eexists. split; [reflexivity|]. constructor; [|exact F]. cbn [fst snd]. split; [|exact Hk]. unfold wrap. rewrite Z.mod_small by lia. lia.
  - left. assert (csub (chunk_of l) p 12 = Err RangeError) as ->; [|reflexivity].
    destruct (Z_lt_le_dec (p + 12) (2 ^ 64)).
    + apply csub_range; [lia|lia|assumption|change (c_size (chunk_of l)) with (zlen l); lia].
    + unfold csub, bounds_check. change (c_size (chunk_of l)) with (zlen l). destruct (Z.ltb_spec (zlen l) p); [reflexivity|lia].
Qed.

Lemma offsets_nth fs : forall p i f, nth_error fs i = Some f ->
  nth_error (offsets p fs) i = Some (p + zlen (body (firstn i fs)) + 12, zlen f).
Proof.
  induction fs as [|g fs IH]; intros p [|i] f E; try discriminate.
  - injection E as ->. cbn. do 3 f_equal. lia.
  - cbn [nth_error offsets] in *. rewrite (IH _ _ _ E). unfold body. cbn [firstn map concat]. rewrite zlen_app, stored_length. do 2 f_equal; lia.
Qed.
Lemma offsets_length p fs : length (offsets p fs) = length fs.
Proof. revert p. induction fs; intros p; [reflexivity|]. cbn. f_equal. apply IHfs. Qed.

Lemma frame_spec fs pre post i f v : zlen (pre ++ body fs ++ post) < 2 ^ 64 ->
  iv_file v = chunk_of (pre ++ body fs ++ post) -> iv_index v = offsets (zlen pre) fs -> 0 <= i -> nth_error fs (Z.to_nat i) = Some f ->
  exists c, ivf_frame v i = Ok c /\ cbytes c = f.
Proof.
  intros L EF EI Hi E. unfold ivf_frame. rewrite EI, EF, (offsets_nth _ _ _ _ E).
  set (k := Z.to_nat i) in *. destruct (nth_error_split fs k E) as (a & b & EQ & LA). subst fs.
  assert (firstn k (a ++ f :: b) = a) as -> by (rewrite <- LA, firstn_app, firstn_all, Nat.sub_diag; cbn; apply app_nil_r).
  set (l := pre ++ body (a ++ f :: b) ++ post) in *.
  assert (l = (pre ++ body a ++ le_bytes 4 (zlen f) ++ repeat 0 8) ++ f ++ body b ++ post) as EL.
  { unfold l, body. rewrite map_app, concat_app. cbn [map concat]. unfold stored at 2. rewrite <- !app_assoc. reflexivity. }
  set (pr := pre ++ body a ++ le_bytes 4 (zlen f) ++ repeat 0 8) in *.
  assert (zlen pr = zlen pre + zlen (body a) + 12) as EP.
  { unfold pr. rewrite !zlen_app. change (zlen (le_bytes 4 (zlen f))) with 4. change (zlen (repeat 0 8)) with 8. lia. }
  rewrite <- EP. pose proof (zlen_nonneg pr). pose proof (zlen_nonneg f). pose proof (zlen_nonneg (body b ++ post)).
  destruct (sub_slice l (zlen pr) (zlen f) L ltac:(lia) ltac:(lia)) as (E1 & E2 & E3).
  { rewrite EL, !zlen_app. rewrite zlen_app in H1. lia. }
  exists (mkChunk l (zlen pr) (zlen f)). split; [exact E1|]. rewrite E3. unfold zlen. rewrite !Nat2Z.id, EL. apply slice_mid.
Qed.
Lemma frame_range v i fs p : iv_index v = offsets p fs -> 0 <= i -> zlen fs <= i -> ivf_frame v i = Err RangeError.
Proof.
  intros EI Hi Hl. unfold ivf_frame. rewrite EI.
  assert (nth_error (offsets p fs) (Z.to_nat i) = None) as ->; [|reflexivity]. apply nth_error_None. rewrite offsets_length. unfold zlen in Hl. lia.
Qed.
