(** Views with the same bytes, wherever they are in memory, are parsed and
    decoded the same. *)
From Verif Require PropChunk.
From Verif Require Import Base BoolCoderModel HeaderModel MBModel ChunkModel ChunkProofs ContainerModel ContainerProofs FrameModel RasterModel ReconModel StateModel.

Definition same_view (c c' : chunk) : Prop := chunk_ok c /\ chunk_ok c' /\ cbytes c = cbytes c'.
Definition both {E A B} (R : A -> B -> Prop) (x : res E A) (y : res E B) : Prop :=
  match x, y with Ok a, Ok b => R a b | Err e, Err e' => e = e' | _, _ => False end.

Lemma same_size_view c c' : same_view c c' -> c_size c = c_size c'.
Proof. intros (O & O' & E). rewrite <- (zlen_cbytes c O), <- (zlen_cbytes c' O'), E. reflexivity. Qed.

Lemma wrap_pos n x : 0 <= n -> 0 <= wrap n x < 2 ^ n.
Proof. intros. unfold wrap. apply Z.mod_pos_bound, Z.pow_pos_nonneg; lia. Qed.
Lemma cbyte_same c c' i : same_view c c' -> 0 <= i < c_size c -> cbyte c i = cbyte c' i.
Proof.
  intros S H. pose proof (same_size_view _ _ S) as SZ. destruct S as (O & O' & E).
  destruct (cbyte_spec c i O H) as (b & N & ->). destruct (cbyte_spec c' i O' ltac:(lia)) as (b' & N' & ->). rewrite E in N. congruence.
Qed.
Lemma bits_loop_same c c' : same_view c c' -> forall n i v, 0 <= i -> i + Z.of_nat n <= c_size c -> bits_loop c n i v = bits_loop c' n i v.
Proof.
  intros S. induction n as [|n IH]; intros i v Hi H; cbn [bits_loop]; [reflexivity|]. rewrite (cbyte_same c c' i S) by lia.
  destruct (cbyte c' i); cbn [rbind]; [|reflexivity]. destruct (shl_int _ i); cbn [rbind]; [|reflexivity]. apply IH; lia.
Qed.
Lemma bits_same c c' o n : same_view c c' -> bits c o n = bits c' o n.
Proof.
  intros S. pose proof (same_size_view _ _ S) as SZ. unfold bits, bounds_check. cbv zeta. rewrite <- SZ. set (k := wrap 64 _). assert (0 <= k) by (unfold k; apply wrap_pos; lia).
  destruct (Z.ltb_spec (c_size c) k); cbn [rbind]; [reflexivity|]. destruct (8 <? k); [reflexivity|]. rewrite (bits_loop_same c c' S) by lia. reflexivity.
Qed.
Lemma csub_same c c' o n : same_view c c' -> 0 <= o -> 0 <= n -> o + n < 2 ^ 64 -> both same_view (csub c o n) (csub c' o n).
Proof.
  intros S Ho Hn Hb. pose proof (same_size_view _ _ S) as SZ. destruct S as (O & O' & E). destruct (Z.le_gt_cases (o + n) (c_size c)).
  - rewrite !csub_spec by (auto; lia). cbn [both]. split; [apply csub_ok; auto|]. split; [apply csub_ok; auto; lia|]. rewrite !cbytes_sub by (auto; lia). rewrite E. reflexivity.
  - rewrite !csub_range by lia. reflexivity.
Qed.
Lemma csub_rest c c' o : same_view c c' -> 0 <= o -> both same_view (csub c o (wrap 64 (c_size c - o))) (csub c' o (wrap 64 (c_size c' - o))).
Proof.
  intros S Ho. pose proof (same_size_view _ _ S) as SZ. rewrite <- SZ. pose proof S as ((? & ? & ? & ?) & _). destruct (Z.le_gt_cases o (c_size c)).
  - apply csub_same; [exact S|lia|apply wrap_pos; lia|]. unfold wrap. rewrite Z.mod_small by lia. lia.
  - unfold csub, bounds_check. rewrite <- SZ. destruct (Z.ltb_spec (c_size c) o); [|lia]. reflexivity.
Qed.
Lemma to_string_same c c' : same_view c c' -> to_string c = to_string c'.
Proof. intros (O & O' & E). rewrite !to_string_spec by assumption. rewrite E. reflexivity. Qed.
Lemma null_same : same_view null_chunk null_chunk.
Proof. split; [apply chunk_ok_null|split; [apply chunk_ok_null|reflexivity]]. Qed.

Lemma lift_same {A B} (R : A -> B -> Prop) s (x : res cerr A) (y : res cerr B) : both R x y -> both R (lift_c s x) (lift_c s y).
Proof. destruct x as [a|[|]], y as [b|[|]]; cbn; try tauto; try congruence; intros; subst; try discriminate; auto. Qed.
Lemma both_bind {E A B A' B'} (R : A -> B -> Prop) (R' : A' -> B' -> Prop) (x : res E A) (y : res E B) f g :
  both R x y -> (forall a b, x = Ok a -> R a b -> both R' (f a) (g b)) -> both R' (rbind x f) (rbind y g).
Proof. destruct x as [a|e], y as [b|e']; cbn; try tauto. intros H K. apply K; auto. Qed.
Lemma both_refl {E A} (x : res E A) : both eq x x.
Proof. destruct x; reflexivity. Qed.

(** The same but for where the partitions are. *)
Definition same_uc (u u' : uchunk) : Prop :=
  uc_key u = uc_key u' /\ uc_loop_filter u = uc_loop_filter u' /\ uc_show u = uc_show u' /\ uc_experimental u = uc_experimental u' /\
  uc_corruption u = uc_corruption u' /\ same_view (uc_first u) (uc_first u') /\ same_view (uc_rest u) (uc_rest u').

Lemma bits_bound c o n v : chunk_ok c -> bytes_ok (cbytes c) -> 0 <= o -> 1 <= n <= 30 -> o + n <= 32 -> bits c o n = Ok v -> 0 <= v < 2 ^ n.
Proof. intros O B Ho Hn H E. destruct (bits_cases c o n O B Ho Hn H) as [(_ & E')|(_ & v' & E' & V)]; rewrite E in E'; [discriminate|]. injection E' as ->. exact V. Qed.

Lemma uc_try_same c c' w h p : same_view c c' -> bytes_ok (cbytes c) -> both same_uc (uc_try c w h p) (uc_try c' w h p).
Proof.
  intros S B. pose proof (same_size_view _ _ S) as SZ. pose proof S as (O & O' & _). unfold uc_try.
  rewrite <- !(bits_same c c' _ _ S), <- SZ.
  eapply both_bind; [apply both_refl|]. intros b0 ? _ <-. cbv zeta. eapply both_bind; [apply both_refl|]. intros b4 ? _ <-. cbv zeta.
  eapply both_bind; [apply both_refl|]. intros version ? _ <-. eapply both_bind; [apply both_refl|]. intros [normal experimental] ? _ <-.
  eapply both_bind; [apply both_refl|]. intros len ? EL <-. set (show := negb (b4 =? 0)) in *. set (key := b0 =? 0) in *.
  assert (HL : 0 <= len < 2 ^ 19).
  { apply (bits_bound c 5 19 len O B ltac:(lia) ltac:(lia) ltac:(lia)). destruct (bits c 5 19) as [x|[|]]; cbn in EL; congruence. }
  change (2 ^ 19) with 524288 in HL. set (offset := if key then 10 else 3). assert (HO : 3 <= offset <= 10) by (unfold offset; destruct key; lia).
  eapply both_bind; [apply both_refl|]. intros corruption ? EC <-.
  assert (SIZE : (corruption =? CORRUPTED_FIRST_PARTITION) = false -> offset + len < c_size c).
  { intros N. destruct (Z.leb_spec (c_size c) (offset + len)); [|lia]. destruct p; [|discriminate]. injection EC as <-. discriminate. }
  eapply (both_bind (fun x y => same_view (fst x) (fst y) /\ same_view (snd x) (snd y))).
  { destruct (corruption =? CORRUPTED_FIRST_PARTITION).
    - eapply both_bind; [apply lift_same; rewrite SZ at 2; apply csub_rest; [exact S|lia]|]. intros f f' _ SF. cbn. split; [exact SF|apply null_same].
    - specialize (SIZE eq_refl). destruct O as (O1 & O2 & O3 & O4).
      eapply both_bind; [apply lift_same, csub_same; [exact S|lia|lia|lia]|]. intros f f' _ SF.
      eapply both_bind; [apply lift_same, csub_same; [exact S|lia|apply wrap_pos; lia|]|]. { unfold wrap. rewrite Z.mod_small by lia. lia. }
      intros r r' _ SR. cbn. auto. }
  intros [f r] [f' r'] _ [SF SR]. cbn [fst snd] in SF, SR.
  eapply (both_bind eq).
  { destruct key; [|reflexivity].
    eapply both_bind; [apply lift_same, csub_same; [exact S|lia|lia|lia]|]. intros code code' _ SC.
    rewrite (to_string_same _ _ SC). eapply both_bind; [apply both_refl|]. intros s ? _ <-. eapply both_bind; [apply both_refl|]. intros ? ? _ <-.
    eapply both_bind; [apply lift_same, csub_same; [exact S|lia|lia|lia]|]. intros sizes sizes' _ SS. rewrite <- !(bits_same sizes sizes' _ _ SS). apply both_refl. }
  intros ? ? _ _. cbn. repeat split; try reflexivity; try apply SF; try apply SR.
Qed.
Lemma uncompressed_same c c' w h p : same_view c c' -> bytes_ok (cbytes c) -> both same_uc (uncompressed_chunk c w h p) (uncompressed_chunk c' w h p).
Proof.
  intros S B. unfold uncompressed_chunk. pose proof (uc_try_same c c' w h p S B) as K.
  destruct (uc_try c w h p) as [u|[s|e]], (uc_try c' w h p) as [u'|[s'|e']]; cbn in K; try contradiction; try discriminate.
  - exact K.
  - injection K as <-. destruct p; cbn; [|reflexivity]. repeat split; try reflexivity; apply null_same.
  - injection K as <-. reflexivity.
Qed.

Lemma lengths_same : forall n c c', same_view c c' -> both (fun x y => fst x = fst y /\ same_view (snd x) (snd y)) (partition_lengths n c) (partition_lengths n c').
Proof.
  induction n as [|n IH]; intros c c' S; cbn [partition_lengths]; [cbn; auto|]. rewrite <- (bits_same c c' _ _ S). eapply both_bind; [apply both_refl|]. intros len ? _ <-.
  eapply (both_bind same_view); [unfold ctail; apply csub_rest; [exact S|lia]|]. intros r r' _ SR. eapply both_bind; [apply (IH _ _ SR)|]. intros [ls x] [ls' x'] _ [E SX]. cbn in *. subst. auto.
Qed.
Lemma take_same : forall ls c c', same_view c c' -> Forall (fun x => 0 <= x < 2 ^ 24) ls -> both (Forall2 same_view) (take_partitions ls c) (take_partitions ls c').
Proof.
  induction ls as [|len ls IH]; intros c c' S F; cbn [take_partitions]; [cbn; auto|]. inversion F as [|? ? L F']; subst. change (2 ^ 24) with 16777216 in L.
  eapply (both_bind same_view); [apply csub_same; [exact S|lia|lia|lia]|]. intros p p' _ SP.
  eapply (both_bind same_view); [unfold ctail; apply csub_rest; [exact S|lia]|]. intros r r' _ SR. eapply both_bind; [apply (IH _ _ SR F')|]. intros ps ps' _ FP. cbn. auto.
Qed.
Lemma dct_same u u' n : same_view (uc_rest u) (uc_rest u') -> bytes_ok (cbytes (uc_rest u)) -> both (Forall2 same_view) (dct_partitions u n) (dct_partitions u' n).
Proof.
  intros S B. unfold dct_partitions. eapply both_bind; [apply lengths_same, S|]. intros [ls r] [ls' r'] E [E1 SR]. cbn in E1, SR. subst ls'.
  apply take_same; [exact SR|]. pose proof S as (O & _). pose proof (partition_lengths_safe (n - 1) (uc_rest u) O B) as P. rewrite E in P. apply P.
Qed.

Lemma tokens_same tbl W n u u' ms : same_uc u u' -> bytes_ok (cbytes (uc_rest u)) -> frame_tokens tbl W n u ms = frame_tokens tbl W n u' ms.
Proof.
  intros (_ & _ & _ & _ & _ & _ & S) B. unfold frame_tokens. pose proof (dct_same u u' n S B) as K.
  destruct (dct_partitions u n) as [ps|e], (dct_partitions u' n) as [ps'|e']; cbn in K; try contradiction; [|subst; reflexivity].
  do 2 f_equal. induction K as [|p p' ps ps' (_ & _ & E) _ IH]; [reflexivity|]. cbn [map]. rewrite E, IH. reflexivity.
Qed.
Lemma first_same u u' : same_uc u u' -> first_decoder u = first_decoder u'.
Proof. intros (_ & _ & _ & _ & C & (_ & _ & E) & _). unfold first_decoder. rewrite C, E. reflexivity. Qed.

Lemma get_frame_output_same d c c' scratch : same_view c c' -> bytes_ok (cbytes c) -> get_frame_output d c scratch = get_frame_output d c' scratch.
Proof.
  intros S B. unfold get_frame_output. cbv zeta. pose proof (uncompressed_same c c' (ds_w (dc_state d)) (ds_h (dc_state d)) (dc_conceal d) S B) as K. pose proof S as (O & _).
  pose proof (uncompressed_chunk_cases c (ds_w (dc_state d)) (ds_h (dc_state d)) (dc_conceal d) O B) as CS. cbv zeta in CS.
  destruct (uncompressed_chunk c _ _ _) as [u|e], (uncompressed_chunk c' _ _ _) as [u'|e']; cbn [both] in K; try contradiction; [|subst; reflexivity].
  assert (BR : bytes_ok (cbytes (uc_rest u))).
  { destruct CS as [CS|[CS|CS]].
    - destruct CS as (_ & _ & L & _ & _ & _ & _ & _ & _ & _ & ->). eapply bytes_ok_within; [exact O|exact B|]. pose proof O as (?&?&?&?).
      assert (0 <= tag_offset (cbytes c) /\ 0 <= tag_length (cbytes c)).
      { split; [unfold tag_offset; destruct (tag_key _); lia|]. unfold tag_length.
        assert (N : forall i, 0 <= nth i (cbytes c) 0) by (intros i; destruct (nth_in_or_default i (cbytes c) 0) as [I|E]; [apply (proj1 (Forall_forall _ _) B) in I; unfold byte_ok in I; lia|lia]).
        pose proof (N 0%nat). pose proof (N 1%nat). pose proof (N 2%nat). lia. }
      unfold PropChunk.within. cbn. repeat split; lia.
    - destruct CS as (_ & _ & _ & _ & _ & _ & _ & _ & _ & _ & _ & ->). constructor.
    - destruct CS as (_ & _ & _ & _ & _ & _ & _ & _ & ->). constructor. }
  pose proof K as (K1 & _ & K3 & K4 & _).
  unfold parse_key, parse_inter. rewrite <- K1, <- K3, <- K4, <- (first_same u u' K).
  destruct (uc_key u); cbn [negb].
  - destruct (uc_experimental u); [reflexivity|]. destruct (key_frame_header_decode _) as [hd dd]. destruct (negb (key_frame_header_supported hd)); [reflexivity|]. cbv zeta.
    destruct (kf_macroblocks_decode _ _ _ _) as [ms ?]. destruct (update_map _ _ _) as [[seg ids]|]; [|reflexivity]. rewrite (tokens_same _ _ _ u u' ms K BR). reflexivity.
  - destruct (uc_experimental u); [reflexivity|]. cbn [negb]. destruct (inter_frame_header_decode _) as [hd dd]. destruct (negb (inter_frame_header_supported hd)); [reflexivity|]. cbv zeta.
    destruct (if_macroblocks_decode _ _ _ _ _) as [ms ?]. destruct (update_map _ _ _) as [[seg ids]|]; [|reflexivity]. rewrite (tokens_same _ _ _ u u' ms K BR). reflexivity.
Qed.

Lemma view_of_bytes c : chunk_ok c -> zlen (cbytes c) < 2 ^ 64 -> same_view c (chunk_of (cbytes c)).
Proof. intros O L. split; [exact O|]. split; [apply chunk_ok_of, L|]. symmetry. apply cbytes_of. Qed.

Lemma run_frames_same : forall cs d scratches, Forall (fun c => chunk_ok c /\ bytes_ok (cbytes c)) cs ->
  run_frames d (combine cs scratches) = run_frames d (combine (map (fun c => chunk_of (cbytes c)) cs) scratches).
Proof.
  induction cs as [|c cs IH]; intros d [|s scratches] F; try reflexivity. inversion F as [|? ? [O B] F']; subst. cbn [map combine run_frames].
  assert (L : zlen (cbytes c) < 2 ^ 64) by (rewrite zlen_cbytes by exact O; destruct O as (?&?&?&?); lia).
  rewrite (get_frame_output_same d c _ s (view_of_bytes c O L) B). destruct (get_frame_output _ _ _) as [d' o]. rewrite (IH d' scratches F'). reflexivity.
Qed.
