(** Facts about memory views. *)
From Verif Require Import Base ChunkModel.

(** The view lies within its buffer. *)
Definition chunk_ok (c : chunk) : Prop :=
  0 <= c_off c /\ 0 <= c_size c /\ c_off c + c_size c <= zlen (c_mem c) /\ zlen (c_mem c) < 2 ^ 64.

Lemma zlen_nonneg : forall {A} (l : list A), 0 <= zlen l.
Proof. intros; unfold zlen; lia. Qed.

Lemma zlen_app : forall {A} (a b : list A), zlen (a ++ b) = zlen a + zlen b.
Proof. intros; unfold zlen; rewrite app_length; lia. Qed.

Lemma zlen_cons : forall {A} (a : A) (b : list A), zlen (a :: b) = 1 + zlen b.
Proof. intros; unfold zlen; cbn [length]; lia. Qed.

Lemma chunk_ok_of : forall l, zlen l < 2 ^ 64 -> chunk_ok (chunk_of l).
Proof. intros l H; unfold chunk_ok, chunk_of; cbn; pose proof (zlen_nonneg l); lia. Qed.

Lemma chunk_ok_null : chunk_ok null_chunk.
Proof. unfold chunk_ok, null_chunk, zlen; cbn; lia. Qed.

Lemma cbytes_of : forall l, cbytes (chunk_of l) = l.
Proof. intros l; unfold cbytes, chunk_of, zlen; cbn. rewrite Nat2Z.id. apply firstn_all. Qed.

Lemma zlen_cbytes : forall c, chunk_ok c -> zlen (cbytes c) = c_size c.
Proof.
  intros c (H1 & H2 & H3 & H4); unfold cbytes, zlen in *.
  rewrite firstn_length, skipn_length. lia.
Qed.

Lemma csub_spec : forall c o n, chunk_ok c -> 0 <= o -> 0 <= n -> o + n <= c_size c ->
  csub c o n = Ok (mkChunk (c_mem c) (c_off c + o) n).
Proof.
  intros c o n (H1 & H2 & H3 & H4) Ho Hn Hs. unfold csub, bounds_check, wrap.
  destruct (c_size c <? o) eqn:E; [lia|]. cbn [rbind].
  rewrite Z.mod_small by lia.
  destruct (c_size c <? o + n) eqn:E2; [lia|]. reflexivity.
Qed.

Lemma csub_range : forall c o n, 0 <= o -> 0 <= n -> o + n < 2 ^ 64 -> c_size c < o + n ->
  csub c o n = Err RangeError.
Proof.
  intros c o n Ho Hn Hb Hs. unfold csub, bounds_check, wrap.
  destruct (c_size c <? o) eqn:E; [reflexivity|]. cbn [rbind].
  rewrite Z.mod_small by lia.
  destruct (c_size c <? o + n) eqn:E2; [reflexivity|lia].
Qed.

Lemma csub_ok : forall c o n, chunk_ok c -> 0 <= o -> 0 <= n -> o + n <= c_size c ->
  chunk_ok (mkChunk (c_mem c) (c_off c + o) n).
Proof. intros c o n (H1 & H2 & H3 & H4) Ho Hn Hs; unfold chunk_ok; cbn; lia. Qed.

Lemma skipn_skipn' : forall {A} a b (l : list A), skipn a (skipn b l) = skipn (b + a) l.
Proof.
  intros A a b; revert a; induction b; intros a l; [reflexivity|].
  destruct l; [now rewrite !skipn_nil|]. cbn. apply IHb.
Qed.

Lemma cbytes_sub : forall c o n, chunk_ok c -> 0 <= o -> 0 <= n -> o + n <= c_size c ->
  cbytes (mkChunk (c_mem c) (c_off c + o) n) = firstn (Z.to_nat n) (skipn (Z.to_nat o) (cbytes c)).
Proof.
  intros c o n (H1 & H2 & H3 & H4) Ho Hn Hs. unfold cbytes; cbn.
  rewrite skipn_firstn_comm, firstn_firstn, skipn_skipn'.
  f_equal; [lia|]. f_equal; lia.
Qed.

Lemma ctail_spec : forall c o, chunk_ok c -> 0 <= o <= c_size c ->
  ctail c o = Ok (mkChunk (c_mem c) (c_off c + o) (c_size c - o)).
Proof.
  intros c o H Ho. pose proof H as (H1 & H2 & H3 & H4).
  unfold ctail, wrap. rewrite Z.mod_small by lia. apply csub_spec; auto; lia.
Qed.

Lemma ctail_range : forall c o, c_size c < o -> ctail c o = Err RangeError.
Proof.
  intros c o Ho. unfold ctail, csub, bounds_check.
  destruct (c_size c <? o) eqn:E; [reflexivity|lia].
Qed.

Lemma cbytes_tail : forall c o, chunk_ok c -> 0 <= o <= c_size c ->
  cbytes (mkChunk (c_mem c) (c_off c + o) (c_size c - o)) = skipn (Z.to_nat o) (cbytes c).
Proof.
  intros c o H Ho. rewrite cbytes_sub by (auto; lia).
  apply firstn_all2. rewrite skipn_length.
  pose proof (zlen_cbytes c H) as L; unfold zlen in L. lia.
Qed.

Lemma nth_error_skipn : forall {A} a (l : list A) i, nth_error (skipn a l) i = nth_error l (a + i).
Proof.
  intros A a; induction a; intros l i; [reflexivity|].
  destruct l; cbn; [now destruct i|]. apply IHa.
Qed.

Lemma cbyte_spec : forall c i, chunk_ok c -> 0 <= i < c_size c ->
  exists b, nth_error (cbytes c) (Z.to_nat i) = Some b /\ cbyte c i = Ok b.
Proof.
  intros c i H Hi. pose proof H as (H1 & H2 & H3 & H4).
  destruct (nth_error (cbytes c) (Z.to_nat i)) as [b|] eqn:E.
  - exists b; split; [reflexivity|]. unfold cbyte.
    destruct (c_off c + i <? 0) eqn:E0; [lia|].
    assert (nth_error (c_mem c) (Z.to_nat (c_off c + i)) = Some b) as ->; [|reflexivity].
    rewrite <- E. unfold cbytes.
    assert (forall (l : list Z) n k, (k < n)%nat -> nth_error (firstn n l) k = nth_error l k) as F.
    { induction l as [|x l IH]; intros n k Hk.
      - rewrite firstn_nil. reflexivity.
      - destruct n; [lia|]. destruct k; [reflexivity|]. cbn. apply IH; lia. }
    rewrite F by lia. rewrite nth_error_skipn. f_equal. lia.
  - apply nth_error_None in E. pose proof (zlen_cbytes c H) as L; unfold zlen in L. lia.
Qed.

Lemma skipn_S_nth : forall {A} k (l : list A) b, nth_error l k = Some b -> skipn k l = b :: skipn (S k) l.
Proof.
  intros A k; induction k; intros l b H; destruct l; cbn in *; try discriminate.
  - now injection H as ->.
  - now apply IHk.
Qed.

Lemma cread_spec : forall n c i, chunk_ok c -> 0 <= i -> i + Z.of_nat n <= c_size c ->
  cread c n i = Ok (firstn n (skipn (Z.to_nat i) (cbytes c))).
Proof.
  induction n as [|n IH]; intros c i H Hi Hn; [reflexivity|].
  cbn [cread]. destruct (cbyte_spec c i H ltac:(lia)) as (b & E & ->).
  cbn [rbind]. rewrite (IH c (i + 1) H ltac:(lia) ltac:(lia)). cbn [rbind].
  rewrite (skipn_S_nth _ _ _ E). cbn [firstn]. do 3 f_equal. f_equal. lia.
Qed.

Lemma extract_spec : forall n c, chunk_ok c ->
  extract n c = if c_size c <? Z.of_nat n then Err RangeError else Ok (le_value (firstn n (cbytes c))).
Proof.
  intros n c H. unfold extract, bounds_check.
  destruct (c_size c <? Z.of_nat n) eqn:E; [reflexivity|].
  cbn [rbind]. rewrite cread_spec by (auto; lia). reflexivity.
Qed.

Lemma to_string_spec : forall c, chunk_ok c -> to_string c = Ok (cbytes c).
Proof.
  intros c H. unfold to_string. pose proof H as (H1 & H2 & H3 & H4).
  rewrite cread_spec by (auto; lia). cbn [Z.to_nat skipn].
  rewrite firstn_all2; [reflexivity|]. pose proof (zlen_cbytes c H) as L; unfold zlen in L. lia.
Qed.

Lemma le_value_app : forall a b, le_value (a ++ b) = le_value a + 2 ^ (8 * zlen a) * le_value b.
Proof.
  induction a as [|x a IH]; intros b.
  - unfold zlen; cbn [app le_value length]. change (2 ^ (8 * Z.of_nat 0)) with 1. lia.
  - cbn [app le_value]. rewrite IH, zlen_cons.
    replace (8 * (1 + zlen a)) with (8 + 8 * zlen a) by lia.
    rewrite Z.pow_add_r by (pose proof (zlen_nonneg a); lia). change (2 ^ 8) with 256. ring.
Qed.

Lemma le_value_range : forall l, bytes_ok l -> 0 <= le_value l < 2 ^ (8 * zlen l).
Proof.
  induction l as [|x l IH]; intros H.
  - unfold zlen; cbn; lia.
  - inversion H as [|? ? Hx Hl]; subst. specialize (IH Hl). unfold byte_ok in Hx.
    cbn [le_value]. rewrite zlen_cons. replace (8 * (1 + zlen l)) with (8 + 8 * zlen l) by lia.
    rewrite Z.pow_add_r by (pose proof (zlen_nonneg l); lia). change (2 ^ 8) with 256. nia.
Qed.

Lemma le_value_inj : forall a b, bytes_ok a -> bytes_ok b -> length a = length b -> le_value a = le_value b -> a = b.
Proof.
  induction a as [|x a IH]; intros [|y b] Ha Hb L E; cbn in L; try lia; [reflexivity|].
  inversion Ha as [|? ? Hx Ha']; inversion Hb as [|? ? Hy Hb']; subst. unfold byte_ok in *.
  cbn [le_value] in E.
  assert (le_value a = le_value b) by lia. f_equal; [lia|]. apply IH; auto; lia.
Qed.

Lemma lor_disjoint : forall a b k, 0 <= k -> 0 <= a < 2 ^ k -> Z.lor a (b * 2 ^ k) = a + b * 2 ^ k.
Proof.
  intros a b k Hk Ha.
  assert (Z.land a (b * 2 ^ k) = 0) as Hl.
  { apply Z.bits_inj'; intros n Hn. rewrite Z.land_spec, Z.bits_0.
    destruct (Z_lt_ge_dec n k).
    - rewrite Z.mul_pow2_bits_low by lia. now rewrite andb_false_r.
    - assert (Z.testbit a n = false) as ->; [|reflexivity].
      destruct (Z.eq_dec a 0); [subst; apply Z.bits_0|].
      apply Z.bits_above_log2; [lia|].
      apply Z.log2_lt_pow2; [lia|]. apply Z.lt_le_trans with (2 ^ k); [lia|]. apply Z.pow_le_mono_r; lia. }
  now rewrite <- Z.lxor_lor, <- Z.add_nocarry_lxor by assumption.
Qed.

(** Low 32 bits of what the loop of [bits] assembles. *)
Lemma bits_loop_spec : forall n c i val, chunk_ok c -> bytes_ok (cbytes c) -> 0 <= i -> (Z.of_nat n + i <= 4) ->
  i + Z.of_nat n <= c_size c -> 0 <= val < 2 ^ (8 * i) ->
  exists v, bits_loop c n i val = Ok v /\ 0 <= v /\
  v mod 2 ^ 32 = val + 2 ^ (8 * i) * le_value (firstn n (skipn (Z.to_nat i) (cbytes c))).
Proof.
  induction n as [|n IH]; intros c i val H HB Hi Hn Hs Hv.
  - exists val. cbn [bits_loop firstn le_value]. repeat split; try lia. rewrite Z.mod_small; [lia|].
    split; [lia|]. apply Z.lt_le_trans with (2 ^ (8 * i)); [lia|]. apply Z.pow_le_mono_r; lia.
  - cbn [bits_loop]. destruct (cbyte_spec c i H ltac:(lia)) as (b & E & ->). cbn [rbind].
    assert (byte_ok b) as Hb by (eapply Forall_forall; [exact HB|eapply nth_error_In; eauto]).
    unfold byte_ok in Hb. unfold shl_int. destruct (i <=? 3) eqn:E3; [|lia]. cbn [rbind].
    rewrite (skipn_S_nth _ _ _ E). cbn [firstn le_value].
    destruct (Z_lt_ge_dec (b * 2 ^ (8 * i)) (2 ^ 31)) as [Hsm|Hbg].
    + assert (b * 2 ^ (8 * i) <? 2 ^ 31 = true) as -> by lia.
      unfold wrap. rewrite Z.mod_small by (split; [|lia]; apply Z.mul_nonneg_nonneg; [lia|apply Z.pow_nonneg; lia]).
      rewrite lor_disjoint by lia.
      destruct (IH c (i + 1) (val + b * 2 ^ (8 * i)) H HB ltac:(lia) ltac:(lia) ltac:(lia)) as (v & Ev & Hv0 & Hvm).
      { replace (8 * (i + 1)) with (8 * i + 8) by lia. rewrite Z.pow_add_r by lia. change (2 ^ 8) with 256. nia. }
      exists v. split; [exact Ev|]. split; [exact Hv0|]. rewrite Hvm.
      replace (8 * (i + 1)) with (8 * i + 8) by lia. rewrite Z.pow_add_r by lia. change (2 ^ 8) with 256.
      replace (Z.to_nat (i + 1)) with (S (Z.to_nat i)) by lia. ring.
    + assert (b * 2 ^ (8 * i) <? 2 ^ 31 = false) as -> by lia.
      assert (i = 3) as ->.
      { destruct (Z.eq_dec i 3); [assumption|]. exfalso.
        assert (2 ^ (8 * i) <= 2 ^ 16) by (apply Z.pow_le_mono_r; lia). nia. }
      assert (n = 0%nat) as -> by lia. cbn [bits_loop firstn le_value].
      change (2 ^ (8 * 3)) with 16777216 in *. unfold wrap.
      assert ((b * 16777216 - 2 ^ 32) mod 2 ^ 64 = (b - 256 + 2 ^ 40) * 2 ^ 24) as ->.
      { symmetry. apply Z.mod_unique with (-1); [|ring]. left. change (2 ^ 40) with 1099511627776.
        change (2 ^ 24) with 16777216. change (2 ^ 64) with 18446744073709551616. lia. }
      rewrite lor_disjoint by (change (2 ^ 24) with 16777216; lia).
      exists (val + (b - 256 + 2 ^ 40) * 2 ^ 24). split; [reflexivity|].
      change (2 ^ 40) with 1099511627776. change (2 ^ 24) with 16777216. change (2 ^ 32) with 4294967296.
      split; [lia|]. symmetry. apply Z.mod_unique with (2 ^ 32 - 1); [lia|].
      change (2 ^ 32) with 4294967296. ring.
Qed.

Lemma land_mask : forall x n, 0 <= n -> Z.land x (2 ^ n - 1) = x mod 2 ^ n.
Proof.
  intros x n Hn. rewrite <- Z.land_ones by lia. f_equal. rewrite Z.ones_equiv. lia.
Qed.

(** What [bits] returns for fields within the first 32 bits. *)
Lemma bits_spec : forall c o n, chunk_ok c -> bytes_ok (cbytes c) -> 0 <= o -> 1 <= n <= 30 -> o + n <= 32 ->
  bits c o n =
  (let k := 1 + (o + n - 1) / 8 in
   if c_size c <? k then Err RangeError
   else Ok ((le_value (firstn (Z.to_nat k) (cbytes c)) / 2 ^ o) mod 2 ^ n)).
Proof.
  intros c o n H HB Ho Hn Hon. unfold bits, bounds_check, wrap. cbv zeta.
  rewrite (Z.mod_small (o + n - 1)) by lia.
  rewrite (Z.mod_small (1 + _)) by lia.
  set (k := 1 + (o + n - 1) / 8). assert (1 <= k <= 4) as Hk by (unfold k; lia).
  destruct (c_size c <? k) eqn:E; [reflexivity|]. cbn [rbind].
  destruct (8 <? k) eqn:E8; [lia|].
  destruct (bits_loop_spec (Z.to_nat k) c 0 0 H HB ltac:(lia) ltac:(lia) ltac:(lia) ltac:(cbn; lia)) as (v & -> & Hv0 & Hvm).
  cbn [rbind]. unfold bit_mask. destruct (63 <? n) eqn:E63; [lia|]. destruct (31 <=? n) eqn:E31; [lia|].
  cbn [rbind]. f_equal. rewrite land_mask by lia. rewrite Z.shiftr_div_pow2 by lia.
  change (Z.to_nat 0) with 0%nat in Hvm. cbn [skipn] in Hvm.
  change (2 ^ (8 * 0)) with 1 in Hvm. rewrite Z.add_0_l, Z.mul_1_l in Hvm. rewrite <- Hvm.
  apply Z.bits_inj'; intros m Hm.
  destruct (Z_lt_ge_dec m n).
  - rewrite !Z.mod_pow2_bits_low by lia. rewrite !Z.div_pow2_bits by lia. now rewrite Z.mod_pow2_bits_low by lia.
  - rewrite !Z.mod_pow2_bits_high by lia. reflexivity.
Qed.
