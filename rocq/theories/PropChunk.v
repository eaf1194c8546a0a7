(** C22: sub-slicing a byte view never escapes it; fixed-width reads. *)
From Verif Require Import Base ChunkModel ChunkProofs.

(** View [d] lies completely within view [c]. *)
Definition within (d c : chunk) : Prop :=
  c_mem d = c_mem c /\ 0 <= c_size d /\ c_off c <= c_off d /\ c_off d + c_size d <= c_off c + c_size c.

Lemma within_refl : forall c, 0 <= c_size c -> within c c.
Proof. intros c H; unfold within; repeat split; lia. Qed.

Lemma within_trans : forall a b c, within a b -> within b c -> within a c.
Proof. unfold within; intros a b c (A1 & A2 & A3 & A4) (B1 & B2 & B3 & B4); repeat split; try lia; congruence. Qed.

Lemma within_ok : forall d c, chunk_ok c -> within d c -> chunk_ok d.
Proof. unfold chunk_ok, within; intros d c (C1 & C2 & C3 & C4) (D1 & D2 & D3 & D4); rewrite D1; lia. Qed.

(** Sub-view with any offset and length whose sum fits a 64-bit word: a range
    error if it would escape, else exactly the requested bytes. *)
Theorem C22_slice : forall c o n,
  chunk_ok c -> 0 <= o < 2 ^ 64 -> 0 <= n < 2 ^ 64 -> o + n < 2 ^ 64 ->
  match csub c o n with
  | Ok d => o + n <= c_size c /\ within d c /\ cbytes d = firstn (Z.to_nat n) (skipn (Z.to_nat o) (cbytes c))
  | Err e => c_size c < o + n /\ e = RangeError
  end.
Proof.
  intros c o n H Ho Hn Hon.
  destruct (Z_le_gt_dec (o + n) (c_size c)) as [L|G].
  - rewrite csub_spec by (auto; lia). split; [assumption|]. split.
    + pose proof H as (H1 & H2 & H3 & H4). unfold within; cbn; repeat split; lia.
    + apply cbytes_sub; auto; lia.
  - rewrite csub_range by lia. split; [lia|reflexivity].
Qed.

(** The one-argument form needs no condition at all. *)
Theorem C22_tail : forall c o,
  chunk_ok c -> 0 <= o < 2 ^ 64 ->
  match ctail c o with
  | Ok d => o <= c_size c /\ within d c /\ cbytes d = skipn (Z.to_nat o) (cbytes c)
  | Err e => c_size c < o /\ e = RangeError
  end.
Proof.
  intros c o H Ho. destruct (Z_le_gt_dec o (c_size c)) as [L|G].
  - rewrite ctail_spec by (auto; lia). split; [assumption|]. split.
    + pose proof H as (H1 & H2 & H3 & H4). unfold within; cbn; repeat split; lia.
    + apply cbytes_tail; auto; lia.
  - rewrite ctail_range by lia. split; [lia|reflexivity].
Qed.

(** Chains of slicing operations. *)
Inductive slicing : Type := Slice (o n : Z) | Tail (o : Z).
Definition slicing_ok (s : slicing) : Prop :=
  match s with
  | Slice o n => 0 <= o /\ 0 <= n /\ o + n < 2 ^ 64
  | Tail o => 0 <= o < 2 ^ 64
  end.
Definition slice_once (c : chunk) (s : slicing) : res cerr chunk :=
  match s with Slice o n => csub c o n | Tail o => ctail c o end.
Fixpoint slice_all (c : chunk) (l : list slicing) : res cerr chunk :=
  match l with
  | [] => Ok c
  | s :: r => let! d := slice_once c s in slice_all d r
  end.

Theorem C22_chain : forall l c,
  chunk_ok c -> Forall slicing_ok l ->
  match slice_all c l with
  | Ok d => within d c /\ chunk_ok d
  | Err e => e = RangeError
  end.
Proof.
  induction l as [|s l IH]; intros c H HF; cbn [slice_all].
  - split; [|assumption]. apply within_refl. apply H.
  - inversion HF as [|? ? Hs HF']; subst.
    assert (match slice_once c s with Ok d => within d c | Err e => e = RangeError end) as K.
    { destruct s as [o n|o]; cbn [slice_once slicing_ok] in *.
      - pose proof (C22_slice c o n H ltac:(lia) ltac:(lia) ltac:(lia)) as P. destruct (csub c o n); apply P.
      - pose proof (C22_tail c o H ltac:(lia)) as P. destruct (ctail c o); apply P. }
    destruct (slice_once c s) as [d|e]; cbn [rbind]; [|assumption].
    specialize (IH d (within_ok _ _ H K) HF').
    destruct (slice_all d l) as [d'|e]; [|assumption].
    destruct IH as [W O]. split; [|assumption]. eapply within_trans; eauto.
Qed.

(** Without the condition on the sum the statement is false: one wrap-around
    gives a view of 2^64 - 1 bytes on a buffer of four. *)
Theorem C22_slice_any_length_refuted :
  exists c o n d, chunk_ok c /\ 0 <= o < 2 ^ 64 /\ 0 <= n < 2 ^ 64 /\ csub c o n = Ok d /\ ~ within d c.
Proof.
  exists (chunk_of [1; 2; 3; 4]), 1, (2 ^ 64 - 1), (mkChunk [1; 2; 3; 4] 1 (2 ^ 64 - 1)).
  repeat split; try (cbn; lia). unfold within; cbn. lia.
Qed.

(** The bytes of [v] in little-endian order. *)
Fixpoint le_bytes (n : nat) (v : Z) : list Z :=
  match n with
  | O => []
  | S n' => v mod 256 :: le_bytes n' (v / 256)
  end.

Lemma le_bytes_length : forall n v, length (le_bytes n v) = n.
Proof. induction n; intros; cbn; auto. Qed.

Lemma le_bytes_ok : forall n v, bytes_ok (le_bytes n v).
Proof.
  induction n; intros v; cbn; constructor; [unfold byte_ok; lia|]. apply IHn.
Qed.

Lemma le_value_bytes : forall n v, le_value (le_bytes n v) = v mod 2 ^ (8 * Z.of_nat n).
Proof.
  induction n; intros v; cbn [le_bytes le_value].
  - change (2 ^ (8 * Z.of_nat 0)) with 1. now rewrite Z.mod_1_r.
  - rewrite IHn. replace (8 * Z.of_nat (S n)) with (8 + 8 * Z.of_nat n) by lia.
    rewrite Z.pow_add_r by lia. change (2 ^ 8) with 256.
    rewrite Z.rem_mul_r by lia. lia.
Qed.

(** Fixed-width reads return the little-endian value, from views of at least
    that width; from shorter ones they fail. *)
Theorem C22_fixed_width : forall n c,
  (n = 1 \/ n = 2 \/ n = 4 \/ n = 8)%nat -> chunk_ok c ->
  (forall v rest, 0 <= v < 2 ^ (8 * Z.of_nat n) -> cbytes c = le_bytes n v ++ rest -> extract n c = Ok v) /\
  (c_size c < Z.of_nat n -> extract n c = Err RangeError).
Proof.
  intros n c _ H. rewrite extract_spec by assumption. split.
  - intros v rest Hv E. pose proof (zlen_cbytes c H) as L. rewrite E, zlen_app in L.
    pose proof (zlen_nonneg rest). unfold zlen in L at 1. rewrite le_bytes_length in L.
    destruct (c_size c <? Z.of_nat n) eqn:E1; [lia|]. rewrite E.
    rewrite <- (le_bytes_length n v) at 1. rewrite firstn_app, firstn_all, Nat.sub_diag, app_nil_r.
    rewrite le_value_bytes, Z.mod_small by assumption. reflexivity.
  - intros L. destruct (c_size c <? Z.of_nat n) eqn:E1; [reflexivity|lia].
Qed.

(** Bit fields that end within the first 32 bits: bit [i] of the result is bit
    [o + i] of the view's bytes, counting from the least significant bit of the
    first byte; if a needed byte is missing, a range error. *)
Theorem C22_bit_field : forall c o n,
  chunk_ok c -> bytes_ok (cbytes c) -> 0 <= o -> 1 <= n <= 30 -> o + n <= 32 ->
  (8 * c_size c < o + n -> bits c o n = Err RangeError) /\
  (o + n <= 8 * c_size c ->
   exists v, bits c o n = Ok v /\ 0 <= v < 2 ^ n /\
   forall i, 0 <= i < n ->
     Z.testbit v i = Z.testbit (nth (Z.to_nat ((o + i) / 8)) (cbytes c) 0) ((o + i) mod 8)).
Proof.
  intros c o n H HB Ho Hn Hon. rewrite bits_spec by assumption. cbv zeta. split.
  - intros L. destruct (c_size c <? 1 + (o + n - 1) / 8) eqn:E; [reflexivity|lia].
  - intros L. destruct (c_size c <? 1 + (o + n - 1) / 8) eqn:E; [lia|].
    eexists. split; [reflexivity|]. split; [apply Z.mod_pos_bound; lia|].
    intros i Hi. rewrite Z.mod_pow2_bits_low by lia. rewrite Z.div_pow2_bits by lia.
    assert (forall l k j, bytes_ok l -> (Z.to_nat (j / 8) < k)%nat -> 0 <= j ->
      Z.testbit (le_value (firstn k l)) j = Z.testbit (nth (Z.to_nat (j / 8)) l 0) (j mod 8)) as K.
    { induction l as [|x l IH]; intros k j Hl Hk Hj.
      - rewrite firstn_nil. cbn [le_value]. destruct (Z.to_nat (j / 8)); cbn [nth]; now rewrite !Z.bits_0.
      - destruct k; [lia|]. inversion Hl as [|? ? Hx Hl']; subst. unfold byte_ok in Hx. cbn [firstn le_value].
        assert (x + 256 * le_value (firstn k l) = Z.lor x (le_value (firstn k l) * 2 ^ 8)) as ->.
        { rewrite lor_disjoint by lia. change (2 ^ 8) with 256. lia. }
        rewrite Z.lor_spec. destruct (Z_lt_ge_dec j 8).
        + rewrite Z.mul_pow2_bits_low by lia. rewrite orb_false_r.
          rewrite Z.div_small, Z.mod_small by lia. reflexivity.
        + assert (Z.testbit x j = false) as ->.
          { destruct (Z.eq_dec x 0); [subst; apply Z.bits_0|]. apply Z.bits_above_log2; [lia|].
            apply Z.log2_lt_pow2; [lia|]. apply Z.lt_le_trans with (2 ^ 8); [cbn; lia|]. apply Z.pow_le_mono_r; lia. }
          rewrite Z.mul_pow2_bits by lia. cbn [orb].
          assert (Z.to_nat (j / 8) = S (Z.to_nat ((j - 8) / 8))) as Q.
          { assert (j / 8 = (j - 8) / 8 + 1) by lia. lia. }
          rewrite Q in Hk |- *. cbn [nth].
          rewrite IH by (auto; lia). f_equal. lia. }
    rewrite (Z.add_comm i o). apply K; [assumption| |lia]. lia.
Qed.

(** Wider fields are not covered: from 31 bits on, or from the fifth byte on,
    the expressions are undefined. *)
Example C22_wide_field_undefined :
  bits (chunk_of [1; 2; 3; 4; 5; 6; 7; 8]) 0 31 = Err Undefined /\
  bits (chunk_of [1; 2; 3; 4; 5; 6; 7; 8]) 32 8 = Err Undefined.
Proof. split; reflexivity. Qed.

Example C22_nontrivial :
  let c := chunk_of [1; 2; 3; 4; 5] in
  chunk_ok c /\
  csub c 1 3 = Ok (mkChunk [1; 2; 3; 4; 5] 1 3) /\ cbytes (mkChunk [1; 2; 3; 4; 5] 1 3) = [2; 3; 4] /\
  csub c 3 3 = Err RangeError /\
  slice_all c [Slice 1 4; Tail 2; Slice 0 1] = Ok (mkChunk [1; 2; 3; 4; 5] 3 1) /\
  le16 c = Ok 513 /\ extract 2 (chunk_of [1]) = Err RangeError /\
  bits (chunk_of [0; 0; 0; 255]) 30 2 = Ok 3 /\ bits (chunk_of [176; 1]) 4 7 = Ok 27.
Proof.
  cbv zeta. split; [apply chunk_ok_of; unfold zlen; cbn; lia|]. repeat split; reflexivity.
Qed.

Print Assumptions C22_slice.
Print Assumptions C22_tail.
Print Assumptions C22_chain.
Print Assumptions C22_slice_any_length_refuted.
Print Assumptions C22_fixed_width.
Print Assumptions C22_bit_field.
