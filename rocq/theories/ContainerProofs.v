(** Facts about the frame container. *)
From Verif Require Import Base ChunkModel ChunkProofs PropChunk ContainerModel.

Lemma bytes_ok_app : forall a b, bytes_ok (a ++ b) <-> bytes_ok a /\ bytes_ok b.
Proof. intros; apply Forall_app. Qed.

Lemma bytes_ok_sub : forall l n k, bytes_ok l -> bytes_ok (firstn n (skipn k l)).
Proof.
  intros l n k H. unfold bytes_ok in *. rewrite Forall_forall in *. intros x Hx. apply H.
  rewrite <- (firstn_skipn k l). apply in_or_app; right.
  rewrite <- (firstn_skipn n (skipn k l)). apply in_or_app; now left.
Qed.

Lemma bytes_ok_within : forall d c, chunk_ok c -> bytes_ok (cbytes c) -> within d c -> bytes_ok (cbytes d).
Proof.
  intros d c H HB (W1 & W2 & W3 & W4).
  pose proof (cbytes_sub c (c_off d - c_off c) (c_size d) H ltac:(lia) W2 ltac:(lia)) as E.
  replace (c_off c + (c_off d - c_off c)) with (c_off d) in E by lia. rewrite <- W1 in E.
  unfold cbytes in *. cbn in E. rewrite E. apply bytes_ok_sub, HB.
Qed.

Lemma bits_cases : forall c o n, chunk_ok c -> bytes_ok (cbytes c) -> 0 <= o -> 1 <= n <= 30 -> o + n <= 32 ->
  (c_size c < 1 + (o + n - 1) / 8 /\ bits c o n = Err RangeError) \/
  (1 + (o + n - 1) / 8 <= c_size c /\ exists v, bits c o n = Ok v /\ 0 <= v < 2 ^ n).
Proof.
  intros c o n H HB Ho Hn Hon. rewrite bits_spec by assumption. cbv zeta.
  destruct (c_size c <? 1 + (o + n - 1) / 8) eqn:E; [left; split; [lia|reflexivity]|right].
  split; [lia|]. eexists; split; [reflexivity|]. apply Z.mod_pos_bound; lia.
Qed.

(** ** The frame tag *)

Section Tag.
  Variables (b0 b1 b2 : Z) (r : list Z) (c : chunk).
  Hypothesis Hc : chunk_ok c.
  Hypothesis HB : bytes_ok (cbytes c).
  Hypothesis HE : cbytes c = b0 :: b1 :: b2 :: r.

  Lemma tag_size : 3 <= c_size c.
  Proof.
    pose proof (zlen_cbytes c Hc) as L. rewrite HE in L. rewrite !zlen_cons in L. pose proof (zlen_nonneg r). lia.
  Qed.

  Lemma tag_bytes : 0 <= b0 < 256 /\ 0 <= b1 < 256 /\ 0 <= b2 < 256.
  Proof. rewrite HE in HB. inversion HB as [|? ? A1 B1]; inversion B1 as [|? ? A2 B2]; inversion B2 as [|? ? A3 B3]; subst. unfold byte_ok in *; lia. Qed.

  Lemma tag_5 : bits c 5 19 = Ok (b0 / 32 + 8 * b1 + 2048 * b2).
  Proof.
    pose proof tag_size; pose proof tag_bytes. rewrite bits_spec by (auto; lia). cbv zeta.
    change (1 + (5 + 19 - 1) / 8) with 3. destruct (c_size c <? 3) eqn:E; [lia|]. rewrite HE.
    change (Z.to_nat 3) with 3%nat. cbn [firstn le_value].
    f_equal. change (2 ^ 5) with 32. change (2 ^ 19) with 524288. lia.
  Qed.
End Tag.

(** ** What the parser does, by length of the input *)

(** Header fields by arithmetic on the first bytes. *)
Definition tag_key (l : list Z) : bool := nth 0 l 0 mod 2 =? 0.
Definition tag_show (l : list Z) : bool := negb ((nth 0 l 0 / 16) mod 2 =? 0).
Definition tag_version (l : list Z) : Z := (nth 0 l 0 / 2) mod 8.
Definition tag_length (l : list Z) : Z := nth 0 l 0 / 32 + 8 * nth 1 l 0 + 2048 * nth 2 l 0.
Definition tag_offset (l : list Z) : Z := if tag_key l then 10 else 3.
(** Key frame start code, size and scaling bits. *)
Definition start_code (l : list Z) : list Z := firstn 3 (skipn 3 l).
Definition frame_width (l : list Z) : Z := nth 6 l 0 + 256 * (nth 7 l 0 mod 64).
Definition frame_height (l : list Z) : Z := nth 8 l 0 + 256 * (nth 9 l 0 mod 64).
Definition frame_scaling (l : list Z) : Z := nth 7 l 0 / 64 + nth 9 l 0 / 64.

Lemma nth_first_cbytes : forall c n, chunk_ok c -> Z.of_nat n <= c_size c -> firstn n (cbytes c) ++ skipn n (cbytes c) = cbytes c.
Proof. intros; apply firstn_skipn. Qed.

Lemma sizes_fields : forall c, chunk_ok c -> bytes_ok (cbytes c) -> 10 <= c_size c ->
  exists s, csub c 6 4 = Ok s /\
  bits s 14 2 = Ok (nth 7 (cbytes c) 0 / 64) /\ bits s 30 2 = Ok (nth 9 (cbytes c) 0 / 64) /\
  bits s 0 14 = Ok (frame_width (cbytes c)) /\ bits s 16 14 = Ok (frame_height (cbytes c)).
Proof.
  intros c H HB Hs. eexists. split; [apply csub_spec; auto; lia|].
  set (s := mkChunk _ _ _).
  assert (chunk_ok s) as Hok by (apply csub_ok; auto; lia).
  assert (cbytes s = firstn 4 (skipn 6 (cbytes c))) as E by (unfold s; apply cbytes_sub; auto; lia).
  assert (bytes_ok (cbytes s)) as HBs by (rewrite E; apply bytes_ok_sub, HB).
  assert (c_size s = 4) as Hsz by reflexivity. clearbody s.
  pose proof (zlen_cbytes c H) as L. unfold frame_width, frame_height.
  destruct (cbytes c) as [|a0 [|a1 [|a2 [|a3 [|a4 [|a5 [|a6 [|a7 [|a8 [|a9 r]]]]]]]]]] eqn:EC;
    try (unfold zlen in L; cbn in L; lia).
  cbn [nth skipn firstn] in *.
  assert (0 <= a6 < 256 /\ 0 <= a7 < 256 /\ 0 <= a8 < 256 /\ 0 <= a9 < 256) as R.
  { rewrite E in HBs. unfold bytes_ok in HBs. rewrite !Forall_cons_iff in HBs. unfold byte_ok in HBs. tauto. }
  rewrite !bits_spec by (auto; lia). cbv zeta.
  change (1 + (14 + 2 - 1) / 8) with 2. change (1 + (30 + 2 - 1) / 8) with 4.
  change (1 + (0 + 14 - 1) / 8) with 2. change (1 + (16 + 14 - 1) / 8) with 4.
  rewrite Hsz. change (4 <? 2) with false. change (4 <? 4) with false. cbv iota.
  change (Z.to_nat 2) with 2%nat. change (Z.to_nat 4) with 4%nat. rewrite E. cbn [firstn le_value].
  change (2 ^ 14) with 16384. change (2 ^ 30) with 1073741824. change (2 ^ 0) with 1. change (2 ^ 16) with 65536. change (2 ^ 2) with 4.
  repeat split; f_equal; lia.
Qed.

(** A key frame's start code and size. *)
Definition key_ok (l : list Z) (w h : Z) : Prop :=
  start_code l = [157; 1; 42] /\ frame_width l = w /\ frame_height l = h /\ frame_scaling l = 0.

Definition sizes_bad (l : list Z) (w h : Z) : bool :=
  negb (frame_width l =? w) || negb (frame_height l =? h) || negb (nth 7 l 0 / 64 =? 0) || negb (nth 9 l 0 / 64 =? 0).

(** Everything the constructor can do, by cases on the input. *)
Lemma uncompressed_chunk_cases : forall c w h partial, chunk_ok c -> bytes_ok (cbytes c) ->
  let l := cbytes c in
  let ok_version := tag_version l = 0 \/ tag_version l = 4 \/ tag_version l = 6 in
  match uncompressed_chunk c w h partial with
  | Ok u =>
      (* the whole frame is there *)
      (uc_corruption u = NO_CORRUPTION /\ ok_version /\ tag_offset l + tag_length l < c_size c /\
       3 <= c_size c /\
       uc_key u = tag_key l /\ uc_show u = tag_show l /\
       uc_loop_filter u = negb (tag_version l =? 6) /\ uc_experimental u = negb (tag_version l =? 0) /\
       (tag_key l = true -> key_ok l w h) /\
       uc_first u = mkChunk (c_mem c) (c_off c + tag_offset l) (tag_length l) /\
       uc_rest u = mkChunk (c_mem c) (c_off c + (tag_offset l + tag_length l)) (c_size c - tag_offset l - tag_length l)) \/
      (* the first partition is cut *)
      (uc_corruption u = CORRUPTED_FIRST_PARTITION /\ partial = true /\ ok_version /\
       3 <= c_size c /\ tag_offset l <= c_size c <= tag_offset l + tag_length l /\
       uc_key u = tag_key l /\ uc_show u = tag_show l /\
       uc_loop_filter u = negb (tag_version l =? 6) /\ uc_experimental u = negb (tag_version l =? 0) /\
       (tag_key l = true -> key_ok l w h) /\
       uc_first u = mkChunk (c_mem c) (c_off c + tag_offset l) (c_size c - tag_offset l) /\ uc_rest u = null_chunk) \/
      (* not even that *)
      (uc_corruption u = CORRUPTED_FRAME /\ partial = true /\ (c_size c < 3 \/ c_size c < tag_offset l) /\
       uc_key u = false /\ uc_loop_filter u = true /\ uc_experimental u = false /\
       uc_show u = (if c_size c =? 0 then false else tag_show l) /\
       uc_first u = null_chunk /\ uc_rest u = null_chunk)
  | Err UcInvalid =>
      (partial = false /\ (c_size c < 3 \/ c_size c <= tag_offset l + tag_length l)) \/
      (tag_key l = true /\ 10 <= c_size c /\ start_code l <> [157; 1; 42])
  | Err UcUnsupported =>
      (1 <= c_size c /\ ~ ok_version) \/
      (tag_key l = true /\ 10 <= c_size c /\ start_code l = [157; 1; 42] /\ ~ key_ok l w h)
  | Err UcUndefined => False
  end.
Proof.
  intros c w h partial H HB l ok_version.
  pose proof (zlen_cbytes c H) as L. fold l in L.
  assert (Hsub : forall o n, 0 <= o -> 0 <= n -> o + n <= c_size c -> csub c o n = Ok (mkChunk (c_mem c) (c_off c + o) n))
    by (intros; apply csub_spec; auto).
  assert (forall i, 0 <= nth i l 0 < 256) as Hb.
  { intros i. destruct (nth_in_or_default i l 0) as [Hin|E]; [|rewrite E; lia].
    pose proof (proj1 (Forall_forall _ _) HB _ Hin) as K. exact K. }
  destruct (Z_lt_ge_dec (c_size c) 1) as [S1|S1].
  { (* empty input *)
    assert (bits c 0 1 = Err RangeError) as E0.
    { rewrite bits_spec by (auto; lia). cbv zeta. change (1 + (0 + 1 - 1) / 8) with 1.
      destruct (c_size c <? 1) eqn:E; [reflexivity|lia]. }
    unfold uncompressed_chunk, uc_try. rewrite E0. cbn [rbind lift_c].
    destruct partial; [|left; split; [reflexivity|lia]].
    right; right. cbn. pose proof H as (_ & P & _). assert (c_size c =? 0 = true) as -> by lia.
    repeat split; auto; lia. }
  (* first byte *)
  assert (1 <= length l)%nat as Ln1 by (unfold zlen in L; lia).
  assert (forall o n, 0 <= o -> 1 <= n -> o + n <= 8 -> bits c o n = Ok ((nth 0 l 0 / 2 ^ o) mod 2 ^ n)) as Hbit.
  { intros o n Ho Hn Hon. rewrite bits_spec by (auto; lia). cbv zeta.
    replace (1 + (o + n - 1) / 8) with 1 by lia. destruct (c_size c <? 1) eqn:E; [lia|].
    fold l. destruct l as [|b r]; [cbn in Ln1; lia|]. change (Z.to_nat 1) with 1%nat. cbn [firstn le_value nth].
    now rewrite Z.mul_0_r, Z.add_0_r. }
  unfold uncompressed_chunk, uc_try. rewrite !Hbit by lia. cbn [rbind lift_c].
  change (2 ^ 0) with 1. change (2 ^ 1) with 2. change (2 ^ 3) with 8. change (2 ^ 4) with 16. rewrite Z.div_1_r.
  fold (tag_key l) (tag_show l) (tag_version l).
  assert (forall X (k : bool -> bool -> res uc_raise X),
    rbind (if tag_version l =? 0 then Ok (true, false) else if tag_version l =? 4 then Ok (true, true)
           else if tag_version l =? 6 then Ok (false, true) else Err (UThrow UcUnsupported)) (fun '(a, b) => k a b) =
    if (tag_version l =? 0) || (tag_version l =? 4) || (tag_version l =? 6)
    then k (negb (tag_version l =? 6)) (negb (tag_version l =? 0)) else Err (UThrow UcUnsupported)) as Hver.
  { intros X k. destruct (tag_version l =? 0) eqn:E0, (tag_version l =? 4) eqn:E4, (tag_version l =? 6) eqn:E6; try lia; reflexivity. }
  rewrite (Hver uchunk (fun normal experimental => _)). clear Hver.
  destruct ((tag_version l =? 0) || (tag_version l =? 4) || (tag_version l =? 6)) eqn:EV.
  2: { left. split; [lia|]. unfold ok_version. lia. }
  assert (ok_version) as HV by (unfold ok_version; lia).
  clearbody ok_version. clear EV Hbit.
  destruct (Z_lt_ge_dec (c_size c) 3) as [S3|S3].
  { assert (bits c 5 19 = Err RangeError) as ->.
    { rewrite bits_spec by (auto; lia). cbv zeta. change (1 + (5 + 19 - 1) / 8) with 3.
      destruct (c_size c <? 3) eqn:E; [reflexivity|lia]. }
    cbn [rbind lift_c]. destruct partial; [|left; split; [reflexivity|lia]].
    right; right. cbn. assert (c_size c =? 0 = false) as -> by lia. repeat split; auto; lia. }
  assert (bits c 5 19 = Ok (tag_length l)) as ->.
  { unfold tag_length. destruct l as [|a0 [|a1 [|a2 r]]] eqn:EL; try (unfold zlen in L; cbn in L; lia).
    cbn [nth]. eapply tag_5; eauto. }
  cbn [rbind lift_c]. fold (tag_offset l).
  assert (0 <= tag_length l < 2 ^ 19) as HL.
  { unfold tag_length. pose proof (Hb 0%nat); pose proof (Hb 1%nat); pose proof (Hb 2%nat). change (2 ^ 19) with 524288. lia. }
  assert (tag_offset l = 3 \/ tag_offset l = 10) as HO by (unfold tag_offset; destruct (tag_key l); lia).
  pose proof H as (H1 & H2 & H3 & H4).
  assert (forall (show : bool), 10 <= c_size c ->
    (let! code := lift_c show (csub c 3 3) in
     let! s := lift_c show (to_string code) in
     let! _ := (if (list_eq_dec Z.eq_dec s [157; 1; 42]) then Ok tt else Err (UThrow UcInvalid)) in
     let! sizes := lift_c show (csub c 6 4) in
     let! hs := lift_c show (bits sizes 14 2) in
     let! vs := lift_c show (bits sizes 30 2) in
     let! fw := lift_c show (bits sizes 0 14) in
     let! fh := lift_c show (bits sizes 16 14) in
     if negb (fw =? w) || negb (fh =? h) || negb (hs =? 0) || negb (vs =? 0)
     then Err (UThrow UcUnsupported) else Ok tt) =
    if list_eq_dec Z.eq_dec (start_code l) [157; 1; 42]
    then if sizes_bad l w h then Err (UThrow UcUnsupported) else Ok tt
    else Err (UThrow UcInvalid)) as Hkey.
  { intros show S10. rewrite csub_spec by (auto; lia). cbn [rbind lift_c].
    rewrite to_string_spec by (apply csub_ok; auto; lia). cbn [rbind lift_c].
    rewrite cbytes_sub by (auto; lia). change (Z.to_nat 3) with 3%nat. fold l. fold (start_code l).
    destruct (list_eq_dec Z.eq_dec (start_code l) [157; 1; 42]); [|reflexivity]. cbn [rbind].
    destruct (sizes_fields c H HB S10) as (s & -> & B1 & B2 & B3 & B4).
    cbn [rbind lift_c]. rewrite B1, B2, B3, B4. cbn [rbind lift_c]. reflexivity. }
  assert (sizes_bad l w h = false
          <-> frame_width l = w /\ frame_height l = h /\ frame_scaling l = 0) as Hko.
  { unfold sizes_bad, frame_scaling. pose proof (Hb 7%nat); pose proof (Hb 9%nat). lia. }
  destruct (c_size c <=? tag_offset l + tag_length l) eqn:EC.
  - destruct partial.
    2: { cbn [rbind]. left; split; [reflexivity|lia]. }
    cbn [rbind]. change (CORRUPTED_FIRST_PARTITION =? CORRUPTED_FIRST_PARTITION) with true. cbv iota.
    destruct (Z_lt_ge_dec (c_size c) (tag_offset l)) as [SO|SO].
    + assert (csub c (tag_offset l) (wrap 64 (c_size c - tag_offset l)) = Err RangeError) as ->.
      { unfold csub, bounds_check. destruct (c_size c <? tag_offset l) eqn:E; [reflexivity|lia]. }
      cbn [rbind lift_c]. right; right. cbn. assert (c_size c =? 0 = false) as -> by lia. repeat split; auto; lia.
    + assert (wrap 64 (c_size c - tag_offset l) = c_size c - tag_offset l) as -> by (unfold wrap; apply Z.mod_small; lia).
      rewrite Hsub by lia. cbn [rbind lift_c].
      destruct (tag_key l) eqn:EK.
      * assert (tag_offset l = 10) as T10 by (unfold tag_offset; now rewrite EK).
        rewrite Hkey by lia.
        destruct (list_eq_dec Z.eq_dec (start_code l) [157; 1; 42]) as [ES|NS].
        2: { cbn [rbind]. right. repeat split; auto; lia. }
        destruct (sizes_bad l w h) eqn:EN.
        { cbn [rbind]. right. split; [reflexivity|]. split; [lia|]. split; [assumption|].
          intros (_ & K). apply Hko in K. congruence. }
        cbn [rbind]. right; left. cbn.
        repeat split; auto; try lia; try (apply Hko; assumption).
      * cbn [rbind]. right; left. cbn. repeat split; auto; try lia; try discriminate.
  - cbn [rbind]. change (NO_CORRUPTION =? CORRUPTED_FIRST_PARTITION) with false. cbv iota.
    rewrite Hsub by lia. cbn [rbind lift_c].
    assert (wrap 64 (c_size c - tag_offset l - tag_length l) = c_size c - tag_offset l - tag_length l) as -> by (unfold wrap; apply Z.mod_small; lia).
    rewrite Hsub by lia. cbn [rbind lift_c].
    destruct (tag_key l) eqn:EK.
    * assert (tag_offset l = 10) as T10 by (unfold tag_offset; now rewrite EK).
      rewrite Hkey by lia.
      destruct (list_eq_dec Z.eq_dec (start_code l) [157; 1; 42]) as [ES|NS].
      2: { cbn [rbind]. right. repeat split; auto; lia. }
      destruct (sizes_bad l w h) eqn:EN.
      { cbn [rbind]. right. split; [reflexivity|]. split; [lia|]. split; [assumption|].
        intros (_ & K). apply Hko in K. congruence. }
      cbn [rbind]. left. cbn. repeat split; auto; try lia; try (apply Hko; assumption).
    * cbn [rbind]. left. cbn. repeat split; auto; try lia; try discriminate.
Qed.

(** ** DCT partitions *)

Lemma partition_lengths_safe : forall n c, chunk_ok c -> bytes_ok (cbytes c) ->
  match partition_lengths n c with
  | Ok (ls, c') => within c' c /\ Forall (fun x => 0 <= x < 2 ^ 24) ls /\ length ls = n
  | Err e => e = RangeError
  end.
Proof.
  induction n as [|n IH]; intros c H HB; cbn [partition_lengths].
  - split; [apply within_refl; apply H|]. split; [constructor|reflexivity].
  - destruct (bits_cases c 0 24 H HB ltac:(lia) ltac:(lia) ltac:(lia)) as [(S & ->)|(S & v & -> & Hv)];
      cbn [rbind]; [reflexivity|].
    change (1 + (0 + 24 - 1) / 8) with 3 in S. rewrite ctail_spec by (auto; lia). cbn [rbind].
    set (d := mkChunk _ _ _).
    assert (within d c) as Wd by (pose proof H as (?&?&?&?); unfold d, within; cbn; repeat split; lia).
    assert (chunk_ok d) as Hd by (eapply within_ok; eauto).
    assert (bytes_ok (cbytes d)) as HBd by (eapply bytes_ok_within; [exact H|exact HB|exact Wd]).
    specialize (IH d Hd HBd). destruct (partition_lengths n d) as [[ls r]|e]; cbn [rbind]; [|assumption].
    destruct IH as (W & F & Ln). split; [eapply within_trans; eauto|]. split; [constructor; auto|cbn; lia].
Qed.

Lemma take_partitions_safe : forall ls c, chunk_ok c -> Forall (fun x => 0 <= x < 2 ^ 24) ls ->
  match take_partitions ls c with
  | Ok ps => Forall (fun p => within p c) ps /\ length ps = S (length ls) /\
             (forall i x, nth_error ls i = Some x -> exists p, nth_error ps i = Some p /\ c_size p = x) /\
             concat (map cbytes ps) = cbytes c
  | Err e => e = RangeError
  end.
Proof.
  induction ls as [|x ls IH]; intros c H HF; cbn [take_partitions].
  - split; [constructor; [apply within_refl; apply H|constructor]|]. split; [reflexivity|].
    split; [intros [|i] x E; discriminate|]. cbn. apply app_nil_r.
  - inversion HF as [|? ? Hx HF']; subst.
    change (2 ^ 24) with 16777216 in Hx.
    pose proof (C22_slice c 0 x H ltac:(lia) ltac:(lia) ltac:(lia)) as P.
    destruct (csub c 0 x) as [p|e] eqn:EP; cbn [rbind]; [|apply P]. destruct P as (Lx & Wp & Bp).
    pose proof H as (H1 & H2 & H3 & H4).
    rewrite ctail_spec by (auto; lia). cbn [rbind]. set (d := mkChunk _ _ _).
    assert (within d c) as Wd by (unfold d, within; cbn; repeat split; lia).
    assert (chunk_ok d) as Hd by (eapply within_ok; eauto).
    assert (cbytes d = skipn (Z.to_nat x) (cbytes c)) as Bd by (apply cbytes_tail; auto; lia).
    specialize (IH d Hd HF'). destruct (take_partitions ls d) as [ps|e]; cbn [rbind]; [|assumption].
    destruct IH as (FW & Ln & Sz & Cc). split; [|split; [|split]].
    + constructor; [assumption|]. eapply Forall_impl; [|exact FW]. intros q Wq. exact (within_trans _ _ _ Wq Wd).
    + cbn; lia.
    + intros [|i] y E; cbn in E.
      * injection E as <-. exists p. split; [reflexivity|].
        rewrite csub_spec in EP by (auto; lia). injection EP as <-. reflexivity.
      * cbn. apply Sz, E.
    + cbn [map concat]. rewrite Cc, Bd, Bp. change (Z.to_nat 0) with 0%nat. cbn [skipn]. apply firstn_skipn.
Qed.

(** ** Writer *)

Lemma land_255 : forall x, byte_of (Z.land x 255) = x mod 256.
Proof. intros x. unfold byte_of, wrap. change 255 with (2 ^ 8 - 1). rewrite land_mask by lia. rewrite Z.mod_mod by lia. reflexivity. Qed.

Lemma land_shift : forall x k m, 0 <= k -> 0 <= m <= 8 ->
  byte_of (Z.shiftr (Z.land x ((2 ^ m - 1) * 2 ^ k)) k) = (x / 2 ^ k) mod 2 ^ m.
Proof.
  intros x k m Hk Hm. unfold byte_of, wrap.
  rewrite Z.shiftr_land. rewrite <- (Z.shiftl_mul_pow2 _ k) by lia. rewrite Z.shiftr_shiftl_l by lia.
  rewrite Z.sub_diag, Z.shiftl_0_r, land_mask by lia. rewrite Z.shiftr_div_pow2 by lia.
  apply Z.mod_small. pose proof (Z.mod_pos_bound (x / 2 ^ k) (2 ^ m) ltac:(lia)).
  split; [lia|]. apply Z.lt_le_trans with (2 ^ m); [lia|]. apply Z.pow_le_mono_r; lia.
Qed.

Definition tag_byte0 (key show experimental ru : bool) (len : Z) : Z :=
  flag (negb key) + 4 * flag ru + 8 * flag experimental + 16 * flag show + 32 * (len mod 8).

Lemma tag_byte0_spec : forall key show experimental ru len,
  byte_of (Z.lor (Z.lor (Z.lor (Z.lor (flag (negb key)) (Z.shiftl (flag ru) 2)) (Z.shiftl (flag experimental) 3))
                        (Z.shiftl (flag show) 4)) (Z.shiftl (Z.land len 7) 5)) =
  tag_byte0 key show experimental ru len.
Proof.
  intros. unfold tag_byte0. change 7 with (2 ^ 3 - 1). rewrite land_mask by lia. change (2 ^ 3) with 8.
  assert (0 <= len mod 8 < 8) as R by lia.
  assert (len mod 8 = 0 \/ len mod 8 = 1 \/ len mod 8 = 2 \/ len mod 8 = 3 \/ len mod 8 = 4 \/ len mod 8 = 5 \/ len mod 8 = 6 \/ len mod 8 = 7) as C by lia.
  destruct C as [->|[->|[->|[->|[->|[->|[->| ->]]]]]]]; destruct key, show, experimental, ru; reflexivity.
Qed.

Lemma length_bytes_ok : forall parts, bytes_ok (length_bytes parts).
Proof.
  induction parts as [|p parts IH]; [constructor|]. cbn [length_bytes].
  destruct parts as [|q r]; [constructor|].
  assert (forall x, byte_ok (byte_of x)) as K by (intros; unfold byte_ok, byte_of, wrap; lia).
  repeat apply Forall_cons; try apply K. exact IH.
Qed.

Lemma partition_lengths_written : forall parts c tail, parts <> [] -> chunk_ok c -> bytes_ok (cbytes c) ->
  cbytes c = length_bytes parts ++ tail ->
  exists c', partition_lengths (length parts - 1) c = Ok (map (fun p => zlen p mod 2 ^ 24) (removelast parts), c') /\
             within c' c /\ cbytes c' = tail.
Proof.
  induction parts as [|p parts IH]; intros c tail HN H HB E; [congruence|].
  destruct parts as [|q r].
  - cbn [length Nat.sub partition_lengths removelast map]. exists c. split; [reflexivity|].
    split; [apply within_refl; apply H|exact E].
  - change (length_bytes (p :: q :: r)) with
      (let len := wrap 32 (zlen p) in
       [byte_of (Z.land len 255); byte_of (Z.shiftr (Z.land len 65280) 8); byte_of (Z.shiftr (Z.land len 16711680) 16)]
       ++ length_bytes (q :: r)) in E. cbv zeta in E.
    set (lb := length_bytes (q :: r)) in *.
    change 65280 with ((2 ^ 8 - 1) * 2 ^ 8) in E. change 16711680 with ((2 ^ 8 - 1) * 2 ^ 16) in E.
    rewrite land_255, !land_shift in E by lia. cbn [app] in E.
    set (x := wrap 32 (zlen p)) in *.
    assert (3 <= c_size c) as L.
    { clear - E H. clearbody lb x. pose proof (zlen_cbytes c H) as L. rewrite E, !zlen_cons in L.
      pose proof (zlen_nonneg (lb ++ tail)). lia. }
    assert (bits c 0 24 = Ok (zlen p mod 2 ^ 24)) as Ebits.
    { rewrite bits_spec by (auto; lia). cbv zeta. change (1 + (0 + 24 - 1) / 8) with 3.
      destruct (c_size c <? 3) eqn:E3; [lia|]. rewrite E. change (Z.to_nat 3) with 3%nat. cbn [firstn le_value].
      f_equal. unfold x, wrap. change (2 ^ 32) with 4294967296. change (2 ^ 24) with 16777216.
      change (2 ^ 16) with 65536. change (2 ^ 8) with 256. change (2 ^ 0) with 1. lia. }
    replace (length (p :: q :: r) - 1)%nat with (S (length (q :: r) - 1)) by (cbn; lia).
    cbn [partition_lengths]. rewrite Ebits. cbn [rbind]. rewrite ctail_spec by (auto; lia). cbn [rbind].
    set (d := mkChunk _ _ _).
    assert (within d c) as Wd by (pose proof H as (?&?&?&?); unfold d, within; cbn; repeat split; lia).
    assert (chunk_ok d) as Hd by (eapply within_ok; eauto).
    assert (bytes_ok (cbytes d)) as HBd by (eapply bytes_ok_within; [exact H|exact HB|exact Wd]).
    assert (cbytes d = lb ++ tail) as Ed.
    { unfold d. rewrite cbytes_tail by (auto; lia). rewrite E. reflexivity. }
    destruct (IH d tail ltac:(discriminate) Hd HBd Ed) as (c' & -> & W & T). cbn [rbind].
    exists c'. split; [reflexivity|]. split; [eapply within_trans; eauto|exact T].
Qed.

Lemma take_partitions_written : forall parts c, parts <> [] -> chunk_ok c -> cbytes c = concat parts ->
  Forall (fun p => zlen p < 2 ^ 24) (removelast parts) ->
  exists ps, take_partitions (map (fun p => zlen p mod 2 ^ 24) (removelast parts)) c = Ok ps /\ map cbytes ps = parts /\
             Forall (fun p => within p c) ps.
Proof.
  induction parts as [|p parts IH]; intros c HN H E HF; [congruence|].
  destruct parts as [|q r].
  - cbn [removelast map take_partitions]. exists [c]. split; [reflexivity|]. split.
    + cbn. f_equal. rewrite E. cbn. apply app_nil_r.
    + constructor; [apply within_refl; apply H|constructor].
  - change (removelast (p :: q :: r)) with (p :: removelast (q :: r)) in *. inversion HF as [|? ? Hp HF']; subst.
    cbn [map take_partitions]. change (concat (p :: q :: r)) with (p ++ concat (q :: r)) in E.
    pose proof (zlen_nonneg p) as Np. rewrite (Z.mod_small (zlen p)) by lia.
    pose proof (zlen_cbytes c H) as L. rewrite E, zlen_app in L. pose proof (zlen_nonneg (concat (q :: r))) as N.
    rewrite csub_spec by (auto; lia). cbn [rbind]. rewrite ctail_spec by (auto; lia). cbn [rbind].
    set (d := mkChunk _ _ (c_size c - zlen p)).
    assert (within d c) as Wd by (pose proof H as (?&?&?&?); unfold d, within; cbn; repeat split; lia).
    assert (chunk_ok d) as Hd by (eapply within_ok; eauto).
    assert (cbytes d = concat (q :: r)) as Ed.
    { unfold d. rewrite cbytes_tail by (auto; lia). rewrite E. unfold zlen. rewrite Nat2Z.id, skipn_app, skipn_all, Nat.sub_diag. reflexivity. }
    destruct (IH d ltac:(discriminate) Hd Ed HF') as (ps & -> & M & W). cbn [rbind].
    eexists. split; [reflexivity|]. split.
    + cbn [map]. rewrite M. f_equal. rewrite cbytes_sub by (auto; lia). rewrite E. change (Z.to_nat 0) with 0%nat. cbn [skipn].
      unfold zlen. rewrite Nat2Z.id, firstn_app, firstn_all, Nat.sub_diag. cbn. apply app_nil_r.
    + constructor.
      * pose proof H as (?&?&?&?); unfold within; cbn; repeat split; lia.
      * eapply Forall_impl; [|exact W]. intros a Wa. exact (within_trans _ _ _ Wa Wd).
Qed.
