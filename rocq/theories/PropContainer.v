(** C12, C13: the frame container. *)
From Verif Require Import Base ChunkModel ChunkProofs PropChunk ContainerModel ContainerProofs.

(** The bytes of the frame tag and, for key frames, of the start code and
    size, as arithmetic on the parameters. *)
Definition head_bytes (key show experimental ru : bool) (w h len : Z) : list Z :=
  [tag_byte0 key show experimental ru len; (len / 8) mod 256; (len / 2048) mod 256] ++
  (if key then [157; 1; 42; w mod 256; (w / 256) mod 64; h mod 256; (h / 256) mod 64] else []).

Lemma make_frame_bytes : forall key show experimental ru w h fp parts,
  0 <= w <= 16383 -> 0 <= h <= 16383 -> parts <> [] ->
  make_frame key show experimental ru w h fp parts =
  Some (head_bytes key show experimental ru w h (zlen fp mod 2 ^ 32) ++ fp ++ length_bytes parts ++ concat parts).
Proof.
  intros key show experimental ru w h fp parts Hw Hh Hp. unfold make_frame.
  destruct ((16383 <? w) || (16383 <? h)) eqn:E; [lia|]. destruct parts as [|p r]; [congruence|].
  cbv zeta. fold (wrap 32 (zlen fp)). set (len := wrap 32 (zlen fp)).
  rewrite tag_byte0_spec.
  change 2040 with ((2 ^ 8 - 1) * 2 ^ 3). change 522240 with ((2 ^ 8 - 1) * 2 ^ 11).
  change 16128 with ((2 ^ 6 - 1) * 2 ^ 8). rewrite !land_255, !land_shift by lia.
  unfold head_bytes. rewrite <- !app_assoc. f_equal.
Qed.

Lemma some_inj : forall {A} (a b : A), Some a = Some b -> a = b.
Proof. intros; congruence. Qed.

Lemma nth_head : forall l r i, (i < length l)%nat -> nth i (l ++ r) 0 = nth i l 0.
Proof. intros; now rewrite app_nth1. Qed.

  Lemma flag_range : forall b, 0 <= flag b <= 1.
  Proof. intros []; cbn; lia. Qed.

  Lemma head_ok : forall key show experimental ru w h len, bytes_ok (head_bytes key show experimental ru w h len).
  Proof.
    intros. unfold head_bytes, bytes_ok. apply Forall_app. split.
    - apply Forall_cons; [|apply Forall_cons; [unfold byte_ok; lia|apply Forall_cons; [unfold byte_ok; lia|constructor]]].
      unfold byte_ok, tag_byte0. pose proof (flag_range (negb key)); pose proof (flag_range ru); pose proof (flag_range experimental); pose proof (flag_range show). lia.
    - destruct key; [|constructor].
      repeat (apply Forall_cons; [unfold byte_ok; lia|]). constructor.
  Qed.

Section Written.
  Variables (key show experimental ru : bool) (w h len : Z) (r : list Z).
  Hypothesis Hw : 0 <= w <= 16383.
  Hypothesis Hh : 0 <= h <= 16383.
  Hypothesis Hlen : 0 <= len.
  Let l := head_bytes key show experimental ru w h len ++ r.

  Lemma head_nth0 : nth 0 l 0 = tag_byte0 key show experimental ru len.
  Proof. reflexivity. Qed.

  Lemma written_key : tag_key l = key.
  Proof.
    unfold tag_key. rewrite head_nth0. unfold tag_byte0.
    pose proof (flag_range ru); pose proof (flag_range experimental); pose proof (flag_range show).
    destruct key; cbn [negb flag]; lia.
  Qed.
  Lemma written_show : tag_show l = show.
  Proof.
    unfold tag_show. rewrite head_nth0. unfold tag_byte0.
    pose proof (flag_range ru); pose proof (flag_range experimental); pose proof (flag_range (negb key)).
    destruct show; cbn [flag]; lia.
  Qed.
  Lemma written_version : tag_version l = 2 * flag ru + 4 * flag experimental.
  Proof.
    unfold tag_version. rewrite head_nth0. unfold tag_byte0.
    pose proof (flag_range show); pose proof (flag_range (negb key)).
    destruct ru, experimental; cbn [flag]; lia.
  Qed.
  Lemma written_length : tag_length l = len mod 2 ^ 19.
  Proof.
    unfold tag_length. rewrite head_nth0. unfold l, head_bytes. cbn [app nth]. unfold tag_byte0.
    pose proof (flag_range show); pose proof (flag_range (negb key)); pose proof (flag_range ru); pose proof (flag_range experimental).
    change (2 ^ 19) with 524288. lia.
  Qed.
  Lemma head_length : zlen (head_bytes key show experimental ru w h len) = tag_offset l.
  Proof. unfold tag_offset. rewrite written_key. unfold head_bytes, zlen. destruct key; reflexivity. Qed.
  Lemma written_key_ok : key = true -> key_ok l w h.
  Proof.
    intros K. unfold key_ok, start_code, frame_width, frame_height, frame_scaling, l, head_bytes. rewrite K.
    cbn [app nth skipn firstn]. repeat split; lia.
  Qed.
End Written.

Lemma nonempty_zlen : forall (l : list Z), l <> [] -> 0 < zlen l.
Proof. intros [|a l] H; [congruence|]. rewrite zlen_cons. pose proof (zlen_nonneg l). lia. Qed.

(** C12. The payload after the first partition must not be empty, i.e. there
    are at least two partitions or the only one has a byte: the reader demands
    more bytes than just the first partition.  reference_update can only be set
    together with experimental (other versions are unsupported). *)
Theorem C12_container_round_trip :
  forall key show experimental ru w h fp parts partial,
  0 <= w <= 16383 -> 0 <= h <= 16383 ->
  bytes_ok fp -> Forall bytes_ok parts ->
  zlen fp < 2 ^ 19 -> Forall (fun p => zlen p < 2 ^ 24) (removelast parts) ->
  (2 <= length parts)%nat \/ (exists p, parts = [p] /\ p <> []) ->
  (ru = true -> experimental = true) ->
  exists bytes, make_frame key show experimental ru w h fp parts = Some bytes /\
  (zlen bytes < 2 ^ 64 ->
   exists u ps,
     uncompressed_chunk (chunk_of bytes) w h partial = Ok u /\
     uc_key u = key /\ uc_show u = show /\ uc_experimental u = experimental /\ uc_loop_filter u = negb ru /\
     uc_corruption u = NO_CORRUPTION /\ cbytes (uc_first u) = fp /\
     dct_partitions u (length parts) = Ok ps /\ map cbytes ps = parts).
Proof.
  intros key show experimental ru w h fp parts partial Hw Hh Bfp Bparts Lfp Lparts Hne Hru.
  assert (parts <> []) as HP by (destruct Hne as [K|(p & -> & _)]; [intros ->; cbn in K; lia|discriminate]).
  rewrite make_frame_bytes by assumption. eexists. split; [reflexivity|]. intros HT.
  assert (2 ^ 19 < 2 ^ 32) as Q by reflexivity. pose proof (zlen_nonneg fp) as Nfp.
  rewrite (Z.mod_small (zlen fp) (2 ^ 32)) in * by lia.
  set (rest := length_bytes parts ++ concat parts) in *.
  assert (bytes_ok rest) as Brest.
  { unfold rest. apply bytes_ok_app. split; [apply length_bytes_ok|].
    unfold bytes_ok. apply Forall_concat. exact Bparts. }
  assert (rest <> []) as Nrest.
  { unfold rest. destruct Hne as [K|(p & -> & Np)].
    - destruct parts as [|a [|b r]]; try (cbn in K; lia). discriminate.
    - cbn. rewrite app_nil_r. exact Np. }
  set (head := head_bytes key show experimental ru w h (zlen fp)) in *.
  set (l := head ++ fp ++ rest) in *.
  set (c := chunk_of l).
  assert (chunk_ok c) as Hc by (apply chunk_ok_of, HT).
  assert (cbytes c = l) as Ec by apply cbytes_of.
  assert (bytes_ok l) as Bl.
  { unfold l. apply bytes_ok_app; split; [apply head_ok|]. apply bytes_ok_app; split; assumption. }
  assert (bytes_ok (cbytes c)) as Bc by (rewrite Ec; exact Bl).
  assert (c_size c = zlen l) as Ecs by reflexivity.
  pose proof (uncompressed_chunk_cases c w h partial Hc Bc) as P. cbv zeta in P. rewrite Ec in P.
  assert (tag_key l = key) as Tk by (apply written_key; lia).
  assert (tag_show l = show) as Ts by (apply written_show; lia).
  assert (tag_version l = 2 * flag ru + 4 * flag experimental) as Tv by (apply written_version; lia).
  assert (tag_length l = zlen fp) as Tl.
  { unfold l, head. rewrite written_length by lia. apply Z.mod_small; lia. }
  assert (zlen head = tag_offset l) as To by (apply head_length; lia).
  assert (key = true -> key_ok l w h) as Tko by (apply written_key_ok; lia).
  assert (c_size c = zlen head + zlen fp + zlen rest) as Sz by (rewrite Ecs; unfold l; rewrite !zlen_app; lia).
  pose proof (nonempty_zlen _ Nrest) as Prest.
  assert (tag_version l = 0 \/ tag_version l = 4 \/ tag_version l = 6) as Tvo.
  { rewrite Tv. destruct ru; [rewrite Hru by reflexivity; cbn; lia|]. destruct experimental; cbn; lia. }
  assert (0 <= tag_offset l) as Po by (unfold tag_offset; destruct (tag_key l); lia).
  assert (tag_offset l = if key then 10 else 3) as Tof by (unfold tag_offset; now rewrite Tk).
  assert (3 <= tag_offset l) as Po3 by (rewrite Tof; destruct key; lia).
  clearbody c. clearbody head.
  destruct (uncompressed_chunk c w h partial) as [u|[]] eqn:Eu.
  - destruct P as [P|[P|P]]; [|exfalso; lia|exfalso; lia].
    destruct P as (Pc & _ & _ & _ & Pk & Ps & Pf & Pe & _ & Pfirst & Prst).
    assert (cbytes (uc_first u) = fp) as Efirst.
    { rewrite Pfirst, cbytes_sub by (auto; lia). rewrite Ec, Tl, <- To. unfold l, zlen. rewrite !Nat2Z.id.
      rewrite skipn_app, skipn_all, Nat.sub_diag. cbn [app skipn].
      rewrite firstn_app, firstn_all, Nat.sub_diag. cbn. apply app_nil_r. }
    assert (within (uc_rest u) c) as Wr.
    { rewrite Prst. pose proof Hc as (?&?&?&?). unfold within; cbn; repeat split; lia. }
    assert (cbytes (uc_rest u) = rest) as Erest.
    { rewrite Prst. replace (c_size c - tag_offset l - tag_length l) with (c_size c - (tag_offset l + tag_length l)) by lia.
      rewrite cbytes_tail by (auto; lia). rewrite Ec, Tl, <- To. unfold l. rewrite app_assoc.
      rewrite skipn_app, skipn_all2 by (rewrite app_length; unfold zlen; lia).
      rewrite app_length. replace (_ - _)%nat with 0%nat by (unfold zlen; lia). reflexivity. }
    pose proof (within_ok _ _ Hc Wr) as Or.
    assert (bytes_ok (cbytes (uc_rest u))) as Br by (rewrite Erest; exact Brest).
    destruct (partition_lengths_written parts (uc_rest u) (concat parts) HP Or Br Erest) as (c' & E1 & W1 & B1).
    destruct (take_partitions_written parts c' HP (within_ok _ _ Or W1) B1 Lparts) as (ps & E2 & M & _).
    exists u, ps. rewrite Pk, Ps, Pf, Pe, Tk, Ts, Tv. repeat split; auto.
    + destruct ru, experimental; try reflexivity. discriminate (Hru eq_refl).
    + destruct ru, experimental; try reflexivity. discriminate (Hru eq_refl).
    + unfold dct_partitions. rewrite E1. cbn [rbind]. exact E2.
  - exfalso. destruct P as [P|(P1 & P2 & P3)]; [lia|]. rewrite Tk in P1. destruct (Tko P1) as (K & _). congruence.
  - exfalso. destruct P as [P|(P1 & P2 & P3 & P4)]; [destruct P as [_ P]; exact (P Tvo)|].
    rewrite Tk in P1. exact (P4 (Tko P1)).
  - destruct P.
Qed.

(** Beyond 2^19 bytes the first partition is never recovered (make_frame does
    not complain). *)
Theorem C12_long_first_partition_lost :
  forall key show experimental ru w h fp parts partial bytes u,
  0 <= w <= 16383 -> 0 <= h <= 16383 ->
  bytes_ok fp -> Forall bytes_ok parts -> parts <> [] ->
  2 ^ 19 <= zlen fp ->
  make_frame key show experimental ru w h fp parts = Some bytes -> zlen bytes < 2 ^ 64 ->
  uncompressed_chunk (chunk_of bytes) w h partial = Ok u ->
  cbytes (uc_first u) <> fp.
Proof.
  intros key show experimental ru w h fp parts partial bytes u Hw Hh Bfp Bparts HP Lfp EM HT Eu EF.
  rewrite make_frame_bytes in EM by assumption. apply some_inj in EM.
  set (len := zlen fp mod 2 ^ 32) in *.
  assert (0 <= len) as Plen by (apply Z.mod_pos_bound; lia).
  set (rest := length_bytes parts ++ concat parts) in *.
  assert (bytes_ok bytes) as Bl.
  { rewrite <- EM. apply bytes_ok_app; split; [apply head_ok|]. apply bytes_ok_app; split; [assumption|].
    apply bytes_ok_app. split; [apply length_bytes_ok|]. unfold bytes_ok. apply Forall_concat. exact Bparts. }
  assert (tag_length bytes = zlen fp mod 2 ^ 19) as Tl.
  { rewrite <- EM. rewrite written_length by lia. unfold len. change (2 ^ 32) with 4294967296. change (2 ^ 19) with 524288. lia. }
  assert (tag_key bytes = key) as Tk by (rewrite <- EM; apply written_key; lia).
  assert (tag_offset bytes = 3 \/ tag_offset bytes = 10) as To by (unfold tag_offset; destruct (tag_key bytes); lia).
  assert (zlen (head_bytes key show experimental ru w h len) = tag_offset bytes) as Th by (rewrite <- EM; apply head_length; lia).
  assert (zlen bytes = tag_offset bytes + zlen fp + zlen rest) as Sz by (rewrite <- Th, <- EM, !zlen_app; lia).
  pose proof (zlen_nonneg rest) as Prest.
  pose proof (uncompressed_chunk_cases (chunk_of bytes) w h partial (chunk_ok_of _ HT)
    ltac:(rewrite cbytes_of; exact Bl)) as P.
  cbv zeta in P. rewrite cbytes_of in P. change (c_size (chunk_of bytes)) with (zlen bytes) in P.
  rewrite Eu in P.
  pose proof (Z.mod_pos_bound (zlen fp) (2 ^ 19) ltac:(reflexivity)).
  assert (zlen (cbytes (uc_first u)) = zlen fp) as EL by now rewrite EF.
  destruct P as [P|[P|P]].
  - destruct P as (_ & _ & _ & _ & _ & _ & _ & _ & _ & Pfirst & _).
    rewrite Pfirst in EL. rewrite zlen_cbytes in EL by (apply csub_ok; [apply chunk_ok_of, HT|lia|lia|]; change (c_size (chunk_of bytes)) with (zlen bytes); lia).
    cbn in EL. lia.
  - exfalso. lia.
  - exfalso. lia.
Qed.

(** Likewise for a non-final DCT partition of 2^24 bytes or more. *)
Theorem C12_long_dct_partition_lost :
  forall parts c u ps,
  parts <> [] -> chunk_ok c -> bytes_ok (cbytes c) ->
  uc_rest u = c -> cbytes c = length_bytes parts ++ concat parts ->
  Exists (fun p => 2 ^ 24 <= zlen p) (removelast parts) ->
  dct_partitions u (length parts) = Ok ps -> map cbytes ps <> parts.
Proof.
  intros parts c u ps HP Hc Bc Er Ec HE E M.
  destruct (partition_lengths_written parts c (concat parts) HP Hc Bc Ec) as (c' & E1 & W1 & B1).
  unfold dct_partitions in E. rewrite Er, E1 in E. cbn [rbind] in E.
  pose proof (within_ok _ _ Hc W1) as Hc'.
  assert (Forall (fun x => 0 <= x < 2 ^ 24) (map (fun p : list Z => zlen p mod 2 ^ 24) (removelast parts))) as HF.
  { apply Forall_forall. intros x Hx. apply in_map_iff in Hx. destruct Hx as (p & <- & _). apply Z.mod_pos_bound. reflexivity. }
  pose proof (take_partitions_safe _ c' Hc' HF) as P. rewrite E in P. destruct P as (FW & Ln & Sz & _).
  apply Exists_exists in HE. destruct HE as (p & Hin & Lp).
  apply In_nth_error in Hin. destruct Hin as (i & Hi).
  destruct (Sz i (zlen p mod 2 ^ 24)) as (q & Hq & Sq); [now rewrite (map_nth_error _ _ _ Hi)|].
  assert (nth_error parts i = Some p) as Hp.
  { rewrite (app_removelast_last [] HP). rewrite nth_error_app1; [assumption|]. apply nth_error_Some. congruence. }
  rewrite <- M in Hp. rewrite (map_nth_error cbytes _ _ Hq) in Hp. injection Hp as Hp.
  assert (within q c') as Wq by (exact (proj1 (Forall_forall _ _) FW q (nth_error_In _ _ Hq))).
  pose proof (zlen_cbytes q (within_ok _ _ Hc' Wq)) as K. rewrite Hp, Sq in K.
  pose proof (Z.mod_pos_bound (zlen p) (2 ^ 24) ltac:(reflexivity)). lia.
Qed.

(** And a frame whose only DCT partition is empty is written but rejected. *)
Theorem C12_empty_partition_rejected :
  forall key show w h fp bytes,
  0 <= w <= 16383 -> 0 <= h <= 16383 -> bytes_ok fp -> zlen fp < 2 ^ 19 ->
  make_frame key show false false w h fp [[]] = Some bytes ->
  uncompressed_chunk (chunk_of bytes) w h false = Err UcInvalid.
Proof.
  intros key show w h fp bytes Hw Hh Bfp Lfp EM.
  rewrite make_frame_bytes in EM by (auto; discriminate). apply some_inj in EM.
  assert (2 ^ 19 < 2 ^ 32) as Q by reflexivity. pose proof (zlen_nonneg fp) as Nfp.
  rewrite (Z.mod_small (zlen fp) (2 ^ 32)) in * by lia.
  assert (bytes_ok bytes) as Bl.
  { rewrite <- EM. apply bytes_ok_app; split; [apply head_ok|]. cbn. rewrite app_nil_r. exact Bfp. }
  assert (tag_length bytes = zlen fp) as Tl by (rewrite <- EM, written_length by lia; apply Z.mod_small; lia).
  assert (tag_key bytes = key) as Tk by (rewrite <- EM; apply written_key; lia).
  assert (tag_version bytes = 0) as Tv by (rewrite <- EM, written_version by lia; reflexivity).
  assert (key = true -> key_ok bytes w h) as Tko by (rewrite <- EM; apply written_key_ok; lia).
  assert (zlen bytes = tag_offset bytes + zlen fp) as Sz.
  { assert (zlen (head_bytes key show false false w h (zlen fp)) = tag_offset bytes) as Th by (rewrite <- EM; apply head_length; lia).
    rewrite <- Th, <- EM. change (length_bytes [[]] ++ concat [[]]) with (@nil Z). rewrite app_nil_r, zlen_app. lia. }
  assert (tag_offset bytes = 3 \/ tag_offset bytes = 10) as To by (unfold tag_offset; destruct (tag_key bytes); lia).
  pose proof (uncompressed_chunk_cases (chunk_of bytes) w h false (chunk_ok_of bytes ltac:(change (2 ^ 64) with 18446744073709551616; change (2 ^ 19) with 524288 in *; lia))
    ltac:(rewrite cbytes_of; exact Bl)) as P.
  cbv zeta in P. rewrite cbytes_of in P. change (c_size (chunk_of bytes)) with (zlen bytes) in P.
  destruct (uncompressed_chunk (chunk_of bytes) w h false) as [u|[]]; [| reflexivity | |destruct P].
  - exfalso. destruct P as [P|[P|P]]; [lia| |]; destruct P as (_ & P & _); discriminate.
  - exfalso. destruct P as [P|P]; [lia|]. destruct P as (P1 & _ & _ & P4). apply P4, Tko. congruence.
Qed.

(** C13. Whatever the bytes are: no undefined behaviour; the partitions are
    views of the input (or empty). *)
Theorem C13_partitions_within_input : forall c w h partial,
  chunk_ok c -> bytes_ok (cbytes c) ->
  match uncompressed_chunk c w h partial with
  | Ok u =>
      (within (uc_first u) c \/ uc_first u = null_chunk) /\
      (within (uc_rest u) c \/ uc_rest u = null_chunk) /\
      (forall n, match dct_partitions u n with
                 | Ok ps => Forall (fun p => within p c \/ p = null_chunk) ps /\ length ps = S (n - 1)
                 | Err e => e = RangeError
                 end)
  | Err e => e = UcInvalid \/ e = UcUnsupported
  end.
Proof.
  intros c w h partial Hc Bc. pose proof (uncompressed_chunk_cases c w h partial Hc Bc) as P. cbv zeta in P.
  assert (tag_offset (cbytes c) = 3 \/ tag_offset (cbytes c) = 10) as To by (unfold tag_offset; destruct (tag_key (cbytes c)); lia).
  assert (0 <= tag_length (cbytes c)) as Tl.
  { unfold tag_length. assert (forall i, 0 <= nth i (cbytes c) 0) as K.
    { intros i. destruct (nth_in_or_default i (cbytes c) 0) as [Hin|E]; [|rewrite E; lia].
      pose proof (proj1 (Forall_forall _ _) Bc _ Hin) as K. unfold byte_ok in K. lia. }
    pose proof (K 0%nat); pose proof (K 1%nat); pose proof (K 2%nat). lia. }
  pose proof Hc as (H1 & H2 & H3 & H4).
  assert (forall n, match dct_partitions (mkUC false false false false null_chunk null_chunk 0) n with
                 | Ok ps => Forall (fun p => p = null_chunk) ps /\ length ps = S (n - 1)
                 | Err e => e = RangeError end) as Hnull.
  { intros n. unfold dct_partitions. cbn [uc_rest]. destruct (n - 1)%nat as [|k].
    - cbn. split; [repeat constructor|reflexivity].
    - reflexivity. }
  destruct (uncompressed_chunk c w h partial) as [u|[]]; [|now left|now right|destruct P].
  destruct P as [P|[P|P]].
  - destruct P as (_ & _ & L & _ & _ & _ & _ & _ & _ & Pf & Pr).
    assert (within (uc_first u) c) as W1 by (rewrite Pf; unfold within; cbn; repeat split; lia).
    assert (within (uc_rest u) c) as W2 by (rewrite Pr; unfold within; cbn; repeat split; lia).
    split; [now left|]. split; [now left|]. intros n. unfold dct_partitions.
    pose proof (within_ok _ _ Hc W2) as O2.
    pose proof (partition_lengths_safe (n - 1) (uc_rest u) O2 (bytes_ok_within _ _ Hc Bc W2)) as Q.
    destruct (partition_lengths (n - 1) (uc_rest u)) as [[ls r]|e]; cbn [rbind]; [|assumption].
    destruct Q as (W3 & F & Ln). pose proof (take_partitions_safe ls r (within_ok _ _ O2 W3) F) as R.
    destruct (take_partitions ls r) as [ps|e]; [|assumption]. destruct R as (FW & Ln2 & _). split; [|lia].
    eapply Forall_impl; [|exact FW]. intros p Wp. left. exact (within_trans _ _ _ Wp (within_trans _ _ _ W3 W2)).
  - destruct P as (_ & _ & _ & _ & L & _ & _ & _ & _ & _ & Pf & Pr).
    split; [left; rewrite Pf; unfold within; cbn; repeat split; lia|]. split; [now right|].
    intros n. specialize (Hnull n). unfold dct_partitions in *. rewrite Pr. cbn [uc_rest] in Hnull.
    match goal with |- match ?X with _ => _ end => destruct X as [ps|e] end; [|assumption].
    destruct Hnull as (F & Ln). split; [|assumption]. eapply Forall_impl; [|exact F]. intros p ->. now right.
  - destruct P as (_ & _ & _ & _ & _ & _ & _ & Pf & Pr).
    split; [now right|]. split; [now right|].
    intros n. specialize (Hnull n). unfold dct_partitions in *. rewrite Pr. cbn [uc_rest] in Hnull.
    match goal with |- match ?X with _ => _ end => destruct X as [ps|e] end; [|assumption].
    destruct Hnull as (F & Ln). split; [|assumption]. eapply Forall_impl; [|exact F]. intros p ->. now right.
Qed.

(** C13. Without concealment exactly these frames are accepted: supported
    version, more bytes than tag and first partition need, and for key frames
    the start code, the configured size and no scaling; and then the partitions
    are the announced ones. *)
Theorem C13_strict_acceptance : forall l w h,
  bytes_ok l -> zlen l < 2 ^ 64 ->
  let key := nth 0 l 0 mod 2 =? 0 in
  let version := nth 0 l 0 / 2 mod 8 in
  let len := nth 0 l 0 / 32 + 8 * nth 1 l 0 + 2048 * nth 2 l 0 in
  let off := if key then 10 else 3 in
  let acceptable :=
    off + len < zlen l /\ (version = 0 \/ version = 4 \/ version = 6) /\
    (key = true ->
     firstn 3 (skipn 3 l) = [157; 1; 42] /\
     nth 6 l 0 + 256 * nth 7 l 0 = w /\ nth 8 l 0 + 256 * nth 9 l 0 = h /\
     nth 7 l 0 < 64 /\ nth 9 l 0 < 64) in
  (acceptable <-> exists u, uncompressed_chunk (chunk_of l) w h false = Ok u) /\
  (forall u, uncompressed_chunk (chunk_of l) w h false = Ok u ->
     uc_corruption u = NO_CORRUPTION /\ uc_key u = key /\ uc_show u = negb (nth 0 l 0 / 16 mod 2 =? 0) /\
     cbytes (uc_first u) = firstn (Z.to_nat len) (skipn (Z.to_nat off) l) /\
     cbytes (uc_rest u) = skipn (Z.to_nat (off + len)) l).
Proof.
  intros l w h Bl Hl key version len off acceptable.
  pose proof (uncompressed_chunk_cases (chunk_of l) w h false (chunk_ok_of l Hl) ltac:(rewrite cbytes_of; exact Bl)) as P.
  cbv zeta in P. rewrite cbytes_of in P. change (c_size (chunk_of l)) with (zlen l) in P.
  assert (forall i, 0 <= nth i l 0 < 256) as K.
  { intros i. destruct (nth_in_or_default i l 0) as [Hin|E]; [|rewrite E; lia].
    exact (proj1 (Forall_forall _ _) Bl _ Hin). }
  assert (tag_key l = key) as Tk by reflexivity.
  assert (tag_version l = version) as Tv by reflexivity.
  assert (tag_length l = len) as Tl by reflexivity.
  assert (tag_offset l = off) as To by reflexivity.
  assert (0 <= len) as Plen by (unfold len; pose proof (K 0%nat); pose proof (K 1%nat); pose proof (K 2%nat); lia).
  assert (off = 3 \/ off = 10) as Poff by (unfold off; destruct key; lia).
  assert (key_ok l w h <-> (firstn 3 (skipn 3 l) = [157; 1; 42] /\
     nth 6 l 0 + 256 * nth 7 l 0 = w /\ nth 8 l 0 + 256 * nth 9 l 0 = h /\ nth 7 l 0 < 64 /\ nth 9 l 0 < 64)) as KO.
  { unfold key_ok, start_code, frame_width, frame_height, frame_scaling. pose proof (K 7%nat); pose proof (K 9%nat).
    split; intros (A & B); (split; [exact A|]); lia. }
  rewrite Tk, Tv, Tl, To in P. clearbody len.
  assert (key = true -> 10 <= off) as Poff2 by (unfold off; intros ->; lia).
  clearbody off version key.
  split.
  - split.
    + intros (A1 & A2 & A3). destruct (uncompressed_chunk (chunk_of l) w h false) as [u|[]]; [now exists u| | |destruct P].
      * exfalso. destruct P as [P|(P1 & P2 & P3)]; [lia|]. apply P3. apply A3, P1.
      * exfalso. destruct P as [(_ & P)|(P1 & _ & _ & P4)]; [exact (P A2)|]. apply P4, KO, A3, P1.
    + intros (u & E). rewrite E in P. destruct P as [P|[P|P]]; try (destruct P as (_ & P & _); discriminate).
      destruct P as (_ & P2 & P3 & _ & _ & _ & _ & _ & P9 & _). unfold acceptable.
      split; [exact P3|]. split; [exact P2|]. intros Kt. apply KO, P9, Kt.
  - intros u E. rewrite E in P. destruct P as [P|[P|P]]; try (destruct P as (_ & P & _); discriminate).
    destruct P as (P1 & P2 & P3 & _ & P5 & P6 & _ & _ & P9 & P10 & P11).
    split; [exact P1|]. split; [exact P5|]. split; [exact P6|]. rewrite P10, P11. split.
    + rewrite cbytes_sub; [|apply chunk_ok_of, Hl|lia|lia|change (c_size (chunk_of l)) with (zlen l); lia].
      now rewrite cbytes_of.
    + replace (zlen l - off - len) with (c_size (chunk_of l) - (off + len)) by (change (c_size (chunk_of l)) with (zlen l); lia).
      rewrite cbytes_tail; [|apply chunk_ok_of, Hl|change (c_size (chunk_of l)) with (zlen l); lia].
      now rewrite cbytes_of.
Qed.

(** C13. Cutting an accepted frame within or right after its first partition
    makes it unacceptable. *)
Theorem C13_truncation_rejected : forall l w h u k,
  bytes_ok l -> zlen l < 2 ^ 64 ->
  uncompressed_chunk (chunk_of l) w h false = Ok u ->
  zlen (firstn k l) <= (if uc_key u then 10 else 3) + zlen (cbytes (uc_first u)) ->
  exists e, uncompressed_chunk (chunk_of (firstn k l)) w h false = Err e.
Proof.
  intros l w h u k Bl Hl Eu Hk.
  pose proof (C13_strict_acceptance l w h Bl Hl) as A. cbv zeta in A. destruct A as (A1 & A2).
  destruct (A2 u Eu) as (_ & Ek & _ & Ef & _). pose proof (proj2 A1 (ex_intro _ u Eu)) as (Ln & _).
  assert (Bk : bytes_ok (firstn k l)) by (apply (bytes_ok_sub l k 0); exact Bl).
  assert (Lk : zlen (firstn k l) <= zlen l) by (unfold zlen; rewrite firstn_length; lia).
  destruct (uncompressed_chunk (chunk_of (firstn k l)) w h false) as [u'|e] eqn:E'; [exfalso|now exists e].
  pose proof (C13_strict_acceptance (firstn k l) w h Bk ltac:(lia)) as B. cbv zeta in B. destruct B as (B1 & _).
  pose proof (proj2 B1 (ex_intro _ u' E')) as (Ln' & _).
  rewrite Ef, Ek in Hk.
  assert (forall i, 0 <= nth i (firstn k l) 0 < 256) as K.
  { intros i. destruct (nth_in_or_default i (firstn k l) 0) as [Hin|E]; [|rewrite E; lia].
    exact (proj1 (Forall_forall _ _) Bk _ Hin). }
  pose proof (K 0%nat); pose proof (K 1%nat); pose proof (K 2%nat).
  assert (3 < zlen (firstn k l)) as L3 by (destruct (nth 0 (firstn k l) 0 mod 2 =? 0); lia).
  assert (forall i, (i < 3)%nat -> nth i (firstn k l) 0 = nth i l 0) as N.
  { intros i Hi. unfold zlen in L3. rewrite <- (firstn_skipn k l) at 2. rewrite app_nth1 by lia. reflexivity. }
  rewrite !N in Ln' by lia. rewrite N in * by lia.
  assert (zlen (firstn (Z.to_nat (nth 0 l 0 / 32 + 8 * nth 1 l 0 + 2048 * nth 2 l 0))
             (skipn (Z.to_nat (if nth 0 l 0 mod 2 =? 0 then 10 else 3)) l)) <=
          nth 0 l 0 / 32 + 8 * nth 1 l 0 + 2048 * nth 2 l 0).
  { unfold zlen. rewrite firstn_length. lia. }
  lia.
Qed.

(** With concealment a cut first partition and several DCT partitions lead to
    an uncaught range error in dct_partitions. *)
Example C13_partial_frame_range_error :
  match uncompressed_chunk (chunk_of [17; 2; 0; 1]) 16 16 true with
  | Ok u => uc_corruption u = CORRUPTED_FIRST_PARTITION /\ dct_partitions u 2 = Err RangeError
  | Err _ => False
  end.
Proof. split; reflexivity. Qed.

Example C12_nontrivial :
  match make_frame true true false false 175 144 [1; 2; 3] [[4; 5]; []; [6]] with
  | Some b => b = [112; 0; 0; 157; 1; 42; 175; 0; 144; 0; 1; 2; 3; 2; 0; 0; 0; 0; 0; 4; 5; 6] /\
      match uncompressed_chunk (chunk_of b) 175 144 false with
      | Ok u => uc_key u = true /\ cbytes (uc_first u) = [1; 2; 3] /\
                match dct_partitions u 3 with
                | Ok ps => map cbytes ps = [[4; 5]; []; [6]]
                | Err _ => False
                end
      | Err _ => False
      end
  | None => False
  end.
Proof. vm_compute. repeat split; reflexivity. Qed.

Example C13_nontrivial :
  uncompressed_chunk (chunk_of [112; 0; 0; 157; 1; 42; 175; 0; 144; 0; 1; 2; 3]) 175 144 false = Err UcInvalid /\
  uncompressed_chunk (chunk_of [112; 0; 0; 157; 1; 42; 175; 0; 144; 0; 1; 2; 3; 4]) 176 144 false = Err UcUnsupported /\
  uncompressed_chunk (chunk_of [112; 0; 0; 157; 1; 43; 175; 0; 144; 0; 1; 2; 3; 4]) 175 144 false = Err UcInvalid /\
  (exists u, uncompressed_chunk (chunk_of [112; 0; 0; 157; 1; 42; 175; 0; 144; 0; 1; 2; 3; 4]) 175 144 false = Ok u).
Proof. repeat split; try reflexivity. eexists; reflexivity. Qed.

Print Assumptions C12_container_round_trip.
Print Assumptions C12_long_first_partition_lost.
Print Assumptions C12_long_dct_partition_lost.
Print Assumptions C12_empty_partition_rejected.
Print Assumptions C13_partitions_within_input.
Print Assumptions C13_strict_acceptance.
Print Assumptions C13_truncation_rejected.
