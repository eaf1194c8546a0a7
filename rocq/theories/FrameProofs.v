(** Whole frames: proofs about coefficients over several partitions. *)
From Verif Require Import Base BoolCoderModel ParserModel Tables TreeModel HeaderModel TokenModel MVModel MBModel.
From Verif Require Import ChunkModel ContainerModel FrameModel.
From Verif Require Import BoolEncProofs BoolCoderProofs ParserProofs HeaderProofs MVProofs CodingSpec PropTrees MBProofs MBDecoded.
From Verif Require Import TokenProofs PropTokens.

(** ** The encoder always writes something *)
Lemma bool_encode_nonempty evs bs : Forall event_ok evs -> bool_encode evs = Some bs -> bs <> [].
Proof.
  intros Hok E. unfold bool_encode in E. rewrite bputs_app in E.
  destruct (bputs_ok evs benc_init binv_init Hok) as (e1 & E1 & I1 & S1). rewrite E1 in E.
  destruct (bputs_ok flush_events e1 I1 flush_events_ok) as (e2 & E2 & I2 & S2). rewrite E2 in E.
  injection E as <-. intros N.
  destruct (irun_shape flush_events (ival e1) (be_range e1) (8 * zlen (be_out e1) + 24 + be_bc e1)) as (V' & SH).
  pose proof (flush_shift _ (bi_range _ I1)) as HS.
  assert (be_out e2 = []) as O by (rewrite <- (rev_involutive (be_out e2)), N; reflexivity).
  assert (snd (istate_of e2) = snd (irun (istate_of e1) flush_events)) as ES by (rewrite S2; reflexivity).
  unfold istate_of in ES. rewrite SH in ES. cbn [snd] in ES. rewrite O in ES.
  change (zlen (@nil Z)) with 0 in ES. destruct I1, I2.
  assert (0 <= zlen (be_out e1)) by (unfold zlen; lia). lia.
Qed.

(** ** Blocks *)

Lemma block_ctx_range w a l cur k : 0 <= blk_ctx w a l cur k <= 2.
Proof. unfold blk_ctx, b2z. destruct (blk_above _ _ _ _), (blk_left _ _ _ _); lia. Qed.
Lemma y2_ctx_range W ms cs i : 0 <= y2_ctx W ms cs i <= 2.
Proof. unfold y2_ctx, b2z. destruct (nearest_coded _ _), (nearest_coded _ _); lia. Qed.

Lemma codes_block tbl type ctx b : Forall prob_ok tbl -> 0 <= ctx <= 2 -> block_ok type b ->
  codes (parse_tokens (coeff_prob tbl type) type ctx (repeat 0 16) false)
        (serialize_tokens (coeff_prob tbl type) type ctx (fst b)) b.
Proof.
  intros HT HX (B1 & B2 & B3 & B4). destruct (parses_block (coeff_prob tbl type) type ctx (fst b)) as (evs & E & O & P); auto.
  exists evs. split; [exact E|]. split.
  - apply O. intros. apply coeff_prob_ok. eapply Forall_impl; [|exact HT]. unfold prob_ok. intros; lia.
  - rewrite <- B3 in P. destruct b. exact P.
Qed.

Lemma blk_above_firstn w nb cur k : (0 < w)%nat -> blk_above w nb (firstn k cur) k = blk_above w nb cur k.
Proof.
  intros Hw. unfold blk_above. destruct (k <? w)%nat eqn:E; [reflexivity|]. rewrite nth_firstn by lia. reflexivity.
Qed.
Lemma blk_left_firstn w nb cur k : (0 < w)%nat -> blk_left w nb (firstn k cur) k = blk_left w nb cur k.
Proof.
  intros Hw. unfold blk_left. destruct (k mod w =? 0)%nat eqn:E; [reflexivity|]. rewrite nth_firstn; [reflexivity|].
  destruct k; [rewrite Nat.mod_0_l in E by lia; discriminate|lia].
Qed.

Lemma codes_plane tbl type w a l (bs : list block) : Forall prob_ok tbl -> (0 < w)%nat -> Forall (block_ok type) bs ->
  codes (plane_decode tbl type w a l (length bs) []) (plane_events tbl type w a l bs) bs.
Proof.
  intros HT Hw HB. unfold plane_events.
  assert (G : forall post pre : list block, bs = pre ++ post ->
    codes (plane_decode tbl type w a l (length post) pre)
      (oconcat (map (fun '(k, b) => serialize_tokens (coeff_prob tbl type) type (blk_ctx w a l bs k) (fst b))
         (combine (seq (length pre) (length post)) post))) bs).
  { induction post as [|b post IH]; intros pre E.
    - rewrite app_nil_r in E. subst. apply codes_ret.
    - cbn [length seq combine map plane_decode oconcat fold_right].
      assert (EC : blk_ctx w a l pre (length pre) = blk_ctx w a l bs (length pre)).
      { unfold blk_ctx. rewrite <- (blk_above_firstn w a bs), <- (blk_left_firstn w l bs) by assumption.
        rewrite E, firstn_app, firstn_all, Nat.sub_diag. cbn [firstn]. rewrite app_nil_r. reflexivity. }
      rewrite EC. eapply codes_bind.
      + apply codes_block; [exact HT|apply block_ctx_range|]. rewrite E in HB. apply Forall_app in HB.
        destruct HB as [_ HB]. inversion HB; assumption.
      + specialize (IH (pre ++ [b])). rewrite app_length in IH. cbn [length] in IH. rewrite Nat.add_1_r in IH.
        apply IH. rewrite <- app_assoc. exact E. }
  apply (G bs []). reflexivity.
Qed.

(** ** Macroblocks *)

(** The coefficients of a macroblock that the format can carry. *)
Definition coef_ok (m : mbinfo) (c : mbcoef) : Prop :=
  if skipped m then c = fresh_coef
  else
    (if y2_coded m then block_ok Y2_type (co_y2 c) else co_y2 c = fresh_block) /\
    length (co_y c) = 16%nat /\ Forall (block_ok (y_type m)) (co_y c) /\
    length (co_u c) = 4%nat /\ Forall (block_ok UV_type) (co_u c) /\
    length (co_v c) = 4%nat /\ Forall (block_ok UV_type) (co_v c).

Lemma nearest_coded_firstn flags i idxs : Forall (fun j => j < i)%nat idxs ->
  nearest_coded (firstn i flags) idxs = nearest_coded flags idxs.
Proof.
  intros H. induction H as [|j r Hj Hr IH]; [reflexivity|]. cbn [nearest_coded].
  rewrite nth_error_firstn by exact Hj. rewrite IH. reflexivity.
Qed.

Lemma above_positions_lt W i : (0 < W)%nat -> Forall (fun j => j < i)%nat (above_positions W i).
Proof.
  intros HW. apply Forall_forall. intros j Hj. unfold above_positions in Hj. apply in_map_iff in Hj.
  destruct Hj as (k & <- & Hk). apply in_seq in Hk.
  assert (i / W * W <= i)%nat by (rewrite Nat.mul_comm; apply Nat.mul_div_le; lia). nia.
Qed.
Lemma left_positions_lt W i : (0 < W)%nat -> Forall (fun j => j < i)%nat (left_positions W i).
Proof.
  intros HW. apply Forall_forall. intros j Hj. unfold left_positions in Hj. apply in_map_iff in Hj.
  destruct Hj as (k & <- & Hk). apply in_seq in Hk.
  assert (i mod W <= i)%nat by (apply Nat.mod_le; lia). lia.
Qed.

Lemma combine_firstn {A B} (a : list A) : forall (b : list B) i,
  combine a (firstn i b) = firstn i (combine a b).
Proof.
  induction a as [|x a IH]; intros b i; [destruct i; reflexivity|].
  destruct b as [|y b]; [destruct i; reflexivity|]. destruct i as [|i]; [reflexivity|]. cbn. f_equal. apply IH.
Qed.

Lemma y2_ctx_firstn W ms cs i : (0 < W)%nat -> y2_ctx W ms (firstn i cs) i = y2_ctx W ms cs i.
Proof.
  intros HW. unfold y2_ctx, y2_flags. rewrite <- firstn_map, combine_firstn.
  rewrite !nearest_coded_firstn by (apply above_positions_lt || apply left_positions_lt; exact HW). reflexivity.
Qed.

Lemma codes_mb_tokens tbl W ms cs i m c : Forall prob_ok tbl -> (0 < W)%nat -> nth_error cs i = Some c -> coef_ok m c ->
  codes (mb_tokens_decode tbl W ms m (firstn i cs)) (mb_tokens_events tbl W ms cs i m c) c.
Proof.
  intros HT HW HN HC. unfold mb_tokens_decode, mb_tokens_events.
  assert (L : length (firstn i cs) = i).
  { rewrite firstn_length. assert (i < length cs)%nat by (apply nth_error_Some; congruence). lia. }
  rewrite L, above_of_firstn, left_of_firstn, y2_ctx_firstn by exact HW.
  unfold coef_ok in HC. destruct (skipped m); [subst; apply codes_ret|].
  destruct HC as (C1 & C2 & C3 & C4 & C5 & C6 & C7).
  eapply codes_bind.
  { apply (codes_if _ _ _ _ _ (co_y2 c)).
    - intros E. rewrite E in C1. apply codes_block; [exact HT|apply y2_ctx_range|exact C1].
    - intros E. rewrite E in C1. apply codes_ret_eq. auto. }
  eapply codes_bind.
  { rewrite <- C2. apply codes_plane; [exact HT|lia|exact C3]. }
  eapply codes_bind.
  { rewrite <- C4. apply codes_plane; [exact HT|lia|exact C5]. }
  eapply codes_bind_ret.
  { rewrite <- C6. apply codes_plane; [exact HT|lia|exact C7]. }
  destruct c. reflexivity.
Qed.

(** ** Partitions *)

Lemma nth_set_nth_eq {A} (d : A) l k v : (k < length l)%nat -> nth k (set_nth l k v) d = v.
Proof. intros H. rewrite nth_set_nth by exact H. rewrite Nat.eqb_refl. reflexivity. Qed.
Lemma nth_set_nth_ne {A} (d : A) l k j v : (k < length l)%nat -> j <> k -> nth j (set_nth l k v) d = nth j l d.
Proof. intros H N. rewrite nth_set_nth by exact H. destruct (Nat.eqb_spec j k); [contradiction|]. reflexivity. Qed.

Definition ready_all (ds : list bdec) (parts : list (list event)) : Prop :=
  length ds = length parts /\ forall k, (k < length parts)%nat -> ready (nth k ds (bdec_init true [])) (nth k parts []).

Lemma tokens_round_trip tbl W ms cs n : Forall prob_ok tbl -> (0 < W)%nat -> (0 < n)%nat ->
  length ms = length cs -> (forall i m c, nth_error ms i = Some m -> nth_error cs i = Some c -> coef_ok m c) ->
  forall todo i, todo = skipn i (combine ms cs) -> (i <= length cs)%nat ->
  exists rests, length rests = n /\ Forall (Forall event_ok) rests /\
    (forall parts, length parts = n ->
       exists parts', tokens_events tbl W ms cs i todo parts = Some parts' /\ length parts' = n /\
         forall k, (k < n)%nat -> nth k parts' [] = nth k parts [] ++ nth k rests []) /\
    (forall ds, ready_all ds rests -> tokens_decode tbl W ms (map fst todo) (firstn i cs) ds = cs).
Proof.
  intros HT HW Hn HL HC todo. induction todo as [|[m c] todo IH]; intros i ET Hi.
  - exists (repeat [] n). split; [apply repeat_length|]. split.
    { apply Forall_forall. intros x Hx. apply repeat_spec in Hx. subst. constructor. }
    split.
    + intros parts HP. exists parts. split; [reflexivity|]. split; [exact HP|]. intros k Hk.
      replace (nth k (repeat [] n) []) with (@nil event); [symmetry; apply app_nil_r|].
      symmetry. apply (nth_repeat [] n k).
    + intros ds _. cbn [map tokens_decode].
      assert (length (skipn i (combine ms cs)) = 0)%nat as Z0 by (rewrite <- ET; reflexivity).
      rewrite skipn_length, combine_length in Z0. apply firstn_all2. lia.
  - assert (nth_error (combine ms cs) i = Some (m, c) /\ todo = skipn (S i) (combine ms cs)) as [EN ET'].
    { clear - ET. revert i ET. generalize (combine ms cs). induction l as [|x l IH]; intros i E.
      - destruct i; discriminate.
      - destruct i as [|i]; [cbn in E; injection E as -> ->; split; reflexivity|]. apply IH in E. exact E. }
    assert (nth_error ms i = Some m /\ nth_error cs i = Some c) as [EM EC].
    { clear - EN. revert cs i EN. induction ms as [|x ms IH]; intros cs i E; [destruct i; discriminate|].
      destruct cs as [|y cs]; [destruct i; discriminate|]. destruct i as [|i]; [injection E as -> ->; auto|]. exact (IH cs i E). }
    assert (i < length cs)%nat as Hlt by (apply nth_error_Some; congruence).
    destruct (IH (S i) ET' ltac:(lia)) as (rests & LR & OR & WR & RR). clear IH.
    destruct (codes_mb_tokens tbl W ms cs i m c HT HW EC (HC i m c EM EC)) as (evs & EW & OE & PE).
    set (k0 := ((i / W) mod n)%nat). assert (k0 < n)%nat as Hk0 by (apply Nat.mod_upper_bound; lia).
    exists (set_nth rests k0 (evs ++ nth k0 rests [])).
    assert (length (set_nth rests k0 (evs ++ nth k0 rests [])) = n) as LS by (rewrite set_nth_length; exact LR).
    split; [exact LS|]. split; [|split].
    + apply Forall_forall. intros x Hx. apply (In_nth _ _ []) in Hx. destruct Hx as (k & Hk & <-). rewrite LS in Hk.
      assert (Forall event_ok (nth k rests [])) as Q by (apply (proj1 (Forall_forall _ _) OR), nth_In; lia).
      destruct (Nat.eq_dec k k0) as [->|N].
      * rewrite nth_set_nth_eq by lia. apply Forall_app. auto.
      * rewrite nth_set_nth_ne by lia. exact Q.
    + intros parts HP. cbn [tokens_events]. rewrite EW, HP. fold k0.
      destruct (WR (set_nth parts k0 (nth k0 parts [] ++ evs))) as (parts' & E & LP & NP); [rewrite set_nth_length; exact HP|].
      exists parts'. split; [exact E|]. split; [exact LP|]. intros k Hk. rewrite NP by exact Hk.
      destruct (Nat.eq_dec k k0) as [->|N].
      * rewrite !nth_set_nth_eq by lia. rewrite <- app_assoc. reflexivity.
      * rewrite !nth_set_nth_ne by lia. reflexivity.
    + intros ds [LD RD]. rewrite LS in LD, RD. cbn [map fst tokens_decode].
      assert (length (firstn i cs) = i) as LF by (rewrite firstn_length; lia).
      rewrite LF, LD. fold k0.
      pose proof (RD k0 Hk0) as R0. rewrite nth_set_nth_eq in R0 by lia.
      destruct (PE _ _ R0) as (d' & ED & R1). rewrite ED.
      replace (firstn i cs ++ [c]) with (firstn (S i) cs).
      2:{ rewrite (firstn_S_nth c) by lia. f_equal. f_equal. apply nth_error_nth. exact EC. }
      apply RR. split; [rewrite set_nth_length; lia|]. intros k Hk. rewrite LR in Hk.
      destruct (Nat.eq_dec k k0) as [->|N].
      * rewrite nth_set_nth_eq by lia. exact R1.
      * rewrite nth_set_nth_ne by lia. pose proof (RD k Hk) as R2. rewrite nth_set_nth_ne in R2 by lia. exact R2.
Qed.

Lemma omap_encode parts : Forall (Forall event_ok) parts ->
  exists bss, omap bool_encode parts = Some bss /\ Forall bytes_ok bss /\ Forall (fun b => b <> []) bss /\
    length bss = length parts /\ ready_all (map (bdec_init true) bss) parts.
Proof.
  induction parts as [|p parts IH]; intros H.
  - exists []. repeat split; try constructor. cbn. lia.
  - inversion_clear H as [|? ? H1 H2]. destruct (IH H2) as (bss & E & B & N & L & R1 & R2).
    destruct (bool_coder_ready true p H1) as (bs & E1 & B1 & D1).
    exists (bs :: bss). cbn [omap]. rewrite E1, E. split; [reflexivity|]. split; [constructor; assumption|].
    split; [constructor; [eapply bool_encode_nonempty; eassumption|assumption]|]. cbn [length]. split; [lia|].
    split; [cbn [map length]; lia|]. intros k Hk. destruct k as [|k]; [exact D1|]. apply R2. cbn in Hk. lia.
Qed.

Lemma frame_tokens_round_trip tbl W n ms cs : Forall prob_ok tbl -> (0 < W)%nat -> (0 < n)%nat ->
  length ms = length cs -> (forall i m c, nth_error ms i = Some m -> nth_error cs i = Some c -> coef_ok m c) ->
  exists bss, serialize_frame_tokens tbl W n ms cs = Some bss /\ Forall bytes_ok bss /\ Forall (fun b => b <> []) bss /\
    length bss = n /\ tokens_decode tbl W ms ms [] (map (bdec_init true) bss) = cs.
Proof.
  intros HT HW Hn HL HC.
  destruct (tokens_round_trip tbl W ms cs n HT HW Hn HL HC (combine ms cs) 0%nat eq_refl (Nat.le_0_l _))
    as (rests & LR & OR & WR & RR).
  destruct (WR (repeat [] n)) as (parts & E & LP & NP); [apply repeat_length|].
  assert (parts = rests) as ->.
  { apply (nth_ext _ _ [] []); [lia|]. intros k Hk. rewrite NP by lia.
    replace (nth k (repeat [] n) []) with (@nil event) by (symmetry; apply (nth_repeat [] n k)). reflexivity. }
  destruct (omap_encode rests OR) as (bss & EB & B & N & L & R).
  exists bss. unfold serialize_frame_tokens. rewrite E. split; [exact EB|]. split; [exact B|]. split; [exact N|].
  split; [lia|]. specialize (RR _ R). rewrite combine_fst in RR by exact HL. cbn [firstn] in RR. exact RR.
Qed.

(** ** Whatever bits are read *)

Lemma yields_plane tbl type w a l n : forall cur : list block, Forall (block_ok type) cur ->
  yields (plane_decode tbl type w a l n cur) (fun r => length r = (length cur + n)%nat /\ Forall (block_ok type) r).
Proof.
  induction n as [|n IH]; intros cur HC; cbn [plane_decode].
  - apply yields_ret. split; [lia|exact HC].
  - eapply yields_bind.
    + intros d. apply parse_tokens_ok.
    + intros b Hb. eapply yields_impl; [apply IH; apply Forall_app; split; [exact HC|constructor; [exact Hb|constructor]]|].
      cbn beta. intros r [L F]. rewrite app_length in L. cbn in L. split; [lia|exact F].
Qed.

Lemma yields_mb_tokens tbl W ms m cs : yields (mb_tokens_decode tbl W ms m cs) (coef_ok m).
Proof.
  unfold mb_tokens_decode, coef_ok. destruct (skipped m); [apply yields_ret; reflexivity|].
  eapply yields_bind with (P := fun b => if y2_coded m then block_ok Y2_type b else b = fresh_block).
  { destruct (y2_coded m); [intros d; apply parse_tokens_ok|apply yields_ret; reflexivity]. }
  intros y2 H2. eapply yields_bind; [apply yields_plane; constructor|]. intros y [Ly Fy].
  eapply yields_bind; [apply yields_plane; constructor|]. intros u [Lu Fu].
  eapply yields_bind; [apply yields_plane; constructor|]. intros v [Lv Fv].
  apply yields_ret. cbn [co_y2 co_y co_u co_v]. cbn [length Nat.add] in *. repeat split; assumption.
Qed.

Lemma tokens_decode_ok tbl W ms : forall todo cs ds,
  exists new, tokens_decode tbl W ms todo cs ds = cs ++ new /\ Forall2 coef_ok todo new.
Proof.
  induction todo as [|m todo IH]; intros cs ds; cbn [tokens_decode].
  - exists []. split; [symmetry; apply app_nil_r|constructor].
  - pose proof (yields_mb_tokens tbl W ms m cs (nth ((length cs / W) mod length ds) ds (bdec_init true []))) as Y.
    destruct (mb_tokens_decode tbl W ms m cs _) as [c d]. cbn [fst] in Y.
    destruct (IH (cs ++ [c]) (set_nth ds ((length cs / W) mod length ds) d)) as (new & E & F).
    exists (c :: new). split; [rewrite E, <- app_assoc; reflexivity|]. constructor; assumption.
Qed.

Lemma Forall2_len {A B} (P : A -> B -> Prop) l l' : Forall2 P l l' -> length l = length l'.
Proof. induction 1; cbn; congruence. Qed.

Lemma Forall2_nth {A B} (P : A -> B -> Prop) l l' : Forall2 P l l' ->
  forall i a b, nth_error l i = Some a -> nth_error l' i = Some b -> P a b.
Proof.
  induction 1 as [|x y l l' H F IH]; intros i a b; [destruct i; discriminate|].
  destruct i as [|i]; cbn; [intros [= <-] [= <-]; exact H|apply IH].
Qed.

(** ** Probability tables *)

Lemma apply_updates_ok f ups : forall tbl, Forall prob_ok tbl -> Forall (o_ok (fun x => prob_ok (f x))) ups ->
  Forall prob_ok (apply_updates f tbl ups).
Proof.
  induction ups as [|u ups IH]; intros tbl HT HU; [destruct tbl; exact HT|].
  destruct tbl as [|p tbl]; [constructor|]. inversion_clear HT. inversion_clear HU as [|? ? HU1 HU2]. cbn [apply_updates].
  constructor; [|apply IH; assumption]. destruct u as [x|]; [apply HU1; reflexivity|assumption].
Qed.

Lemma o_ok_impl {A} (P Q : A -> Prop) o : (forall x, P x -> Q x) -> o_ok P o -> o_ok Q o.
Proof. intros I H a E. apply I, H, E. Qed.

Lemma half_prob_ok x : u_ok 7 x -> prob_ok (read_half_prob x).
Proof.
  unfold u_ok, prob_ok, read_half_prob. change (2 ^ 7) with 128. intros H. destruct (x =? 0); [lia|].
  rewrite Z.shiftl_mul_pow2 by lia. unfold wrap. change (2 ^ 8) with 256. change (2 ^ 1) with 2. lia.
Qed.
