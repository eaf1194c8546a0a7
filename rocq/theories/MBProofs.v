(** Round trip of macroblock headers. *)
From Verif Require Import Base BoolCoderModel ParserModel Tables TreeModel HeaderModel MVModel MBModel.
From Verif Require Import BoolEncProofs ParserProofs HeaderProofs MVProofs CodingSpec PropTrees.

(** [codes m w x]: the writer [w] succeeds with legal events that the parser
    [m] reads as [x]. *)
Definition codes {A} (m : dec A) (w : option (list event)) (x : A) : Prop :=
  exists evs, w = Some evs /\ Forall event_ok evs /\ parses m evs x.

Lemma codes_some {A} (m : dec A) evs x : Forall event_ok evs -> parses m evs x -> codes m (Some evs) x.
Proof. intros O P. exists evs. auto. Qed.

Lemma codes_ret {A} (x : A) : codes (dret x) (Some []) x.
Proof. apply codes_some; [constructor|apply parses_ret]. Qed.

Lemma codes_ret_eq {A} (x y : A) : x = y -> codes (dret x) (Some []) y.
Proof. intros <-. apply codes_ret. Qed.

Lemma codes_bind {A B} (m : dec A) (f : A -> dec B) w w' x y :
  codes m w x -> codes (f x) w' y -> codes (dbind m f) (oapp w w') y.
Proof.
  intros (e1 & E1 & O1 & P1) (e2 & E2 & O2 & P2). exists (e1 ++ e2). rewrite E1, E2. split; [reflexivity|].
  split; [apply Forall_app; auto|]. eapply parses_bind; eassumption.
Qed.

Lemma codes_bind_ret {A B} (m : dec A) (f : A -> dec B) w x y :
  codes m w x -> f x = dret y -> codes (dbind m f) w y.
Proof.
  intros (e1 & E1 & O1 & P1) E. exists e1. split; [exact E1|]. split; [exact O1|].
  rewrite <- (app_nil_r e1). apply (parses_bind m f e1 [] x y P1). rewrite E. apply parses_ret.
Qed.

Lemma codes_bind_nil {A B} (m : dec A) (f : A -> dec B) w x y :
  codes m (Some []) x -> codes (f x) w y -> codes (dbind m f) w y.
Proof.
  intros (e1 & E1 & _ & P1) (e2 & E2 & O2 & P2). injection E1 as <-. exists e2. split; [exact E2|].
  split; [exact O2|]. apply (parses_bind m f [] e2 x y P1 P2).
Qed.

Lemma codes_tree tree syms probs s : In (tree, syms) trees_and_symbols -> In s syms -> Forall prob_ok probs ->
  codes (tree_decode tree probs) (tree_encode tree probs s) s.
Proof.
  intros HT HS HP. destruct (tree_round_trip tree probs s (tree_symbol_ok _ _ _ HT HS)) as (evs & E & P).
  exists evs. split; [exact E|]. split; [eapply tree_events_ok; eassumption|exact P].
Qed.

Lemma codes_get p b : prob_ok p -> codes (bget p) (Some [(b, p)]) b.
Proof. intros H. apply codes_some; [constructor; [exact H|constructor]|apply parses_get]. Qed.

Lemma codes_if {A} (c : bool) (m1 m2 : dec A) w1 w2 x :
  (c = true -> codes m1 w1 x) -> (c = false -> codes m2 w2 x) ->
  codes (if c then m1 else m2) (if c then w1 else w2) x.
Proof. destruct c; auto. Qed.

Lemma codes_mv probs m : Forall prob_ok probs -> mv_codable m -> codes (read_mv probs) (write_mv probs m) m.
Proof. intros HP HM. destruct (parses_mv probs m HM) as (evs & E & O & P). exists evs. auto. Qed.

(** Concrete tables hold probabilities. *)
Lemma forallb_probs l : forallb (fun p => (0 <=? p) && (p <=? 255)) l = true -> Forall prob_ok l.
Proof.
  intros H. apply Forall_forall. intros x Hx. rewrite forallb_forall in H. specialize (H x Hx). unfold prob_ok. lia.
Qed.

Lemma kf_b_probs_ok a b : Forall prob_ok (kf_b_probs a b).
Proof. apply Forall_firstn, Forall_skipn, forallb_probs. vm_compute. reflexivity. Qed.

Lemma submv_probs_ok a b : Forall prob_ok (submv_ref_probs a b).
Proof. apply Forall_firstn, Forall_skipn, forallb_probs. vm_compute. reflexivity. Qed.

Lemma mv_ref_probs_ok c : Forall prob_ok (mv_ref_probs c).
Proof.
  assert (H : Forall prob_ok mv_counts_to_probs) by (apply forallb_probs; vm_compute; reflexivity).
  apply Forall_forall. intros p Hp. apply in_map_iff in Hp. destruct Hp as (j & <- & _). apply nth_prob_ok. exact H.
Qed.

(** ** Segment and skip *)

Definition seg_ok (u : option UpdateSegmentation) (s : option Z) : Prop :=
  (updates_map u = true <-> s <> None) /\ o_ok (fun s => 0 <= s < 4) s.
Definition skip_ok (p : option Z) (s : option bool) : Prop := p <> None <-> s <> None.

Lemma segment_tree_probs_ok u : o_ok us_ok u -> Forall prob_ok (segment_tree_probs u).
Proof.
  intros H. unfold segment_tree_probs. destruct u as [u|]; [|constructor]. specialize (H u eq_refl).
  destruct (mb_segmentation_map u) as [l|] eqn:E; [|constructor].
  destruct (us_map u H l E) as [_ HF]. apply Forall_forall. intros p Hp. apply in_map_iff in Hp.
  destruct Hp as (o & <- & Ho). rewrite Forall_forall in HF. specialize (HF o Ho). unfold prob_ok.
  destruct o as [q|]; [|lia]. specialize (HF q eq_refl). unfold u_ok in HF. lia.
Qed.

Lemma codes_segment u s : o_ok us_ok u -> seg_ok u s ->
  codes (segment_decode u) (segment_events u s) s.
Proof.
  intros HU [HS HR]. unfold segment_decode, segment_events, optional_decode. destruct s as [s|].
  - assert (updates_map u = true) as -> by (apply HS; discriminate).
    eapply codes_bind_ret; [|reflexivity].
    apply (codes_tree segment_id_tree [0; 1; 2; 3]); [vm_compute; tauto| |apply segment_tree_probs_ok; exact HU].
    specialize (HR s eq_refl). cbn beta in HR. cbn. lia.
  - destruct (updates_map u); [exfalso; apply HS; reflexivity|]. apply codes_ret.
Qed.

Lemma codes_skip p s : o_ok (u_ok 8) p -> skip_ok p s -> codes (skip_decode p) (skip_events p s) s.
Proof.
  intros HP HS. unfold skip_decode, skip_events, optional_decode, skip_ok in *. destruct p as [p|], s as [s|].
  - eapply codes_bind_ret; [|reflexivity]. apply codes_get. specialize (HP p eq_refl). unfold u_ok in HP. unfold prob_ok. cbn. lia.
  - exfalso. apply (proj1 HS); [discriminate|reflexivity].
  - exfalso. apply (proj2 HS); [discriminate|reflexivity].
  - apply codes_ret.
Qed.

(** ** Lists *)

Lemma nth_error_firstn {A} (l : list A) i j : (j < i)%nat -> nth_error (firstn i l) j = nth_error l j.
Proof.
  revert i j. induction l as [|x l IH]; intros i j H; [destruct i, j; reflexivity|].
  destruct i as [|i]; [lia|]. destruct j as [|j]; [reflexivity|]. cbn. apply IH. lia.
Qed.

Lemma nth_firstn {A} (d : A) l i j : (j < i)%nat -> nth j (firstn i l) d = nth j l d.
Proof.
  revert i j. induction l as [|x l IH]; intros i j H; [destruct i, j; reflexivity|].
  destruct i as [|i]; [lia|]. destruct j as [|j]; [reflexivity|]. cbn. apply IH. lia.
Qed.

Lemma above_of_firstn {A} W (l : list A) i : (0 < W)%nat -> above_of W (firstn i l) i = above_of W l i.
Proof. intros HW. unfold above_of. destruct (i <? W)%nat eqn:E; [reflexivity|]. apply nth_error_firstn. lia. Qed.
Lemma left_of_firstn {A} W (l : list A) i : (0 < W)%nat -> left_of W (firstn i l) i = left_of W l i.
Proof.
  intros HW. unfold left_of. destruct (i mod W =? 0)%nat eqn:E; [reflexivity|]. apply nth_error_firstn.
  assert (i <> 0)%nat; [|lia]. intros ->. rewrite Nat.mod_0_l in E by lia. discriminate.
Qed.
Lemma above_left_of_firstn {A} W (l : list A) i : (0 < W)%nat -> above_left_of W (firstn i l) i = above_left_of W l i.
Proof.
  intros HW. unfold above_left_of. destruct (i <? W)%nat eqn:E1; [reflexivity|].
  destruct (i mod W =? 0)%nat eqn:E; [reflexivity|]. apply nth_error_firstn.
  assert (i <> 0)%nat; [|lia]. intros ->. rewrite Nat.mod_0_l in E by lia. discriminate.
Qed.

Lemma firstn_S_nth {A} (d : A) l k : (k < length l)%nat -> firstn (S k) l = firstn k l ++ [nth k l d].
Proof.
  revert k. induction l as [|x l IH]; intros k H; [cbn in H; lia|]. destruct k as [|k]; [reflexivity|].
  cbn. f_equal. apply IH. cbn in H. lia.
Qed.

Lemma sub_above_firstn {A} (d : A) nb l k : sub_above d nb (firstn k l) k = sub_above d nb l k.
Proof. unfold sub_above. destruct (k <? 4)%nat eqn:E; [reflexivity|]. apply nth_firstn. lia. Qed.
Lemma sub_left_firstn {A} (d : A) nb l k : sub_left d nb (firstn k l) k = sub_left d nb l k.
Proof.
  unfold sub_left. destruct (k mod 4 =? 0)%nat eqn:E; [reflexivity|]. apply nth_firstn.
  destruct k; [discriminate|lia].
Qed.

(** ** Whole frames: macroblock after macroblock *)

Lemma codes_mbs_from f w l : (forall i m, nth_error l i = Some m -> codes (f (firstn i l)) (w l i m) m) ->
  forall post pre, l = pre ++ post ->
  codes (mbs_decode (length post) f pre)
        (oconcat (map (fun '(i, m) => w l i m) (combine (seq (length pre) (length post)) post))) l.
Proof.
  intros HF post. induction post as [|m post IH]; intros pre HL.
  - rewrite app_nil_r in HL. subst l. apply codes_ret.
  - cbn [length seq combine map mbs_decode oconcat fold_right]. eapply codes_bind.
    + specialize (HF (length pre) m). rewrite HL in HF at 1.
      rewrite nth_error_app2, Nat.sub_diag in HF by lia. specialize (HF eq_refl).
      rewrite HL in HF at 1. rewrite firstn_app, firstn_all, Nat.sub_diag in HF. cbn [firstn] in HF.
      rewrite app_nil_r in HF. exact HF.
    + specialize (IH (pre ++ [m])). rewrite app_length in IH. cbn [length] in IH.
      rewrite Nat.add_1_r in IH. apply IH. rewrite <- app_assoc. exact HL.
Qed.

Lemma codes_mbs f w l n : n = length l ->
  (forall i m, nth_error l i = Some m -> codes (f (firstn i l)) (w l i m) m) ->
  codes (mbs_decode n f []) (mbs_events w l) l.
Proof. intros -> HF. apply (codes_mbs_from f w l HF l []). reflexivity. Qed.

(** ** Key frames *)

Definition intra_symbols := [DC_PRED; V_PRED; H_PRED; TM_PRED; B_PRED].
Ltac in_syms :=
  cbv [In intra_symbols DC_PRED V_PRED H_PRED TM_PRED B_PRED NEARESTMV NEARMV ZEROMV NEWMV SPLITMV
       B_DC_PRED B_TM_PRED B_VE_PRED B_HE_PRED B_LD_PRED B_RD_PRED B_VR_PRED B_VL_PRED B_HD_PRED B_HU_PRED
       LEFT4X4 ABOVE4X4 ZERO4X4 NEW4X4]; lia.

Definition bmode_ok (m : Z) : Prop := 0 <= m < 10.

(** Luma modes, sub-block modes and chroma mode of an intra macroblock. *)
Definition intra_modes_ok (y : Z) (bm : list Z) (uv : Z) : Prop :=
  0 <= y <= 4 /\ 0 <= uv <= 3 /\ length bm = 16%nat /\
  (y = B_PRED -> Forall bmode_ok bm) /\
  (y <> B_PRED -> bm = repeat (implied_subblock_mode y) 16).

Definition kf_mb_ok (h : KeyFrameHeader) (m : mbinfo) : Prop :=
  seg_ok (kf_update_segmentation h) (mb_segment m) /\
  skip_ok (kf_prob_skip_false h) (mb_skip m) /\
  mb_inter m = false /\ mb_sel1 m = None /\ mb_sel2 m = None /\ mb_flipped m = false /\ mb_partition m = None /\
  mb_mvs m = repeat mv_zero 16 /\
  intra_modes_ok (mb_ymode m) (mb_bmodes m) (mb_uvmode m).

Lemma bmode_in m : bmode_ok m -> In m [B_DC_PRED; B_TM_PRED; B_VE_PRED; B_HE_PRED; B_LD_PRED; B_RD_PRED; B_VR_PRED; B_VL_PRED;
                   B_HD_PRED; B_HU_PRED].
Proof. unfold bmode_ok. intros H. in_syms. Qed.

Lemma codes_bmode probs m : bmode_ok m -> Forall prob_ok probs ->
  codes (tree_decode b_mode_tree probs) (tree_encode b_mode_tree probs m) m.
Proof. intros HM HP. eapply codes_tree; [|apply bmode_in; exact HM|exact HP]. vm_compute. tauto. Qed.

Lemma codes_kf_bmodes above left bm : Forall bmode_ok bm -> forall n k, (k + n = length bm)%nat ->
  codes (kf_bmodes_decode n above left (firstn k bm))
    (oconcat (map (fun k => tree_encode b_mode_tree
                           (kf_b_probs (sub_above B_DC_PRED above bm k) (sub_left B_DC_PRED left bm k))
                           (nth k bm 0)) (seq k n))) bm.
Proof.
  intros HB n. induction n as [|n IH]; intros k HK.
  - cbn. rewrite firstn_all2 by lia. apply codes_ret.
  - cbn [kf_bmodes_decode seq map oconcat fold_right].
    assert (L : length (firstn k bm) = k) by (rewrite firstn_length; lia). rewrite L.
    rewrite sub_above_firstn, sub_left_firstn. eapply codes_bind.
    + apply codes_bmode; [|apply kf_b_probs_ok]. rewrite Forall_forall in HB. apply HB. apply nth_In. lia.
    + rewrite <- (firstn_S_nth 0) by lia. apply IH. lia.
Qed.

Lemma codes_kf_mb h W l i m : kfh_ok h -> (0 < W)%nat -> nth_error l i = Some m -> kf_mb_ok h m ->
  codes (kf_mb_decode h W (firstn i l)) (kf_mb_events h W l i m) m.
Proof.
  intros HH HW HN (HS & HK & E1 & E2 & E3 & E4 & E5 & E6 & HY & HU & HL & HB & HI).
  unfold kf_mb_decode, kf_mb_events.
  assert (L : length (firstn i l) = i).
  { rewrite firstn_length. assert (i < length l)%nat by (apply nth_error_Some; congruence). lia. }
  rewrite L. rewrite above_of_firstn, left_of_firstn by exact HW.
  eapply codes_bind; [apply codes_segment; [apply (kfo_seg h HH)|exact HS]|].
  eapply codes_bind; [apply codes_skip; [apply (kfo_skip h HH)|exact HK]|].
  eapply codes_bind.
  { apply (codes_tree kf_y_mode_tree intra_symbols); [vm_compute; tauto|in_syms|apply forallb_probs; vm_compute; reflexivity]. }
  eapply codes_bind.
  { apply (codes_if _ _ _ _ _ (mb_bmodes m)).
    - intros E. apply (codes_kf_bmodes _ _ (mb_bmodes m) (HB ltac:(lia)) 16 0). lia.
    - intros E. apply codes_ret_eq. symmetry. apply HI. lia. }
  eapply codes_bind_ret.
  { apply (codes_tree uv_mode_tree [DC_PRED; V_PRED; H_PRED; TM_PRED]); [vm_compute; tauto|in_syms|apply forallb_probs; vm_compute; reflexivity]. }
  cbn beta. f_equal. destruct m. cbn in *. subst. reflexivity.
Qed.

Lemma codes_kf_macroblocks h W H l : kfh_ok h -> (0 < W)%nat -> length l = (W * H)%nat -> Forall (kf_mb_ok h) l ->
  codes (kf_macroblocks_decode h W H) (kf_macroblocks_events h W l) l.
Proof.
  intros HH HW HL HF. apply codes_mbs; [lia|]. intros i m HN. apply codes_kf_mb; auto.
  rewrite Forall_forall in HF. apply HF. eapply nth_error_In. exact HN.
Qed.

(** ** Inter frames *)

Definition mv_ok (v : mv) : Prop := -32768 <= fst v <= 32767 /\ -32768 <= snd v <= 32767.

Lemma s16_range z : -32768 <= s16 z <= 32767.
Proof. unfold s16. lia. Qed.
Lemma s16_id z : -32768 <= z <= 32767 -> s16 z = z.
Proof. unfold s16. lia. Qed.

Lemma s16_sub_add a b : s16 (s16 (a + s16 (- b)) + b) = s16 a.
Proof. unfold s16. lia. Qed.
Lemma s16_add_sub a b : s16 (s16 (a + b) + s16 (- b)) = s16 a.
Proof. unfold s16. lia. Qed.

Lemma mv_sub_add v b : mv_ok v -> mv_add (mv_sub v b) b = v.
Proof.
  destruct v as [x y], b as [c d]. unfold mv_ok, mv_add, mv_sub, mv_add, mv_neg. cbn [fst snd]. intros [H1 H2].
  rewrite !s16_sub_add, !s16_id by lia. reflexivity.
Qed.
Lemma mv_add_sub v b : mv_ok v -> mv_sub (mv_add v b) b = v.
Proof.
  destruct v as [x y], b as [c d]. unfold mv_ok, mv_add, mv_sub, mv_add, mv_neg. cbn [fst snd]. intros [H1 H2].
  rewrite !s16_add_sub, !s16_id by lia. reflexivity.
Qed.

Lemma codable_ok v : mv_codable v -> mv_ok v.
Proof. intros [[_ A] [_ B]]. unfold mv_ok. lia. Qed.

(** A vector that can be coded as a difference from [best]. *)
Definition new_mv_ok (best v : mv) : Prop := mv_ok v /\ mv_codable (mv_sub v best).

Lemma codes_new_mv {B} probs best v (g : mv -> B) : Forall prob_ok probs -> new_mv_ok best v ->
  codes (do x <- read_mv probs; dret (g (mv_add x best))) (write_mv probs (mv_sub v best)) (g v).
Proof.
  intros HP [H1 H2]. eapply codes_bind_ret; [apply codes_mv; eassumption|]. cbn beta.
  rewrite mv_sub_add by exact H1. reflexivity.
Qed.

(** *** Split macroblocks *)

(** Sub-blocks that [k]'s contexts refer to inside the macroblock. *)
Definition needs (k : nat) : list nat :=
  (if (k <? 4)%nat then [] else [(k - 4)%nat]) ++ (if (k mod 4 =? 0)%nat then [] else [(k - 1)%nat]).
Definition inb (k : nat) (l : list nat) : bool := existsb (Nat.eqb k) l.
Fixpoint scheme_ok (parts : list (list nat)) (done : list nat) : bool :=
  match parts with
  | [] => forallb (fun k => inb k done) (seq 0 16)
  | p :: r => negb (match p with [] => true | _ => false end) && forallb (fun k => (k <? 16)%nat) p &&
              forallb (fun k => inb k done) (needs (hd 0%nat p)) && scheme_ok r (p ++ done)
  end.

Lemma schemes_ok p : 0 <= p < 4 -> scheme_ok (mv_partition p) [] = true.
Proof.
  intros H. assert (C : p = 0 \/ p = 1 \/ p = 2 \/ p = 3) by lia.
  destruct C as [->|[->|[->| ->]]]; vm_compute; reflexivity.
Qed.

Lemma inb_In k l : inb k l = true <-> In k l.
Proof.
  unfold inb. rewrite existsb_exists. split.
  - intros (x & Hx & E). apply Nat.eqb_eq in E. subst. exact Hx.
  - intros H. exists k. split; [exact H|apply Nat.eqb_refl].
Qed.

Lemma set_nth_length {A} (l : list A) i v : length (set_nth l i v) = length l.
Proof. revert i. induction l; intros [|i]; cbn; auto. Qed.

Lemma nth_set_nth {A} (d : A) l i j v : (i < length l)%nat ->
  nth j (set_nth l i v) d = if (j =? i)%nat then v else nth j l d.
Proof.
  revert i j. induction l as [|x l IH]; intros i j H; cbn in H; [lia|].
  destruct i as [|i], j as [|j]; cbn; auto. apply IH. lia.
Qed.

Lemma fill_length part : forall cur b, length (fill cur part b) = length cur.
Proof. induction part as [|k part IH]; intros cur b; [reflexivity|]. unfold fill in *. cbn. rewrite IH. apply set_nth_length. Qed.

Lemma nth_fill d b part : forall cur j, forallb (fun k => (k <? length cur)%nat) part = true ->
  nth j (fill cur part b) d = if inb j part then b else nth j cur d.
Proof.
  induction part as [|k part IH]; intros cur j H; [reflexivity|]. cbn [forallb] in H. apply andb_true_iff in H. destruct H as [H1 H2].
  unfold fill in *. cbn [fold_left]. rewrite IH.
  - rewrite nth_set_nth by lia. cbn [inb existsb]. unfold inb. destruct (j =? k)%nat, (existsb (Nat.eqb j) part); reflexivity.
  - rewrite set_nth_length. exact H2.
Qed.

(** The first sub-block [k] of a partition: its mode and vector agree. *)
Definition sub_ok (best : mv) (above left : option (list mv)) (t : list (Z * mv)) (k : nat) : Prop :=
  let left_mv := sub_left mv_zero left (map snd t) k in
  let above_mv := sub_above mv_zero above (map snd t) k in
  let '(m, v) := nth k t (0, mv_zero) in
  m = LEFT4X4 /\ v = left_mv \/ m = ABOVE4X4 /\ v = above_mv \/ m = ZERO4X4 /\ v = mv_zero \/
  m = NEW4X4 /\ new_mv_ok best v.

Definition split_ok (best : mv) (above left : option (list mv)) (parts : list (list nat)) (t : list (Z * mv)) : Prop :=
  length t = 16%nat /\
  forall part, In part parts ->
    sub_ok best above left t (hd 0%nat part) /\
    forall k, In k part -> nth k t (0, mv_zero) = nth (hd 0%nat part) t (0, mv_zero).

Definition agree (done : list nat) (cur t : list (Z * mv)) : Prop :=
  length cur = 16%nat /\ length t = 16%nat /\
  forall k, In k done -> nth k cur (0, mv_zero) = nth k t (0, mv_zero).

Lemma map_snd_nth k (t : list (Z * mv)) : nth k (map snd t) mv_zero = snd (nth k t (0, mv_zero)).
Proof. exact (map_nth snd t (0, mv_zero) k). Qed.

Lemma agree_contexts done cur t above left k : agree done cur t -> forallb (fun j => inb j done) (needs k) = true ->
  sub_above mv_zero above (map snd cur) k = sub_above mv_zero above (map snd t) k /\
  sub_left mv_zero left (map snd cur) k = sub_left mv_zero left (map snd t) k.
Proof.
  intros (L1 & L2 & HA) HN. unfold needs in HN. rewrite forallb_app in HN. apply andb_true_iff in HN. destruct HN as [N1 N2].
  unfold sub_above, sub_left. split.
  - destruct (k <? 4)%nat; [reflexivity|]. cbn in N1. rewrite andb_true_r in N1. apply inb_In in N1.
    rewrite !map_snd_nth, HA by exact N1. reflexivity.
  - destruct (k mod 4 =? 0)%nat; [reflexivity|]. cbn in N2. rewrite andb_true_r in N2. apply inb_In in N2.
    rewrite !map_snd_nth, HA by exact N2. reflexivity.
Qed.

Lemma codes_sub_mv probs best above left cur t k : Forall prob_ok probs ->
  sub_above mv_zero above (map snd cur) k = sub_above mv_zero above (map snd t) k ->
  sub_left mv_zero left (map snd cur) k = sub_left mv_zero left (map snd t) k ->
  sub_ok best above left t k ->
  codes (sub_mv_decode probs best above left cur k) (sub_mv_events probs best above left t k) (nth k t (0, mv_zero)).
Proof.
  intros HP EA EL HS. unfold sub_mv_decode, sub_mv_events, sub_ok in *. rewrite EA, EL. clear EA EL.
  destruct (nth k t (0, mv_zero)) as [m v].
  assert (T : In m [LEFT4X4; ABOVE4X4; ZERO4X4; NEW4X4] -> codes
    (tree_decode submv_ref_tree (submv_ref_probs (sub_left mv_zero left (map snd t) k) (sub_above mv_zero above (map snd t) k)))
    (tree_encode submv_ref_tree (submv_ref_probs (sub_left mv_zero left (map snd t) k) (sub_above mv_zero above (map snd t) k)) m) m).
  { intros HI. eapply codes_tree; [|exact HI|apply submv_probs_ok]. vm_compute. tauto. }
  destruct HS as [[-> ->]|[[-> ->]|[[-> ->]|[-> HN]]]]; (eapply codes_bind; [apply T; cbn; tauto|]).
  - apply codes_ret.
  - apply codes_ret.
  - apply codes_ret.
  - change (NEW4X4 =? LEFT4X4) with false. change (NEW4X4 =? ABOVE4X4) with false. change (NEW4X4 =? ZERO4X4) with false.
    change (NEW4X4 =? NEW4X4) with true. cbv iota. apply (codes_new_mv probs best v (fun v => (NEW4X4, v))); assumption.
Qed.

Lemma codes_split probs best above left t parts : Forall prob_ok probs -> forall done cur,
  scheme_ok parts done = true -> agree done cur t -> split_ok best above left parts t ->
  codes (split_decode probs best above left parts cur) (split_events probs best above left parts t) t.
Proof.
  intros HP. induction parts as [|p parts IH]; intros done cur HS HA HT.
  - apply codes_ret_eq. destruct HA as (L1 & L2 & HA). apply (nth_ext _ _ (0, mv_zero) (0, mv_zero)); [lia|].
    intros k Hk. apply HA. cbn in HS. apply inb_In. cbn [scheme_ok] in HS.
    change (forallb (fun k => inb k done) (seq 0 16) = true) in HS. rewrite forallb_forall in HS. apply HS. apply in_seq. lia.
  - cbn [scheme_ok] in HS. apply andb_true_iff in HS. destruct HS as [HS S4]. apply andb_true_iff in HS. destruct HS as [HS S3].
    apply andb_true_iff in HS. destruct HS as [S1 S2].
    unfold split_events. cbn [split_decode map oconcat fold_right].
    destruct HT as [HL HT]. destruct (HT p (or_introl eq_refl)) as [HSub HAll].
    destruct (agree_contexts done cur t above left (hd 0%nat p) HA S3) as [EA EL].
    eapply codes_bind; [apply (codes_sub_mv probs best above left cur t); assumption|].
    apply (IH (p ++ done)); [exact S4| |split; [exact HL|intros part HI; apply HT; right; exact HI]].
    destruct HA as (L1 & L2 & HA). split; [rewrite fill_length; exact L1|]. split; [exact L2|].
    intros k Hk. rewrite nth_fill by (rewrite L1; exact S2).
    destruct (inb k p) eqn:EK.
    + apply inb_In in EK. symmetry. apply HAll. exact EK.
    + apply HA. apply in_app_or in Hk. destruct Hk as [Hk|Hk]; [|exact Hk].
      apply inb_In in Hk. congruence.
Qed.

(** *** One macroblock *)

Definition pt_ok (pt : ProbabilityTables) : Prop :=
  Forall prob_ok (pt_coeff pt) /\ Forall prob_ok (pt_mv pt) /\ Forall prob_ok (pt_y_mode pt) /\ Forall prob_ok (pt_uv_mode pt).

Definition flip_of (h : InterFrameHeader) (m : mbinfo) : bool :=
  ((mb_reference m =? GOLDEN_FRAME) && if_sign_bias_golden h) ||
  ((mb_reference m =? ALTREF_FRAME) && if_sign_bias_alternate h).

Definition mb_header_ok (h : InterFrameHeader) (m : mbinfo) : Prop :=
  (mb_inter m = true <-> mb_sel1 m <> None) /\ (mb_sel1 m = Some true <-> mb_sel2 m <> None) /\
  mb_flipped m = flip_of h m.

(** Modes and vectors of an inter-coded macroblock, given the census of its
    neighbours. *)
Definition inter_modes_ok (W H : nat) (l : list mbinfo) (i : nat) (m : mbinfo) : Prop :=
  let census := census_at W (mb_flipped m) l i in
  let best := clamp_at W H i (sc_best census) in
  let whole v := mb_partition m = None /\ mb_bmodes m = repeat 0 16 /\ mb_mvs m = repeat v 16 in
  mb_ymode m = NEARESTMV /\ whole (clamp_at W H i (sc_nearest census)) \/
  mb_ymode m = NEARMV /\ whole (clamp_at W H i (sc_near census)) \/
  mb_ymode m = ZEROMV /\ whole mv_zero \/
  mb_ymode m = NEWMV /\ (exists v, whole v /\ new_mv_ok best v) \/
  mb_ymode m = SPLITMV /\
    exists p, mb_partition m = Some p /\ 0 <= p < 4 /\ length (mb_bmodes m) = 16%nat /\ length (mb_mvs m) = 16%nat /\
      split_ok best (option_map mb_mvs (above_of W l i)) (option_map mb_mvs (left_of W l i)) (mv_partition p)
               (combine (mb_bmodes m) (mb_mvs m)).

Definition if_mb_ok (h : InterFrameHeader) (W H : nat) (l : list mbinfo) (i : nat) (m : mbinfo) : Prop :=
  seg_ok (if_update_segmentation h) (mb_segment m) /\
  skip_ok (if_prob_skip_false h) (mb_skip m) /\
  mb_header_ok h m /\
  if mb_inter m then mb_uvmode m = 0 /\ inter_modes_ok W H l i m
  else mb_partition m = None /\ mb_mvs m = repeat mv_zero 16 /\
       intra_modes_ok (mb_ymode m) (mb_bmodes m) (mb_uvmode m).

Lemma codes_optional_flag (c : bool) p (o : option bool) : prob_ok p -> (c = true <-> o <> None) ->
  codes (optional_decode c (bget p)) (Some (optional_events (fun b => [(b, p)]) o)) o.
Proof.
  intros HP HC. apply codes_some.
  - destruct o; constructor; [exact HP|constructor].
  - apply parses_optional; [exact HC|]. intros a _. apply parses_get.
Qed.

Lemma oapp_some {A} (a b : list A) : Some (a ++ b) = oapp (Some a) (Some b).
Proof. reflexivity. Qed.

Lemma u8_prob p : u_ok 8 p -> prob_ok p.
Proof. unfold u_ok, prob_ok. lia. Qed.

Lemma codes_mb_header h m : ifh_ok h -> mb_header_ok h m ->
  codes (mb_header_decode h) (Some (mb_header_events h m)) (mb_inter m, mb_sel1 m, mb_sel2 m, mb_flipped m).
Proof.
  intros HH (H1 & H2 & H3). unfold mb_header_decode, mb_header_events. rewrite !oapp_some.
  eapply codes_bind; [apply codes_get, u8_prob, (ifo_inter h HH)|].
  eapply codes_bind; [apply codes_optional_flag; [apply u8_prob, (ifo_last h HH)|exact H1]|].
  eapply codes_bind_ret; [apply codes_optional_flag; [apply u8_prob, (ifo_gold h HH)|]|].
  - rewrite <- H2. destruct (mb_sel1 m) as [[|]|]; split; congruence.
  - cbn beta zeta. rewrite H3. unfold flip_of, mb_reference. reflexivity.
Qed.

Lemma codes_drep_bmodes probs bm : Forall prob_ok probs -> Forall bmode_ok bm ->
  codes (drep (length bm) (tree_decode b_mode_tree probs)) (oconcat (map (tree_encode b_mode_tree probs) bm)) bm.
Proof.
  intros HP. induction bm as [|m bm IH]; intros HB; [apply codes_ret|].
  cbn [length drep map oconcat fold_right]. inversion HB; subst. eapply codes_bind; [apply codes_bmode; eassumption|].
  eapply codes_bind_ret; [apply IH; assumption|reflexivity].
Qed.

Lemma codes_intra_modes pt m : pt_ok pt -> intra_modes_ok (mb_ymode m) (mb_bmodes m) (mb_uvmode m) ->
  codes (intra_modes_decode pt) (intra_modes_events pt m) (mb_ymode m, mb_bmodes m, mb_uvmode m).
Proof.
  intros (P1 & P2 & P3 & P4) (HY & HU & HL & HB & HI). unfold intra_modes_decode, intra_modes_events.
  eapply codes_bind.
  { apply (codes_tree y_mode_tree intra_symbols); [vm_compute; tauto|in_syms|exact P3]. }
  eapply codes_bind.
  { apply (codes_if _ _ _ _ _ (mb_bmodes m)).
    - intros E. rewrite <- HL. apply codes_drep_bmodes; [apply forallb_probs; vm_compute; reflexivity|apply HB; lia].
    - intros E. apply codes_ret_eq. symmetry. apply HI. lia. }
  eapply codes_bind_ret.
  { apply (codes_tree uv_mode_tree [DC_PRED; V_PRED; H_PRED; TM_PRED]); [vm_compute; tauto|in_syms|exact P4]. }
  reflexivity.
Qed.

Lemma codes_ext {A} (m : dec A) w w' x : codes m w x -> w = w' -> codes m w' x.
Proof. intros H <-. exact H. Qed.

Lemma combine_fst {A B} (a : list A) : forall (b : list B), length a = length b -> map fst (combine a b) = a.
Proof. induction a; intros [|y b] H; cbn in *; try congruence. f_equal. apply IHa. lia. Qed.
Lemma combine_snd {A B} (a : list A) : forall (b : list B), length a = length b -> map snd (combine a b) = b.
Proof. induction a; intros [|y b] H; cbn in *; try congruence. f_equal. apply IHa. lia. Qed.

Lemma census_at_firstn W f l i : (0 < W)%nat -> census_at W f (firstn i l) i = census_at W f l i.
Proof. intros H. unfold census_at. rewrite above_of_firstn, left_of_firstn, above_left_of_firstn by exact H. reflexivity. Qed.

Lemma codes_inter_modes pt W H l i m : pt_ok pt -> (0 < W)%nat -> nth_error l i = Some m ->
  inter_modes_ok W H l i m ->
  codes (inter_modes_decode pt W H (mb_flipped m) (firstn i l)) (inter_modes_events pt W H l i m)
        (mb_ymode m, mb_partition m, mb_bmodes m, mb_mvs m).
Proof.
  intros (P1 & P2 & P3 & P4) HW HN HM. unfold inter_modes_decode, inter_modes_events, inter_modes_ok in *.
  assert (L : length (firstn i l) = i).
  { rewrite firstn_length. assert (i < length l)%nat by (apply nth_error_Some; congruence). lia. }
  rewrite L, census_at_firstn, above_of_firstn, left_of_firstn by exact HW. cbv zeta in *.
  set (census := census_at W (mb_flipped m) l i) in *.
  set (best := clamp_at W H i (sc_best census)) in *.
  assert (T : In (mb_ymode m) [NEARESTMV; NEARMV; ZEROMV; NEWMV; SPLITMV] ->
    codes (tree_decode mv_ref_tree (mv_ref_probs (sc_contexts census)))
          (tree_encode mv_ref_tree (mv_ref_probs (sc_contexts census)) (mb_ymode m)) (mb_ymode m)).
  { intros HI. eapply codes_tree; [|exact HI|apply mv_ref_probs_ok]. vm_compute. tauto. }
  destruct HM as [[E (A & B & C)]|[[E (A & B & C)]|[[E (A & B & C)]|[[E (v & (A & B & C) & D)]|[E (p & A & B & C & C' & D)]]]]];
    rewrite E in *; (eapply codes_bind; [apply T; cbn; tauto|]); cbv beta; rewrite A.
  - apply codes_ret_eq. rewrite B, C. reflexivity.
  - apply codes_ret_eq. rewrite B, C. reflexivity.
  - apply codes_ret_eq. rewrite B, C. reflexivity.
  - assert (EV : base_mv m = v) by (unfold base_mv; rewrite C; reflexivity). rewrite EV, B, C.
    change (NEWMV =? NEARESTMV) with false. change (NEWMV =? NEARMV) with false. change (NEWMV =? ZEROMV) with false.
    change (NEWMV =? NEWMV) with true. cbv iota.
    apply (codes_new_mv (pt_mv pt) best v (fun v => (NEWMV, None, repeat 0 16, repeat v 16))); assumption.
  - change (SPLITMV =? NEARESTMV) with false. change (SPLITMV =? NEARMV) with false. change (SPLITMV =? ZEROMV) with false.
    change (SPLITMV =? NEWMV) with false. change (SPLITMV =? SPLITMV) with true. cbv iota.
    eapply codes_bind.
    { apply (codes_tree split_mv_tree [0; 1; 2; 3]); [vm_compute; tauto|in_syms|apply forallb_probs; vm_compute; reflexivity]. }
    eapply codes_bind_ret.
    { apply (codes_split (pt_mv pt) best _ _ (combine (mb_bmodes m) (mb_mvs m)) (mv_partition p) P2 []).
      - apply schemes_ok. exact B.
      - split; [reflexivity|]. split; [rewrite combine_length; lia|]. intros k [].
      - exact D. }
    cbv beta. rewrite combine_fst, combine_snd by lia. reflexivity.
Qed.

Lemma codes_if_mb h pt W H l i m : ifh_ok h -> pt_ok pt -> (0 < W)%nat -> nth_error l i = Some m ->
  if_mb_ok h W H l i m ->
  codes (if_mb_decode h pt W H (firstn i l)) (if_mb_events h pt W H l i m) m.
Proof.
  intros HH HP HW HN (HS & HK & HD & HM). unfold if_mb_decode, if_mb_events.
  eapply codes_bind; [apply codes_segment; [apply (ifo_seg h HH)|exact HS]|].
  eapply codes_bind; [apply codes_skip; [apply (ifo_skip h HH)|exact HK]|].
  eapply codes_bind; [apply codes_mb_header; assumption|]. cbv beta iota.
  destruct (mb_inter m) eqn:EI.
  - destruct HM as [HU HM]. eapply codes_bind_ret; [apply codes_inter_modes; assumption|].
    cbv beta iota. f_equal. destruct m. cbn in *. subst. reflexivity.
  - destruct HM as (EP & EM & HM). eapply codes_bind_ret; [apply codes_intra_modes; assumption|].
    cbv beta iota. f_equal. destruct m. cbn in *. subst. reflexivity.
Qed.

Lemma codes_if_macroblocks h pt W H l : ifh_ok h -> pt_ok pt -> (0 < W)%nat -> length l = (W * H)%nat ->
  (forall i m, nth_error l i = Some m -> if_mb_ok h W H l i m) ->
  codes (if_macroblocks_decode h pt W H) (if_macroblocks_events h pt W H l) l.
Proof.
  intros HH HP HW HL HF. apply codes_mbs; [lia|]. intros i m HN. apply codes_if_mb; auto.
Qed.
