(** Error concealment never takes effect (C52). *)
From Verif Require Import Base BoolCoderModel ParserModel Tables TreeModel HeaderModel MVModel MBModel.
From Verif Require Import ChunkModel ContainerModel FrameModel ConcealModel.

(** The decoder has been told that its data are complete, and has noticed
    nothing missing. *)
Definition alive (d : bdec) : Prop := bd_complete d = true /\ bd_valid d = true.
Definition keeps {A} (m : dec A) : Prop := forall d, alive d -> alive (snd (m d)).

Lemma alive_load d : alive d -> alive (load_octet d).
Proof. intros [C V]. unfold load_octet. destruct (bd_chunk d); [rewrite C|]; split; assumption. Qed.

Lemma alive_norm f : forall d, alive d -> alive (bnorm f d).
Proof.
  induction f as [|f IH]; intros d H; cbn [bnorm]; [exact H|]. destruct (bd_range d <? 128); [|exact H].
  destruct (bd_bc d + 1 =? 8); apply IH; [apply alive_load|]; exact H.
Qed.

Lemma keeps_get p : keeps (bget p).
Proof. intros d H. unfold bget. destruct (_ <=? bd_value d); cbn [snd]; apply alive_norm; exact H. Qed.
Lemma keeps_ret {A} (x : A) : keeps (dret x).
Proof. intros d H. exact H. Qed.
Lemma keeps_bind {A B} (m : dec A) (f : A -> dec B) : keeps m -> (forall x, keeps (f x)) -> keeps (dbind m f).
Proof. intros HM HF d H. unfold dbind. specialize (HM d H). destruct (m d) as [x d']. apply HF. exact HM. Qed.
Lemma keeps_if {A} (b : bool) (m m' : dec A) : keeps m -> keeps m' -> keeps (if b then m else m').
Proof. destruct b; auto. Qed.

Lemma keeps_tree_loop f nodes probs : forall i, keeps (tree_loop f nodes probs i).
Proof.
  induction f as [|f IH]; intros i; cbn [tree_loop]; [apply keeps_ret|]. apply keeps_bind; [apply keeps_get|].
  intros b. cbv zeta. apply keeps_if; [apply IH|apply keeps_ret].
Qed.
Lemma keeps_tree nodes probs : keeps (tree_decode nodes probs).
Proof. apply keeps_tree_loop. Qed.
Lemma keeps_optional {A} c (m : dec A) : keeps m -> keeps (optional_decode c m).
Proof. intros H. apply keeps_if; [|apply keeps_ret]. apply keeps_bind; [exact H|]. intros; apply keeps_ret. Qed.
Lemma keeps_drep {A} n (m : dec A) : keeps m -> keeps (drep n m).
Proof.
  intros H. induction n as [|n IH]; cbn [drep]; [apply keeps_ret|].
  apply keeps_bind; [exact H|]. intros. apply keeps_bind; [exact IH|]. intros; apply keeps_ret.
Qed.

Ltac keeps_tac :=
  repeat first [ apply keeps_ret | apply keeps_get | apply keeps_tree | apply keeps_optional | apply keeps_drep
               | apply keeps_if | (apply keeps_bind; [|intros ?]) | (match goal with |- keeps (let '_ := ?x in _) => destruct x end)
               | progress cbv zeta ].

Lemma keeps_segment u : keeps (segment_decode u).
Proof. unfold segment_decode. keeps_tac. Qed.
Lemma keeps_skip p : keeps (skip_decode p).
Proof. unfold skip_decode. keeps_tac. Qed.
Lemma keeps_mb_header h : keeps (mb_header_decode h).
Proof. unfold mb_header_decode. keeps_tac. Qed.
Lemma keeps_intra pt : keeps (intra_modes_decode pt).
Proof. unfold intra_modes_decode. keeps_tac. Qed.
Lemma keeps_read_bits probs idx : forall x, keeps (read_bits probs idx x).
Proof. induction idx as [|i r IH]; intros x; cbn [read_bits]; [apply keeps_ret|]. apply keeps_bind; [apply keeps_get|]. intros; apply IH. Qed.
Lemma keeps_mv probs : keeps (read_mv probs).
Proof.
  assert (forall p, keeps (read_component p)) as H.
  { intros p. unfold read_component. keeps_tac. }
  unfold read_mv. apply keeps_bind; [apply H|]. intros. apply keeps_bind; [apply H|]. intros. apply keeps_ret.
Qed.
Lemma keeps_split probs best above left parts : forall cur, keeps (split_decode probs best above left parts cur).
Proof.
  induction parts as [|p r IH]; intros cur; cbn [split_decode]; [apply keeps_ret|].
  apply keeps_bind; [|intros; apply IH]. unfold sub_mv_decode. keeps_tac; apply keeps_mv.
Qed.
Lemma keeps_inter pt W H f l : keeps (inter_modes_decode pt W H f l).
Proof. unfold inter_modes_decode. keeps_tac; (apply keeps_mv || apply keeps_split). Qed.
Lemma keeps_if_mb h pt W H l : keeps (if_mb_decode h pt W H l).
Proof.
  unfold if_mb_decode. apply keeps_bind; [apply keeps_segment|intros]. apply keeps_bind; [apply keeps_skip|intros].
  apply keeps_bind; [apply keeps_mb_header|]. intros [[[inter sel1] sel2] flipped]. apply keeps_if.
  - apply keeps_bind; [apply keeps_inter|]. intros [[[y p] bm] mvs]. apply keeps_ret.
  - apply keeps_bind; [apply keeps_intra|]. intros [[y bm] uv]. apply keeps_ret.
Qed.

Definition same (ec : bool) {A} (m m' : dec A) : Prop := forall d, ec = false \/ alive d -> m d = m' d.

Lemma same_refl ec {A} (m : dec A) : same ec m m.
Proof. intros d _. reflexivity. Qed.
Lemma same_bind ec {A B} (m m' : dec A) (f f' : A -> dec B) :
  same ec m m' -> keeps m' -> (forall x, same ec (f x) (f' x)) -> same ec (dbind m f) (dbind m' f').
Proof.
  intros HM HK HF d H. unfold dbind. rewrite (HM d H). specialize (HK d). destruct (m' d) as [x d']. apply HF.
  destruct H as [H|H]; [left; exact H|right; exact (HK H)].
Qed.
Lemma not_lost ec d : ec = false \/ alive d -> lost ec d = false.
Proof. unfold lost. intros [->|[_ ->]]; [reflexivity|]. apply andb_false_r. Qed.

Lemma same_if_mb ec z h pt W H l : same ec (if_mb_decode_ec ec z h pt W H l) (if_mb_decode h pt W H l).
Proof.
  unfold if_mb_decode_ec, if_mb_decode.
  apply same_bind; [|apply keeps_segment|intros seg].
  { intros d Hd. unfold or_zero. rewrite (not_lost _ _ Hd). reflexivity. }
  apply same_bind; [|apply keeps_skip|intros skip].
  { intros d Hd. unfold or_zero. rewrite (not_lost _ _ Hd). reflexivity. }
  apply same_bind; [|apply keeps_mb_header|intros [[[inter sel1] sel2] flipped]].
  { intros d Hd. unfold mb_header_decode_ec. rewrite (not_lost _ _ Hd). reflexivity. }
  intros d Hd. unfold dbind at 1. rewrite (not_lost _ _ Hd), orb_false_r. destruct inter; [|reflexivity].
  revert d Hd. apply same_bind; [|apply keeps_inter|intros; apply same_refl].
  unfold inter_modes_decode_ec, inter_modes_decode. apply same_bind; [|apply keeps_tree|intros; apply same_refl].
  intros d Hd. rewrite (not_lost _ _ Hd). reflexivity.
Qed.

(** Whenever the switch is off or the decoder has been told that its input is
    complete, the switch makes no difference. *)
Lemma same_if_macroblocks ec z h pt W H :
  same ec (if_macroblocks_decode_ec ec z h pt W H) (if_macroblocks_decode h pt W H).
Proof.
  unfold if_macroblocks_decode_ec, if_macroblocks_decode. generalize (W * H)%nat as n. generalize (@nil mbinfo) as l.
  intros l n. revert l. induction n as [|n IH]; intros l; cbn [mbs_decode]; [apply same_refl|].
  apply same_bind; [apply same_if_mb|apply keeps_if_mb|]. intros m. apply IH.
Qed.

Lemma keeps_unsigned w : keeps (unsigned_decode w).
Proof. induction w as [|w IH]; cbn [unsigned_decode]; keeps_tac; exact IH. Qed.
Lemma keeps_signed w : keeps (signed_decode w).
Proof. unfold signed_decode. keeps_tac; apply keeps_unsigned. Qed.
Lemma keeps_flagged {A} p (m : dec A) : keeps m -> keeps (flagged_decode p m).
Proof. intros H. unfold flagged_decode. keeps_tac; exact H. Qed.
Lemma keeps_dmap {A B} (f : A -> dec B) l : (forall a, keeps (f a)) -> keeps (dmap f l).
Proof. intros H. induction l as [|a l IH]; cbn [dmap]; keeps_tac; [apply H|exact IH]. Qed.

Lemma keeps_inter_header : keeps inter_frame_header_decode.
Proof.
  unfold inter_frame_header_decode, update_segmentation_decode, segment_feature_data_decode, lf_delta_decode,
    quant_indices_decode, token_prob_update_decode, mv_prob_update_decode.
  repeat match goal with
         | |- keeps (dbind _ _) => apply keeps_bind; [|intros ?]
         | |- keeps (bget _) => apply keeps_get
         | |- keeps (dret _) => apply keeps_ret
         | |- keeps (unsigned_decode _) => apply keeps_unsigned
         | |- keeps (signed_decode _) => apply keeps_signed
         | |- keeps (flagged_decode _ _) => apply keeps_flagged
         | |- keeps (optional_decode _ _) => apply keeps_optional
         | |- keeps (drep _ _) => apply keeps_drep
         | |- keeps (dmap _ _) => apply keeps_dmap; intros ?
         end.
Qed.

(** C52. For every accepted chunk of an inter frame, at any corruption level
    and for any state of the static zero decoder: the macroblock headers read
    with the concealment switch as decoder_state.hh sets it are those read
    without it. The reason is that a decoder of a chunk with concealment on is
    created with complete_chunk = true and therefore never becomes invalid. *)
Theorem C52_concealment_never_active :
  forall (u : uchunk) (z : bdec) (pt : ProbabilityTables) (W H : nat),
    let '(hd, d) := inter_frame_header_decode (first_decoder u) in
    (concealing u = true -> bd_valid d = true) /\
    if_macroblocks_decode_ec (concealing u) z hd (pt_update pt hd) W H d =
    if_macroblocks_decode hd (pt_update pt hd) W H d.
Proof.
  intros u z pt W H.
  assert (concealing u = false \/ alive (snd (inter_frame_header_decode (first_decoder u)))) as A.
  { destruct (concealing u) eqn:E; [right|left; reflexivity]. apply keeps_inter_header. unfold first_decoder, bdec_init.
    unfold concealing in E.
    assert (CORRUPTED_FIRST_PARTITION <=? uc_corruption u = true) as ->.
    { unfold CORRUPTED_FIRST_PARTITION, CORRUPTED_RESIDUES in *. lia. }
    apply alive_load. cbn zeta. apply alive_load. split; reflexivity. }
  destruct (inter_frame_header_decode (first_decoder u)) as [hd d]. cbn [snd] in A. split.
  - intros E. destruct A as [A|[_ A]]; [congruence|exact A].
  - apply same_if_macroblocks. exact A.
Qed.

(** With the flag the right way round (complete unless the first partition is
    damaged) the switch does matter: on an empty partition everything is
    concealed, with zero vectors from the last picture. *)
Example C52_would_matter :
  let hd := fst (inter_frame_header_decode (bdec_init false [])) in
  let d := snd (inter_frame_header_decode (bdec_init false [])) in
  map mb_inter (fst (if_macroblocks_decode_ec true (bdec_init true []) hd default_pt 2 1 d)) = [true; true] /\
  map mb_inter (fst (if_macroblocks_decode_ec false (bdec_init true []) hd default_pt 2 1 d)) = [false; false].
Proof. split; vm_compute; reflexivity. Qed.

(** And a chunk with concealment on exists. *)
Example C52_example :
  let u := mkUC false true false true null_chunk null_chunk CORRUPTED_FRAME in
  concealing u = true /\
  map mb_inter (fst (if_macroblocks_decode_ec (concealing u) (bdec_init true [])
     (fst (inter_frame_header_decode (first_decoder u))) default_pt 2 1 (snd (inter_frame_header_decode (first_decoder u)))))
  = [false; false].
Proof. split; vm_compute; reflexivity. Qed.

Print Assumptions C52_concealment_never_active.
