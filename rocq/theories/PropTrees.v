(** Property C04: tree-coded symbols. *)
From Verif Require Import Base BoolCoderModel ParserModel TreeModel BoolEncProofs ParserProofs CodingSpec.

(** Each tree with the symbols that the bitstream format lets it carry, listed
    by hand (VP8 data format, not derived from the tree arrays). *)
Definition trees_and_symbols : list (list Z * list Z) :=
  [ (kf_y_mode_tree, [DC_PRED; V_PRED; H_PRED; TM_PRED; B_PRED]);
    (y_mode_tree, [DC_PRED; V_PRED; H_PRED; TM_PRED; B_PRED]);
    (uv_mode_tree, [DC_PRED; V_PRED; H_PRED; TM_PRED]);
    (b_mode_tree, [B_DC_PRED; B_TM_PRED; B_VE_PRED; B_HE_PRED; B_LD_PRED; B_RD_PRED; B_VR_PRED; B_VL_PRED;
                   B_HD_PRED; B_HU_PRED]);
    (small_mv_tree, [0; 1; 2; 3; 4; 5; 6; 7]);
    (mv_ref_tree, [NEARESTMV; NEARMV; ZEROMV; NEWMV; SPLITMV]);
    (submv_ref_tree, [LEFT4X4; ABOVE4X4; ZERO4X4; NEW4X4]);
    (split_mv_tree, [0; 1; 2; 3]);
    (segment_id_tree, [0; 1; 2; 3]) ].

Lemma all_symbols_ok :
  forallb (fun '(t, syms) => forallb (symbol_ok t) syms) trees_and_symbols = true.
Proof. vm_compute. reflexivity. Qed.

Lemma all_leaves_ok :
  forallb (fun '(t, syms) => match tree_leaves (length t) t 0 with
                             | Some ls => forallb (fun x => existsb (Z.eqb x) syms) ls
                             | None => false
                             end) trees_and_symbols = true.
Proof. vm_compute. reflexivity. Qed.

Lemma tree_symbol_ok tree syms s : In (tree, syms) trees_and_symbols -> In s syms -> symbol_ok tree s = true.
Proof.
  intros HT HS. pose proof all_symbols_ok as H. rewrite forallb_forall in H. specialize (H _ HT). cbn beta iota in H.
  rewrite forallb_forall in H. apply H. exact HS.
Qed.

(** C04. *)
Theorem C04_tree_symbols_round_trip :
  forall tree symbols s probs,
    In (tree, symbols) trees_and_symbols -> In s symbols ->
    Forall (fun p => 0 <= p <= 255) probs ->
    exists evs, tree_encode tree probs s = Some evs /\ reads_back (tree_decode tree probs) evs s.
Proof.
  intros tree syms s probs HT HS HP.
  destruct (tree_round_trip tree probs s (tree_symbol_ok _ _ _ HT HS)) as (evs & E & P).
  exists evs. split; [exact E|]. apply parses_reads_back; [|exact P].
  eapply tree_events_ok; [|exact E]. eapply Forall_impl; [|exact HP]. unfold prob_ok. intros; lia.
Qed.

(** Whatever the decoder state, the tree walk ends at one of those symbols. *)
Theorem C04_tree_decode_total :
  forall tree symbols probs d,
    In (tree, symbols) trees_and_symbols ->
    In (fst (tree_decode tree probs d)) symbols.
Proof.
  intros tree syms probs d HT. pose proof all_leaves_ok as H. rewrite forallb_forall in H.
  specialize (H _ HT). cbn beta iota in H.
  destruct (tree_leaves (length tree) tree 0) as [ls|] eqn:E; [|discriminate].
  pose proof (tree_decode_total tree probs ls d E) as HI.
  rewrite forallb_forall in H. specialize (H _ HI). rewrite existsb_exists in H.
  destruct H as (x & Hx & Ex). apply Z.eqb_eq in Ex. rewrite Ex. exact Hx.
Qed.

(** Two different symbols never share the same bits. *)
Corollary C04_tree_codes_injective :
  forall tree symbols s t probs evs,
    In (tree, symbols) trees_and_symbols -> In s symbols -> In t symbols ->
    Forall (fun p => 0 <= p <= 255) probs ->
    tree_encode tree probs s = Some evs -> tree_encode tree probs t = Some evs -> s = t.
Proof.
  intros tree syms s t probs evs HT HS HS' HP E1 E2.
  destruct (C04_tree_symbols_round_trip _ _ s probs HT HS HP) as (e1 & X1 & R1).
  destruct (C04_tree_symbols_round_trip _ _ t probs HT HS' HP) as (e2 & X2 & R2).
  rewrite E1 in X1. injection X1 as <-. rewrite E2 in X2. injection X2 as <-.
  destruct (proj2 R1 [] [] true ltac:(constructor) ltac:(constructor)) as (b1 & B1 & Y1).
  destruct (proj2 R2 [] [] true ltac:(constructor) ltac:(constructor)) as (b2 & B2 & Y2).
  rewrite B1 in B2. injection B2 as <-. cbn [map bgets app] in Y1, Y2.
  destruct (tree_decode tree probs (bdec_init true b1)) as [y d'].
  destruct Y1 as (_ & <- & _), Y2 as (_ & <- & _). reflexivity.
Qed.

Example C04_example :
  In (b_mode_tree, [B_DC_PRED; B_TM_PRED; B_VE_PRED; B_HE_PRED; B_LD_PRED; B_RD_PRED; B_VR_PRED; B_VL_PRED;
                    B_HD_PRED; B_HU_PRED]) trees_and_symbols /\
  tree_encode b_mode_tree [120; 90; 79; 133; 87; 85; 80; 111; 151] B_HU_PRED =
    Some [(true, 120); (true, 90); (true, 79); (true, 133); (true, 80); (true, 111); (true, 151)].
Proof. split; [vm_compute; tauto|vm_compute; reflexivity]. Qed.

Print Assumptions C04_tree_symbols_round_trip.
Print Assumptions C04_tree_decode_total.
Print Assumptions C04_tree_codes_injective.
