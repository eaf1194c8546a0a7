(** How long written frames can get: the number of bools of each writer, and the
    bytes that the boolean encoder makes of them. *)
From Verif Require Import Base BoolCoderModel ParserModel Tables TreeModel HeaderModel TokenModel MVModel MBModel.
From Verif Require Import ChunkModel ContainerModel FrameModel.
From Verif Require Import BoolEncProofs BoolCoderProofs HeaderProofs MBProofs FrameProofs PropContainer PropFrame.

(** ** The boolean encoder *)

Lemma norm_le r : 0 <= vp8_norm r <= 7.
Proof. unfold vp8_norm. repeat match goal with |- context [if ?b then _ else _] => destruct b end; lia. Qed.

Lemma add_one_length l : forall l', add_one l = Some l' -> length l' = length l.
Proof.
  induction l as [|b l IH]; intros l' E; [discriminate|]. cbn [add_one] in E. destruct (b =? 255).
  - destruct l as [|x l]; [discriminate|]. destruct (add_one (x :: l)) as [r|] eqn:ER; [|discriminate]. apply some_inj in E. subst l'. cbn [length]. rewrite (IH r eq_refl). reflexivity.
  - apply some_inj in E. subst l'. reflexivity.
Qed.

Definition bits (e : benc) : Z := 8 * zlen (be_out e) + be_bc e.
Lemma bput_bits e ev e' : bput e ev = Some e' -> -24 <= be_bc e -> bits e' <= bits e + 7 /\ -24 <= be_bc e'.
Proof.
  destruct ev as [v p]. unfold bput. cbv zeta.
  set (rg := if v then _ else wrap 32 (1 + _)). pose proof (norm_le rg) as HN.
  destruct (0 <=? be_bc e + vp8_norm rg) eqn:E0; intros E HB.
  - match type of E with match ?o with _ => _ end = _ => destruct o as [out|] eqn:EO; [|discriminate] end. apply some_inj in E. subst e'. cbn [be_bc]. unfold bits. cbn [be_out be_bc].
    assert (length out = length (be_out e)) as L.
    { destruct (negb _) in EO; [exact (add_one_length _ _ EO)|]. congruence. }
    unfold zlen. cbn [length]. rewrite L. lia.
  - apply some_inj in E. subst e'. unfold bits. cbn [be_out be_bc]. lia.
Qed.
Lemma bputs_bits evs : forall e e', bputs e evs = Some e' -> -24 <= be_bc e -> bits e' <= bits e + 7 * Z.of_nat (length evs) /\ -24 <= be_bc e'.
Proof.
  induction evs as [|ev evs IH]; intros e e' E HB; cbn [bputs length] in *; [apply some_inj in E; subst; lia|].
  destruct (bput e ev) as [e1|] eqn:E1; [|discriminate]. destruct (bput_bits _ _ _ E1 HB) as [A B]. destruct (IH e1 e' E B). lia.
Qed.
Lemma encode_size evs out : bool_encode evs = Some out -> 8 * zlen out <= 7 * Z.of_nat (length evs) + 224.
Proof.
  unfold bool_encode. destruct (bputs benc_init (evs ++ flush_events)) as [e|] eqn:E; [|discriminate]. intros X. apply some_inj in X. subst out.
  destruct (bputs_bits _ _ _ E) as [A B]; [cbn; lia|]. rewrite app_length in A. change (length flush_events) with 32%nat in A. unfold bits in A. cbn [be_out be_bc benc_init] in A.
  unfold zlen in *. rewrite rev_length. cbn [length] in A. lia.
Qed.

(** ** Headers *)

Definition most {A} (n : nat) (l : list A) : Prop := (length l <= n)%nat.
Lemma most_app {A} n m (a b : list A) : most n a -> most m b -> most (n + m) (a ++ b).
Proof. unfold most. rewrite app_length. lia. Qed.
Lemma most_le {A} n m (a : list A) : most n a -> (n <= m)%nat -> most m a.
Proof. unfold most. lia. Qed.
Lemma most_one {A} (a : A) : most 1 [a].
Proof. unfold most. cbn. lia. Qed.
Lemma most_unsigned w n : most w (unsigned_events w n).
Proof. unfold most. induction w as [|w IH]; cbn [unsigned_events length]; lia. Qed.
Lemma most_signed w n : most (w + 1) (signed_events w n).
Proof. apply most_app; [apply most_unsigned|apply most_one]. Qed.
Lemma most_flagged {A} p n (f : A -> list event) o : (forall a, o = Some a -> most n (f a)) -> most (1 + n) (flagged_events p f o).
Proof. intros H. destruct o as [a|]; cbn [flagged_events]; [specialize (H a eq_refl)|]; unfold most in *; cbn [length]; lia. Qed.
Lemma most_optional {A} n (f : A -> list event) o : (forall a, o = Some a -> most n (f a)) -> most n (optional_events f o).
Proof. intros H. destruct o as [a|]; cbn [optional_events]; [exact (H a eq_refl)|]. unfold most. cbn. lia. Qed.
Lemma most_concat {A B} n (f : A -> list B) l : (forall a, most n (f a)) -> most (length l * n) (concat (map f l)).
Proof. intros H. induction l as [|a l IH]; [unfold most; cbn; lia|]. cbn [map concat length]. apply most_app; [apply H|exact IH]. Qed.
Lemma most_array {A} n k (f : A -> list event) l : (forall a, most n (f a)) -> length l = k -> most (k * n) (array_events f l).
Proof. intros H <-. apply most_concat, H. Qed.
Lemma most_table n k (t : list Z) (l : list (option Z)) : length l = k -> most (k * (1 + n)) (concat (map (fun '(p, o) => flagged_events p (unsigned_events n) o) (combine t l))).
Proof.
  intros <-. eapply most_le; [apply (most_concat (1 + n)); intros [p o]; apply most_flagged; intros a _; apply most_unsigned|]. rewrite combine_length. apply Nat.mul_le_mono_r. lia.
Qed.

Ltac most_step := first [apply most_one | apply most_unsigned | apply most_signed | (apply most_app) | (apply most_flagged; intros ? _) | (apply most_optional; intros ? _)].

Lemma most_quant h : most 37 (quant_indices_events h).
Proof. unfold quant_indices_events. eapply most_le; [repeat most_step|lia]. Qed.
Lemma most_lfd h : lfd_ok h -> most 64 (lf_delta_events h).
Proof.
  intros H. unfold lf_delta_events. apply (most_app 32 32); (apply (most_array 8 4); [intros o; apply (most_flagged _ 7); intros ? _; apply (most_signed 6)|]); apply H.
Qed.
Lemma most_sfd h : sfd_ok h -> most 69 (segment_feature_data_events h).
Proof.
  intros H. unfold segment_feature_data_events. apply (most_app 1 68); [apply most_one|].
  apply (most_app 36 32); [apply (most_array 9 4); [intros o; apply (most_flagged _ 8); intros ? _; apply (most_signed 7)|apply H]|apply (most_array 8 4); [intros o; apply (most_flagged _ 7); intros ? _; apply (most_signed 6)|apply H]].
Qed.
Lemma most_us h : us_ok h -> most 98 (update_segmentation_events h).
Proof.
  intros H. unfold update_segmentation_events. apply (most_app 1 97); [apply most_one|]. apply (most_app 70 27).
  - apply (most_flagged _ 69). intros a E. apply most_sfd. exact (us_sfd h H a E).
  - apply most_optional. intros a E. apply (most_array 9 3); [intros o; apply (most_flagged _ 8); intros ? _; apply most_unsigned|]. exact (proj1 (us_map h H a E)).
Qed.

(** 9754 bools for the header of a key frame, 10193 for that of an inter frame. *)
Lemma most_key_header h : kfh_ok h -> most (Z.to_nat 9800) (key_frame_header_events h).
Proof.
  intros H. unfold key_frame_header_events.
  eapply most_le; [|shelve].
  repeat (eapply most_app; [first [apply most_one | apply most_unsigned | apply most_quant
    | (apply (most_flagged _ 98); intros a E; apply most_us; exact (kfo_seg h H a E))
    | (apply (most_flagged _ (1 + 64)); intros a E; apply (most_flagged _ 64); intros b E'; apply most_lfd; exact (kfo_lf h H a E b E'))
    | (apply most_table; exact (kfo_tl h H))]|]).
  apply (most_flagged _ 8). intros a _. apply most_unsigned.
  Unshelve. apply Nat.leb_le. vm_compute. reflexivity.
Qed.
Lemma most_inter_header h : ifh_ok h -> most (Z.to_nat 10300) (inter_frame_header_events h).
Proof.
  intros H. unfold inter_frame_header_events.
  eapply most_le; [|shelve].
  repeat (eapply most_app; [first [apply most_one | apply most_unsigned | apply most_quant
    | (apply (most_flagged _ 98); intros a E; apply most_us; exact (ifo_seg h H a E))
    | (apply (most_flagged _ (1 + 64)); intros a E; apply (most_flagged _ 64); intros b E'; apply most_lfd; exact (ifo_lf h H a E b E'))
    | (apply (most_optional 2); intros a _; apply most_unsigned)
    | (apply most_table; exact (ifo_tl h H))
    | (apply (most_flagged _ 8); intros a _; apply most_unsigned)
    | (apply (most_flagged _ (4 * 8)); intros a E; apply (most_array 8 4); [intros x; apply most_unsigned|exact (proj1 (ifo_y h H a E))])
    | (apply (most_flagged _ (3 * 8)); intros a E; apply (most_array 8 3); [intros x; apply most_unsigned|exact (proj1 (ifo_uv h H a E))])]|]).
  apply most_table. exact (ifo_ml h H).
  Unshelve. apply Nat.leb_le. vm_compute. reflexivity.
Qed.

(** ** Macroblock headers *)

Definition omost {A} (n : nat) (o : option (list A)) : Prop := forall l, o = Some l -> most n l.
Lemma omost_some {A} n (l : list A) : most n l -> omost n (Some l).
Proof. intros H l' E. apply some_inj in E. subst. exact H. Qed.
Lemma omost_none {A} n : omost n (@None (list A)).
Proof. intros l E. discriminate. Qed.
Lemma omost_nil {A} n : omost n (Some (@nil A)).
Proof. apply omost_some. unfold most. cbn. lia. Qed.
Lemma omost_le {A} n m (o : option (list A)) : omost n o -> (n <= m)%nat -> omost m o.
Proof. intros H L l E. exact (most_le _ _ _ (H l E) L). Qed.
Lemma omost_app {A} n m (a b : option (list A)) : omost n a -> omost m b -> omost (n + m) (oapp a b).
Proof. intros HA HB. destruct a as [a|]; [|apply omost_none]. destruct b as [b|]; [|apply omost_none]. apply omost_some, most_app; [exact (HA _ eq_refl)|exact (HB _ eq_refl)]. Qed.
Lemma omost_concat {A B} n (f : A -> option (list B)) l : (forall a, In a l -> omost n (f a)) -> omost (length l * n) (oconcat (map f l)).
Proof.
  induction l as [|a l IH]; intros H; [apply omost_nil|]. cbn [map oconcat fold_right length]. apply (omost_app n (length l * n)); [apply H; left; reflexivity|]. apply IH. intros x Hx. apply H. right. exact Hx.
Qed.
Lemma omost_if {A} (c : bool) n (a b : option (list A)) : (c = true -> omost n a) -> (c = false -> omost n b) -> omost n (if c then a else b).
Proof. destruct c; auto. Qed.

(** The deepest leaf. *)
Definition within (k : nat) (nodes : list Z) : bool :=
  forallb (fun i => match tree_up (length nodes) nodes (Z.of_nat i) with Some l => (length l <=? k)%nat | None => true end) (seq 0 (length nodes)).
Lemma index_bound nodes v : forall i j, value_to_index_from nodes i v = Some j -> i <= j < i + zlen nodes.
Proof.
  unfold zlen. induction nodes as [|n nodes IH]; intros i j E; [discriminate|]. cbn [value_to_index_from length] in *.
  destruct (value_to_index_from nodes (i + 1) v) as [j'|] eqn:E1; [apply some_inj in E; subst j'; pose proof (IH _ _ E1); lia|].
  destruct (n =? v); [|discriminate]. apply some_inj in E. lia.
Qed.
Lemma most_tree k nodes probs v : within k nodes = true -> omost k (tree_encode nodes probs v).
Proof.
  intros H l. unfold tree_encode, tree_path. destruct (value_to_index nodes (- v)) as [i|] eqn:EI; [|discriminate]. apply index_bound in EI. unfold zlen in EI.
  unfold within in H. rewrite forallb_forall in H. specialize (H (Z.to_nat i)). rewrite Z2Nat.id in H by lia.
  destruct (tree_up (length nodes) nodes i) as [p|]; [|discriminate]. cbn [option_map]. intros E. apply some_inj in E. subst l. unfold most. rewrite map_length, rev_length.
  apply Nat.leb_le, H, in_seq. lia.
Qed.
Ltac tree := apply most_tree; reflexivity.

Lemma most_segment u s : omost 2 (segment_events u s).
Proof. destruct s; cbn [segment_events]; [tree|apply omost_nil]. Qed.
Lemma most_skip p s : omost 1 (skip_events p s).
Proof. unfold skip_events. destruct s; [destruct p; [apply omost_some, most_one|apply omost_none]|apply omost_nil]. Qed.
Lemma most_kf_bmodes a l bm : omost 112 (kf_bmodes_events a l bm).
Proof. unfold kf_bmodes_events. apply (omost_concat 7 _ (seq 0 16)). intros k _. tree. Qed.
Lemma most_kf_mb h W l i m : omost 121 (kf_mb_events h W l i m).
Proof.
  unfold kf_mb_events. apply (omost_app 2 119); [apply most_segment|]. apply (omost_app 1 118); [apply most_skip|]. apply (omost_app 3 115); [tree|].
  apply (omost_app 112 3); [|tree]. apply omost_if; intros _; [apply most_kf_bmodes|apply omost_nil].
Qed.
Lemma most_component probs n : omost 12 (write_component probs n).
Proof.
  unfold write_component. cbv zeta. set (sign := if Z.abs (Z.shiftr n 1) =? 0 then [] else _). assert (HS : most 1 sign) by (unfold sign; destruct (_ =? 0); unfold most; cbn; lia). clearbody sign.
  destruct (Z.abs (Z.shiftr n 1) <? 8).
  - pose proof (most_tree 3 small_mv_tree (firstn 7 (skipn SHORT probs)) (Z.abs (Z.shiftr n 1)) eq_refl) as HT. destruct (tree_encode _ _ _) as [e|]; [|apply omost_none].
    apply omost_some. eapply most_le; [apply (most_app 1 4); [apply most_one|apply (most_app 3 1); [exact (HT _ eq_refl)|exact HS]]|lia].
  - apply omost_some. apply (most_app 1 11); [apply most_one|]. apply (most_app 9 2); [unfold most; rewrite map_length; cbn; lia|]. apply (most_app 1 1); [|exact HS]. destruct (_ =? 0); unfold most; cbn; lia.
Qed.
Lemma most_mv probs v : omost 24 (write_mv probs v).
Proof.
  unfold write_mv. pose proof (most_component (firstn 19 probs) (snd v)) as A. pose proof (most_component (skipn 19 probs) (fst v)) as B.
  destruct (write_component (firstn 19 probs) (snd v)); [|apply omost_none]. destruct (write_component (skipn 19 probs) (fst v)); [|apply omost_none].
  apply omost_some, (most_app 12 12); [exact (A _ eq_refl)|exact (B _ eq_refl)].
Qed.
Lemma most_sub_mv probs best a l cur k : omost 27 (sub_mv_events probs best a l cur k).
Proof. unfold sub_mv_events. cbv zeta. destruct (nth k cur (0, mv_zero)) as [m v]. apply (omost_app 3 24); [tree|]. apply omost_if; intros _; [apply most_mv|apply omost_nil]. Qed.
Lemma most_split probs best a l cur sp p : omost 433 (oapp (tree_encode split_mv_tree sp p) (split_events probs best a l (mv_partition p) cur)).
Proof.
  assert (HS : omost (length (mv_partition p) * 27) (split_events probs best a l (mv_partition p) cur)) by (apply omost_concat; intros k _; apply most_sub_mv).
  destruct (Z.eq_dec p 3) as [->|NE].
  - apply (omost_app 1 432); [|exact HS]. intros e E. vm_compute in E. apply some_inj in E. subst e. unfold most. cbn. lia.
  - eapply omost_le; [apply omost_app; [apply (most_tree 3); reflexivity|exact HS]|].
    assert (length (mv_partition p) <= 4)%nat; [|lia]. unfold mv_partition. destruct (Z.to_nat p) as [|[|[|[|n]]]] eqn:E; cbn; try lia. destruct n; cbn; lia.
Qed.
Lemma most_mb_header h m : most 3 (mb_header_events h m).
Proof. unfold mb_header_events. apply (most_app 1 2); [apply most_one|]. apply (most_app 1 1); apply most_optional; intros; apply most_one. Qed.
Lemma most_intra pt m : length (mb_bmodes m) = 16%nat -> omost 118 (intra_modes_events pt m).
Proof.
  intros L. unfold intra_modes_events. apply (omost_app 3 115); [tree|]. apply (omost_app 112 3); [|tree].
  apply omost_if; intros _; [|apply omost_nil]. change 112%nat with (16 * 7)%nat. rewrite <- L. apply omost_concat. intros b _. tree.
Qed.

Lemma most_inter pt W H l i m : omost 437 (inter_modes_events pt W H l i m).
Proof.
  unfold inter_modes_events. cbv zeta. apply (omost_app 4 433); [tree|].
  apply omost_if; intros _; [eapply omost_le; [apply most_mv|lia]|]. apply omost_if; intros _; [|apply omost_nil].
  destruct (mb_partition m) as [p|]; [apply most_split|apply omost_none].
Qed.
Lemma most_inter_whole pt W H l i m : mb_ymode m <> SPLITMV -> omost 28 (inter_modes_events pt W H l i m).
Proof.
  intros NS. unfold inter_modes_events. cbv zeta. apply (omost_app 4 24); [tree|].
  apply omost_if; intros _; [apply most_mv|]. apply omost_if; intros E; [apply Z.eqb_eq in E; contradiction|apply omost_nil].
Qed.
(** Per macroblock: 443 bools in general, 124 if it is not split. *)
Lemma most_if_mb h pt W H l i m : (mb_inter m = false -> length (mb_bmodes m) = 16%nat) -> omost 443 (if_mb_events h pt W H l i m).
Proof.
  intros L. unfold if_mb_events. apply (omost_app 2 441); [apply most_segment|]. apply (omost_app 1 440); [apply most_skip|]. apply (omost_app 3 437); [apply omost_some, most_mb_header|].
  destruct (mb_inter m); [apply most_inter|]. eapply omost_le; [apply most_intra, L; reflexivity|lia].
Qed.
Lemma most_if_mb_whole h pt W H l i m : (mb_inter m = false -> length (mb_bmodes m) = 16%nat) -> mb_ymode m <> SPLITMV -> omost 124 (if_mb_events h pt W H l i m).
Proof.
  intros L NS. unfold if_mb_events. apply (omost_app 2 122); [apply most_segment|]. apply (omost_app 1 121); [apply most_skip|]. apply (omost_app 3 118); [apply omost_some, most_mb_header|].
  destruct (mb_inter m); [eapply omost_le; [apply most_inter_whole, NS|lia]|apply most_intra, L; reflexivity].
Qed.
Lemma in_indexed {A} (l : list A) : forall s i m, In (i, m) (combine (seq s (length l)) l) -> (s <= i)%nat /\ nth_error l (i - s) = Some m.
Proof.
  induction l as [|a l IH]; intros s i m HI; [destruct HI|]. cbn [length seq combine] in HI. destruct HI as [E|HI].
  - injection E as <- <-. rewrite Nat.sub_diag. split; [lia|reflexivity].
  - apply IH in HI. destruct HI as [L E]. split; [lia|]. replace (i - s)%nat with (S (i - S s)) by lia. exact E.
Qed.
Lemma most_mbs n f l : (forall i m, nth_error l i = Some m -> omost n (f l i m)) -> omost (length l * n) (mbs_events f l).
Proof.
  intros H. unfold mbs_events.
  assert (E : length (combine (seq 0 (length l)) l) = length l) by (rewrite combine_length, seq_length; lia). rewrite <- E at 1. apply omost_concat.
  intros [i m] HI. apply H. apply in_indexed in HI. destruct HI as [_ HI]. rewrite Nat.sub_0_r in HI. exact HI.
Qed.

(** ** Coefficients *)

Lemma td_bits_length probs i : length (td_bit_events probs i) = length probs.
Proof. induction probs as [|p r IH]; [reflexivity|]. cbn [td_bit_events length]. rewrite IH. reflexivity. Qed.
Lemma value_most prob c evs ctx : value_events prob c = Some (evs, ctx) -> most 17 evs.
Proof.
  unfold value_events. cbv zeta. intros E.
  repeat match type of E with context [if ?b then _ else _] => destruct b end; cbn [option_map] in E; try discriminate; apply some_inj in E;
  apply (f_equal fst) in E; cbn [fst] in E; subst evs; unfold most; cbn [length app]; rewrite ?app_length; cbn [length app]; unfold td_events; rewrite ?td_bits_length; cbn; lia.
Qed.

(** At most 19 bools per coefficient, and one at the end. *)
Lemma ser_loop_most prob coefs n : forall index ctx lwz evs ctx' lwz', ser_loop prob coefs n index ctx lwz = Some (evs, ctx', lwz') -> most (19 * n) evs.
Proof.
  induction n as [|n IH]; intros index ctx lwz evs ctx' lwz' E; cbn [ser_loop] in E; [apply some_inj in E; injection E as <- _ _; unfold most; cbn; lia|]. cbv zeta in E.
  set (e0 := if lwz then [] else _) in E. assert (H0 : most 1 e0) by (unfold e0, most; destruct lwz; cbn; lia). clearbody e0.
  destruct (nth (zz index) coefs 0 =? 0).
  - destruct (ser_loop prob coefs n (S index) 0 true) as [[[ev c'] l']|] eqn:ER; [|discriminate]. apply some_inj in E. injection E as <- _ _.
    apply IH in ER. unfold most in *. rewrite app_length. cbn [length app]. unfold event in *. lia.
  - destruct (value_events _ _) as [[ve c1]|] eqn:EV; [|discriminate]. destruct (ser_loop prob coefs n (S index) c1 false) as [[[ev c'] l']|] eqn:ER; [|discriminate]. apply some_inj in E. injection E as <- _ _.
    apply IH in ER. apply value_most in EV. unfold most, event in *. rewrite !app_length. cbn [length app]. rewrite app_length. lia.
Qed.
Lemma coded_length_from_le n : forall i coefs acc, (acc <= i)%nat -> (coded_length_from n i coefs acc <= i + n)%nat.
Proof. induction n as [|n IH]; intros i coefs acc H; cbn [coded_length_from]; [lia|]. specialize (IH (S i) coefs (if nth (zz i) coefs 0 =? 0 then acc else S i)). destruct (_ =? 0); lia. Qed.
Lemma block_most prob type ctx0 coefs : omost 305 (serialize_tokens prob type ctx0 coefs).
Proof.
  intros l. unfold serialize_tokens. cbv zeta. destruct (ser_loop _ _ _ _ _ _) as [[[evs ctx] lwz]|] eqn:E; [|discriminate]. apply ser_loop_most in E.
  assert (coded_length type coefs <= 16)%nat as L.
  { unfold coded_length. pose proof (coded_length_from_le (16 - first_index type) (first_index type) coefs 0 ltac:(lia)). unfold first_index in *. destruct (type =? Y_after_Y2); lia. }
  unfold most in *. destruct lwz; [discriminate|]. destruct (_ <? 16)%nat; intros X; apply some_inj in X; subst l; rewrite ?app_length; cbn [length]; lia.
Qed.
Lemma plane_most tbl type w a l n bl : length bl = n -> omost (n * 305) (plane_events tbl type w a l bl).
Proof.
  intros <-. unfold plane_events. assert (E : length (combine (seq 0 (length bl)) bl) = length bl) by (rewrite combine_length, seq_length; lia). rewrite <- E at 1.
  apply omost_concat. intros [k b] _. apply block_most.
Qed.
Lemma mb_tokens_most tbl W ms cs i m c : coef_ok m c -> omost (Z.to_nat 7625) (mb_tokens_events tbl W ms cs i m c).
Proof.
  intros HC. unfold mb_tokens_events. cbv zeta. unfold coef_ok in HC. destruct (skipped m); [apply omost_nil|]. destruct HC as (_ & LY & _ & LU & _ & LV & _).
  eapply omost_le; [apply (omost_app 305); [apply omost_if; intros _; [apply block_most|apply omost_nil]|]|].
  apply omost_app; [apply (plane_most _ _ _ _ _ 16), LY|]. apply omost_app; [apply (plane_most _ _ _ _ _ 4), LU|apply (plane_most _ _ _ _ _ 4), LV].
  apply Nat.leb_le. vm_compute. reflexivity.
Qed.

Lemma parts_most K tbl W ms cs : forall todo i parts parts' n, Forall (fun mc => coef_ok (fst mc) (snd mc)) todo -> K = Z.to_nat 7625 ->
  Forall (most (n * K)) parts -> tokens_events tbl W ms cs i todo parts = Some parts' -> Forall (most ((n + length todo) * K)) parts' /\ length parts' = length parts.
Proof.
  induction todo as [|[m c] todo IH]; intros i parts parts' n HC HK HP E; cbn [tokens_events length] in E |- *.
  - apply some_inj in E. subst parts'. rewrite Nat.add_0_r. auto.
  - inversion HC as [|? ? C1 C2]; subst. cbn [fst snd] in C1. destruct (mb_tokens_events tbl W ms cs i m c) as [evs|] eqn:ET; [|discriminate].
    pose proof (mb_tokens_most _ _ _ _ _ _ _ C1 _ ET) as HE. cbv zeta in E. apply (IH _ _ _ (S n)) in E; [|assumption|reflexivity|].
    + rewrite set_nth_length in E. rewrite Nat.add_succ_r. exact E.
    + assert (HN : most (n * Z.to_nat 7625) (nth ((i / W) mod length parts) parts [])).
      { destruct (nth_in_or_default ((i / W) mod length parts) parts []) as [HI| ->]; [exact (proj1 (Forall_forall _ _) HP _ HI)|unfold most; cbn; lia]. }
      assert (G : Forall (most (S n * Z.to_nat 7625)) parts) by (eapply Forall_impl; [|exact HP]; intros a Ha; eapply most_le; [exact Ha|lia]).
      assert (V : most (S n * Z.to_nat 7625) (nth ((i / W) mod length parts) parts [] ++ evs)) by (cbn [Nat.mul]; rewrite Nat.add_comm; apply most_app; assumption).
      clear - G V. generalize ((i / W) mod length parts)%nat at 1. revert V. generalize (nth ((i / W) mod length parts) parts [] ++ evs). intros v V k. revert k.
      induction G as [|a l A G IH]; intros [|k]; cbn [set_nth]; constructor; auto.
Qed.

(** 6672 bytes per macroblock and 28 bytes. *)
Lemma tokens_size tbl W n ms cs parts : coefs_ok ms cs -> serialize_frame_tokens tbl W n ms cs = Some parts ->
  length parts = n /\ Forall (fun p => 8 * zlen p <= 53375 * Z.of_nat (length ms) + 224) parts.
Proof.
  intros [LC FC]. unfold serialize_frame_tokens. destruct (tokens_events tbl W ms cs 0 (combine ms cs) (repeat [] n)) as [evs|] eqn:ET; [|discriminate].
  destruct (parts_most (Z.to_nat 7625) tbl W ms cs (combine ms cs) 0 (repeat [] n) evs 0) as [PM PL]; [|reflexivity| |exact ET|].
  - apply Forall_forall. intros [m c] HI. apply In_nth_error in HI. destruct HI as (k & HK).
    assert (nth_error ms k = Some m /\ nth_error cs k = Some c) as [A B]; [|exact (FC k m c A B)].
    clear - HK. revert cs k HK. induction ms as [|a ms IH]; intros [|b cs] [|k] HK; cbn in *; try discriminate; [injection HK as <- <-; auto|apply IH; exact HK].
  - apply Forall_forall. intros x Hx. apply repeat_spec in Hx. subst x. unfold most. cbn. lia.
  - rewrite combine_length, LC, Nat.min_id in PM. rewrite repeat_length in PL. intros E. rewrite <- PL. clear - PM E. cbn [Nat.add] in PM. revert parts E. induction PM as [|l evs HL PM IH]; intros parts E; cbn [omap] in E.
    + apply some_inj in E. subst parts. split; [reflexivity|constructor].
    + destruct (bool_encode l) as [b|] eqn:EB; [|discriminate]. destruct (omap bool_encode evs) as [bs|]; [|discriminate]. apply some_inj in E. subst parts.
      destruct (IH bs eq_refl) as [I1 I2]. split; [cbn; rewrite I1; reflexivity|]. constructor; [|exact I2]. apply encode_size in EB. unfold most, event in *. lia.
Qed.

(** ** Whole frames *)

Definition macroblocks (w h : Z) : Z := Z.of_nat (mb_dim w * mb_dim h).
Lemma macroblocks_bound w h : 0 < w <= 16383 -> 0 <= h <= 16383 -> 0 <= macroblocks w h <= 1048576.
Proof.
  intros. unfold macroblocks, mb_dim. rewrite Nat2Z.inj_mul, !Z2Nat.id by lia. assert (0 <= (w + 15) / 16 <= 1024) by lia. assert (0 <= (h + 15) / 16 <= 1024) by lia. nia.
Qed.

Lemma frame_below key show w h first parts bytes M : make_frame key show false false w h first parts = Some bytes -> 0 <= M <= 1048576 -> (length parts <= 8)%nat ->
  zlen first < 2 ^ 40 -> Forall (fun p => 8 * zlen p <= 53375 * M + 224) parts -> zlen bytes < 2 ^ 64.
Proof.
  intros E HM LP LF FP. unfold make_frame in E. destruct ((16383 <? w) || (16383 <? h)); [discriminate|]. destruct parts as [|q parts]; [discriminate|]. cbv iota in E. apply some_inj in E.
  set (qs := q :: parts) in *.
  assert (LB : forall l, (length (length_bytes l) <= 3 * length l)%nat).
  { intros l. induction l as [|a l IH]; [cbn; lia|]. cbn [length_bytes]. destruct l as [|b l]; [cbn; lia|]. cbv zeta. rewrite app_length. cbn [length] in *. lia. }
  assert (LC : zlen (concat qs) <= Z.of_nat (length qs) * 55967744000).
  { clear - FP HM. induction FP as [|p l A FP IH]; [cbn; lia|]. cbn [concat length]. unfold zlen in *. rewrite app_length. lia. }
  apply (f_equal (@zlen Z)) in E. rewrite <- E. unfold zlen in *. rewrite !app_length. specialize (LB qs). change (2 ^ 64) with 18446744073709551616. change (2 ^ 40) with 1099511627776 in LF.
  destruct key; cbn [length] in *; lia.
Qed.
Lemma frame_size key show w h first parts bytes M : make_frame key show false false w h first parts = Some bytes -> 0 <= M <= 1048576 -> (length parts <= 8)%nat ->
  zlen first < 2 ^ 19 -> Forall (fun p => 8 * zlen p <= 53375 * M + 224) parts -> (length parts = 1%nat \/ M <= 2514) -> sizes_fit first parts bytes.
Proof.
  intros E HM LP LF FP ONE. split; [exact LF|]. split.
  - destruct ONE as [ONE|ONE].
    + destruct parts as [|p [|q r]]; try discriminate. constructor.
    + apply Forall_forall. intros p Hp. assert (In p parts) as HI by (clear - Hp; induction parts as [|a l IH]; [destruct Hp|]; cbn in Hp; destruct l; [destruct Hp|]; destruct Hp; [left; assumption|right; auto]).
      pose proof (proj1 (Forall_forall _ _) FP p HI) as X. cbv beta in X. change (2 ^ 24) with 16777216. lia.
  - apply (frame_below key show w h first parts bytes M E HM LP); [|exact FP]. change (2 ^ 40) with 1099511627776. change (2 ^ 19) with 524288 in LF. lia.
Qed.

Lemma count_bound n : u_ok 2 n -> (partition_count n <= 8)%nat.
Proof. intros [A B]. change (2 ^ 2) with 4 in B. assert (n = 0 \/ n = 1 \/ n = 2 \/ n = 3) as [->|[->|[->| ->]]] by lia; vm_compute; lia. Qed.

(** [n]: bools per macroblock. *)
Lemma first_size n hd evs (ms : list mbinfo) M first L : (length hd <= Z.to_nat 10300)%nat -> omost (length ms * n) evs -> Z.of_nat (length ms) = M -> 7 * (10300 + Z.of_nat n * M) + 224 < 8 * L ->
  match evs with Some evs => bool_encode (hd ++ evs) | None => None end = Some first -> zlen first < L.
Proof.
  intros HH HE HM HB E. destruct evs as [evs|]; [|discriminate]. specialize (HE _ eq_refl). apply encode_size in E. unfold most, event in *. rewrite app_length in E. nia.
Qed.

Lemma key_fits tbl show w h hd ms cs first parts bytes : 0 < w <= 16383 -> 0 <= h <= 16383 -> kfh_ok hd -> length ms = (mb_dim w * mb_dim h)%nat -> coefs_ok ms cs ->
  kf_first_partition hd (mb_dim w) ms = Some first -> serialize_frame_tokens tbl (mb_dim w) (partition_count (kf_log2_partitions hd)) ms cs = Some parts ->
  make_frame true show false false w h first parts = Some bytes -> macroblocks w h <= 2514 \/ kf_log2_partitions hd = 0 /\ macroblocks w h <= 4700 -> sizes_fit first parts bytes.
Proof.
  intros Hw Hh K LM CO EF EP EB HM. destruct (tokens_size _ _ _ _ _ _ CO EP) as [LP FP]. pose proof (macroblocks_bound w h Hw Hh) as MB.
  apply (frame_size true show w h first parts bytes (macroblocks w h) EB MB).
  - rewrite LP. apply count_bound, (kfo_part hd K).
  - apply (first_size 121 (key_frame_header_events hd) (kf_macroblocks_events hd (mb_dim w) ms) ms (macroblocks w h)); [apply most_key_header in K; unfold most in K; lia| |unfold macroblocks; rewrite LM; reflexivity|change (2 ^ 19) with 524288; lia|exact EF].
    apply most_mbs. intros i m _. apply most_kf_mb.
  - unfold macroblocks. rewrite <- LM. exact FP.
  - destruct HM as [HM|[HL HM]]; [right; exact HM|left]. rewrite LP, HL. reflexivity.
Qed.

Lemma inter_fits_container tbl pt show w h hd ms cs first parts bytes : 0 < w <= 16383 -> 0 <= h <= 16383 -> ifh_ok hd -> length ms = (mb_dim w * mb_dim h)%nat -> coefs_ok ms cs ->
  (forall i m, nth_error ms i = Some m -> mb_inter m = false -> length (mb_bmodes m) = 16%nat) ->
  if_first_partition hd pt (mb_dim w) (mb_dim h) ms = Some first -> serialize_frame_tokens tbl (mb_dim w) (partition_count (if_log2_partitions hd)) ms cs = Some parts ->
  make_frame false show false false w h first parts = Some bytes ->
  macroblocks w h <= 1320 \/ if_log2_partitions hd = 0 /\ macroblocks w h <= 4700 /\ Forall (fun m => mb_ymode m <> SPLITMV) ms -> sizes_fit first parts bytes.
Proof.
  intros Hw Hh K LM CO LB EF EP EB HM. destruct (tokens_size _ _ _ _ _ _ CO EP) as [LP FP]. pose proof (macroblocks_bound w h Hw Hh) as MB.
  apply (frame_size false show w h first parts bytes (macroblocks w h) EB MB).
  - rewrite LP. apply count_bound, (ifo_part hd K).
  - apply most_inter_header in K. unfold most in K. destruct HM as [HM|(_ & HM & NS)].
    + apply (first_size 443 (inter_frame_header_events hd) (if_macroblocks_events hd pt (mb_dim w) (mb_dim h) ms) ms (macroblocks w h)); [lia| |unfold macroblocks; rewrite LM; reflexivity|change (2 ^ 19) with 524288; lia|exact EF].
      apply most_mbs. intros i m E. apply most_if_mb. exact (LB i m E).
    + apply (first_size 124 (inter_frame_header_events hd) (if_macroblocks_events hd pt (mb_dim w) (mb_dim h) ms) ms (macroblocks w h)); [lia| |unfold macroblocks; rewrite LM; reflexivity|change (2 ^ 19) with 524288; lia|exact EF].
      apply most_mbs. intros i m E. apply most_if_mb_whole; [exact (LB i m E)|]. exact (proj1 (Forall_forall _ _) NS m (nth_error_In _ _ E)).
  - unfold macroblocks. rewrite <- LM. exact FP.
  - destruct HM as [HM|(HL & _)]; [right; lia|left]. rewrite LP, HL. reflexivity.
Qed.

Lemma intra_sixteen hd W H ms : (forall i m, nth_error ms i = Some m -> if_mb_ok hd W H ms i m) -> forall i m, nth_error ms i = Some m -> mb_inter m = false -> length (mb_bmodes m) = 16%nat.
Proof. intros F i m E I. destruct (F i m E) as (_ & _ & _ & A). rewrite I in A. destruct A as (_ & _ & A). apply A. Qed.

(** No frame is longer than a [size_t] can count. *)
Lemma key_below tbl show w h hd ms cs first parts bytes : 0 < w <= 16383 -> 0 <= h <= 16383 -> kfh_ok hd -> length ms = (mb_dim w * mb_dim h)%nat -> coefs_ok ms cs ->
  kf_first_partition hd (mb_dim w) ms = Some first -> serialize_frame_tokens tbl (mb_dim w) (partition_count (kf_log2_partitions hd)) ms cs = Some parts ->
  make_frame true show false false w h first parts = Some bytes -> zlen bytes < 2 ^ 64.
Proof.
  intros Hw Hh K LM CO EF EP EB. destruct (tokens_size _ _ _ _ _ _ CO EP) as [LP FP]. pose proof (macroblocks_bound w h Hw Hh) as MB.
  apply (frame_below true show w h first parts bytes (macroblocks w h) EB MB).
  - rewrite LP. apply count_bound, (kfo_part hd K).
  - apply (first_size 121 (key_frame_header_events hd) (kf_macroblocks_events hd (mb_dim w) ms) ms (macroblocks w h)); [apply most_key_header in K; unfold most in K; lia| |unfold macroblocks; rewrite LM; reflexivity|change (2 ^ 40) with 1099511627776; lia|exact EF].
    apply most_mbs. intros i m _. apply most_kf_mb.
  - unfold macroblocks. rewrite <- LM. exact FP.
Qed.
Lemma inter_below tbl pt show w h hd ms cs first parts bytes : 0 < w <= 16383 -> 0 <= h <= 16383 -> ifh_ok hd -> length ms = (mb_dim w * mb_dim h)%nat -> coefs_ok ms cs ->
  (forall i m, nth_error ms i = Some m -> mb_inter m = false -> length (mb_bmodes m) = 16%nat) ->
  if_first_partition hd pt (mb_dim w) (mb_dim h) ms = Some first -> serialize_frame_tokens tbl (mb_dim w) (partition_count (if_log2_partitions hd)) ms cs = Some parts ->
  make_frame false show false false w h first parts = Some bytes -> zlen bytes < 2 ^ 64.
Proof.
  intros Hw Hh K LM CO LB EF EP EB. destruct (tokens_size _ _ _ _ _ _ CO EP) as [LP FP]. pose proof (macroblocks_bound w h Hw Hh) as MB.
  apply (frame_below false show w h first parts bytes (macroblocks w h) EB MB).
  - rewrite LP. apply count_bound, (ifo_part hd K).
  - apply most_inter_header in K. unfold most in K.
    apply (first_size 443 (inter_frame_header_events hd) (if_macroblocks_events hd pt (mb_dim w) (mb_dim h) ms) ms (macroblocks w h)); [lia| |unfold macroblocks; rewrite LM; reflexivity|change (2 ^ 40) with 1099511627776; lia|exact EF].
    apply most_mbs. intros i m E. apply most_if_mb. exact (LB i m E).
  - unfold macroblocks. rewrite <- LM. exact FP.
Qed.

(** A frame shorter than 2^19 bytes meets all limits of the format. *)
Lemma small_frame_fits key show w h first parts bytes :
  make_frame key show false false w h first parts = Some bytes -> zlen bytes < 2 ^ 19 -> sizes_fit first parts bytes.
Proof.
  unfold make_frame. destruct ((16383 <? w) || (16383 <? h)); [discriminate|]. destruct parts as [|q parts]; [discriminate|]. cbv iota. intros E. apply some_inj in E.
  set (qs := q :: parts) in *. apply (f_equal (@length Z)) in E. rewrite !app_length in E.
  assert (Forall (fun p => (length p <= length (concat qs))%nat) qs) as F.
  { clearbody qs. clear. induction qs as [|x l IH]; constructor; cbn [concat]; rewrite app_length; [cbv beta; lia|]. eapply Forall_impl; [|exact IH]. cbv beta. intros. lia. }
  unfold zlen. intros L. split; [unfold zlen; lia|]. split; [|unfold zlen; lia].
  apply Forall_forall. intros p Hp. unfold zlen.
  assert (In p qs) as Hq by (rewrite (app_removelast_last [] (l := qs)) by discriminate; apply in_or_app; left; exact Hp).
  pose proof (proj1 (Forall_forall _ _) F p Hq) as HQ. cbv beta in HQ. lia.
Qed.

(** The condition under which written frames are claimed to be read back: short,
    or of few macroblocks. *)
Definition moderate (w h : Z) (bytes : list Z) : Prop := zlen bytes < 2 ^ 19 \/ macroblocks w h <= 1320.

Lemma key_moderate pt show w h hd ms cs first parts bytes : 0 < w <= 16383 -> 0 <= h <= 16383 -> kfh_ok hd -> length ms = (mb_dim w * mb_dim h)%nat -> coefs_ok ms cs ->
  kf_first_partition hd (mb_dim w) ms = Some first -> serialize_frame_tokens (pt_coeff (coeff_prob_update pt (kf_token_prob_update hd))) (mb_dim w) (partition_count (kf_log2_partitions hd)) ms cs = Some parts ->
  key_frame_serialize pt show w h hd ms cs = Some bytes -> zlen bytes < 2 ^ 64 /\ (moderate w h bytes -> sizes_fit first parts bytes).
Proof.
  intros Hw Hh K LM CO EF EP ES. unfold key_frame_serialize in ES. rewrite EF, EP in ES. split; [exact (key_below _ _ _ _ _ _ _ _ _ _ Hw Hh K LM CO EF EP ES)|]. intros HM. destruct HM as [HM|HM]; [exact (small_frame_fits _ _ _ _ _ _ _ ES HM)|].
  apply (key_fits (pt_coeff (coeff_prob_update pt (kf_token_prob_update hd))) show w h hd ms cs); try assumption. left. lia.
Qed.
Lemma inter_moderate pt show w h hd ms cs first parts bytes : 0 < w <= 16383 -> 0 <= h <= 16383 -> ifh_ok hd -> length ms = (mb_dim w * mb_dim h)%nat -> coefs_ok ms cs ->
  (forall i m, nth_error ms i = Some m -> if_mb_ok hd (mb_dim w) (mb_dim h) ms i m) ->
  if_first_partition hd (pt_update pt hd) (mb_dim w) (mb_dim h) ms = Some first -> serialize_frame_tokens (pt_coeff (pt_update pt hd)) (mb_dim w) (partition_count (if_log2_partitions hd)) ms cs = Some parts ->
  inter_frame_serialize pt show w h hd ms cs = Some bytes -> zlen bytes < 2 ^ 64 /\ (moderate w h bytes -> sizes_fit first parts bytes).
Proof.
  intros Hw Hh K LM CO F EF EP ES. unfold inter_frame_serialize in ES. rewrite EF, EP in ES. split; [exact (inter_below _ _ _ _ _ _ _ _ _ _ _ Hw Hh K LM CO (intra_sixteen _ _ _ _ F) EF EP ES)|]. intros HM. destruct HM as [HM|HM]; [exact (small_frame_fits _ _ _ _ _ _ _ ES HM)|].
  apply (inter_fits_container (pt_coeff (pt_update pt hd)) (pt_update pt hd) show w h hd ms cs); try assumption; [exact (intra_sixteen _ _ _ _ F)|]. left. exact HM.
Qed.
