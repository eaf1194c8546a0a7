(** Proofs about motion vector coding. *)
From Verif Require Import Base BoolCoderModel ParserModel TreeModel MVModel BoolEncProofs ParserProofs TokenProofs CodingSpec PropTrees.

Definition long_sum (x : Z) : Z :=
  fold_left (fun acc i => acc + bitZ (Z.testbit x (Z.of_nat i)) (Z.of_nat i)) long_bits 0.

Lemma parses_read_bits probs x idx : forall acc,
  parses (read_bits probs idx acc)
         (map (fun i => (Z.testbit x (Z.of_nat i), nth (BITS + i) probs 0)) idx)
         (fold_left (fun a i => a + bitZ (Z.testbit x (Z.of_nat i)) (Z.of_nat i)) idx acc).
Proof.
  induction idx as [|i idx IH]; intros acc.
  - apply parses_ret.
  - cbn [read_bits map fold_left]. apply parses_bind_get. apply IH.
Qed.

Lemma long_sum_ok : forall x, 8 <= x < 1024 ->
  Z.land (long_sum x) 65520 = Z.land x 65520 /\
  x = (if Z.land x 65520 =? 0 then long_sum x + 8
       else if Z.testbit x 3 then long_sum x + 8 else long_sum x).
Proof.
  intros x Hx.
  assert (H : forallb (fun n => let x := Z.of_nat n in
     (x <? 8) || ((Z.land (long_sum x) 65520 =? Z.land x 65520) &&
       (x =? (if Z.land x 65520 =? 0 then long_sum x + 8
       else if Z.testbit x 3 then long_sum x + 8 else long_sum x)))) (seq 0 1024) = true) by (vm_compute; reflexivity).
  rewrite forallb_forall in H. specialize (H (Z.to_nat x) ltac:(apply in_seq; lia)). cbv zeta in H.
  rewrite Z2Nat.id in H by lia. lia.
Qed.

Lemma small_symbol x : 0 <= x < 8 -> symbol_ok small_mv_tree x = true.
Proof.
  intros H. apply (tree_symbol_ok small_mv_tree [0; 1; 2; 3; 4; 5; 6; 7]); [vm_compute; tauto|].
  assert (C : x = 0 \/ x = 1 \/ x = 2 \/ x = 3 \/ x = 4 \/ x = 5 \/ x = 6 \/ x = 7) by lia.
  cbn. intuition auto.
Qed.

Lemma nth_prob_ok probs i : Forall prob_ok probs -> prob_ok (nth i probs 0).
Proof.
  intros H. destruct (nth_in_or_default i probs 0) as [HI|E].
  - rewrite Forall_forall in H. auto.
  - rewrite E. unfold prob_ok. lia.
Qed.

Lemma Forall_firstn {A} (P : A -> Prop) n l : Forall P l -> Forall P (firstn n l).
Proof.
  intros H. apply Forall_forall. intros x Hx. rewrite Forall_forall in H. apply H.
  rewrite <- (firstn_skipn n l). apply in_or_app. left. exact Hx.
Qed.
Lemma Forall_skipn {A} (P : A -> Prop) n l : Forall P l -> Forall P (skipn n l).
Proof.
  intros H. apply Forall_forall. intros x Hx. rewrite Forall_forall in H. apply H.
  rewrite <- (firstn_skipn n l). apply in_or_app. right. exact Hx.
Qed.

Lemma write_component_some probs num : exists evs, write_component probs num = Some evs /\
  (Forall prob_ok probs -> Forall event_ok evs).
Proof.
  unfold write_component. set (n := Z.shiftr num 1). set (x := Z.abs n).
  assert (SG : Forall prob_ok probs -> Forall event_ok (if x =? 0 then [] else [(n <? 0, nth SIGN probs 0)])).
  { intros HP. destruct (x =? 0); constructor; [|constructor]. apply nth_prob_ok. exact HP. }
  destruct (x <? 8) eqn:E.
  - destruct (tree_round_trip small_mv_tree (firstn 7 (skipn SHORT probs)) x) as (evs & T & _).
    { apply small_symbol. lia. }
    rewrite T. eexists. split; [reflexivity|]. intros HP. apply Forall_app. split.
    { constructor; [|constructor]. apply nth_prob_ok. exact HP. }
    apply Forall_app. split; [|auto]. eapply tree_events_ok; [|exact T].
    apply Forall_firstn, Forall_skipn. exact HP.
  - eexists. split; [reflexivity|]. intros HP. apply Forall_app. split.
    { constructor; [|constructor]. apply nth_prob_ok. exact HP. }
    apply Forall_app. split.
    { apply Forall_forall. intros ev Hev. apply in_map_iff in Hev. destruct Hev as (i & <- & _).
      apply nth_prob_ok. exact HP. }
    apply Forall_app. split; [|auto].
    destruct (Z.land x 65520 =? 0); constructor; [|constructor]. apply nth_prob_ok. exact HP.
Qed.

Lemma parses_component probs num evs : Z.abs (Z.shiftr num 1) < 1024 ->
  write_component probs num = Some evs ->
  parses (read_component probs) evs (2 * Z.shiftr num 1).
Proof.
  intros HN HW. unfold write_component in HW. set (n := Z.shiftr num 1) in *.
  set (x := Z.abs n) in *. unfold read_component.
  assert (TAIL : parses (let x0 := Z.shiftl x 1 in
     if x0 =? 0 then dret x0 else (do s <- bget (nth SIGN probs 0); dret (if s : bool then - x0 else x0)))
     (if x =? 0 then [] else [(n <? 0, nth SIGN probs 0)]) (2 * n)).
  { cbv zeta. replace (Z.shiftl x 1) with (2 * x) by (rewrite Z.shiftl_mul_pow2 by lia; lia).
    destruct (x =? 0) eqn:E.
    - replace (2 * x =? 0) with true by lia. eapply parses_eq; [apply parses_ret|lia].
    - replace (2 * x =? 0) with false by lia. eapply parses_eq.
      + apply parses_bind_get. apply parses_ret.
      + destruct (n <? 0) eqn:EN; lia. }
  destruct (x <? 8) eqn:E.
  - destruct (tree_round_trip small_mv_tree (firstn 7 (skipn SHORT probs)) x) as (te & T & PT).
    { apply small_symbol. lia. }
    rewrite T in HW. injection HW as <-. cbn [app]. apply parses_bind_get.
    apply (parses_bind _ _ _ _ x); [exact PT|exact TAIL].
  - match type of HW with Some ?e = _ => assert (EE : evs = e) by congruence end. rewrite EE. clear HW EE evs.
    apply (parses_bind (bget _) _ [_] _ true); [apply parses_get|].
    destruct (long_sum_ok x) as [HL HX]; [lia|].
    rewrite app_assoc. apply (parses_bind _ _ _ _ x); [|exact TAIL].
    apply (parses_bind _ _ _ _ (long_sum x)); [apply parses_read_bits|].
    rewrite HL. destruct (Z.land x 65520 =? 0).
    + eapply parses_eq; [apply parses_ret|lia].
    + eapply parses_eq; [apply parses_bind_get, parses_ret|exact (eq_sym HX)].
Qed.

Lemma read_bits_bound probs idx : forall acc d, 0 <= acc ->
  acc <= fst (read_bits probs idx acc d) <= acc + fold_right (fun i a => 2 ^ Z.of_nat i + a) 0 idx.
Proof.
  induction idx as [|i idx IH]; intros acc d HA.
  - cbn. lia.
  - cbn [read_bits fold_right]. unfold dbind. destruct (bget _ d) as [b d1].
    assert (B : 0 <= bitZ b (Z.of_nat i) <= 2 ^ Z.of_nat i).
    { unfold bitZ. pose proof (Z.pow_pos_nonneg 2 (Z.of_nat i)). rewrite Z.shiftl_mul_pow2 by lia. destruct b; lia. }
    specialize (IH (acc + bitZ b (Z.of_nat i)) d1 ltac:(lia)). lia.
Qed.

(** A motion vector (difference) that the bitstream can express. *)
Definition comp_codable (c : Z) : Prop := Z.Even c /\ Z.abs c <= 2046.
Definition mv_codable (m : mv) : Prop := comp_codable (fst m) /\ comp_codable (snd m).

Lemma read_component_range probs d : comp_codable (fst (read_component probs d)).
Proof.
  unfold read_component. unfold dbind at 1. destruct (bget _ d) as [b d1].
  unfold dbind at 1.
  assert (X : forall y d2, 0 <= y <= 1023 ->
    let r := fst ((let x := Z.shiftl y 1 in
      if x =? 0 then dret x else (do s <- bget (nth SIGN probs 0); dret (if s : bool then - x else x))) d2) in
    comp_codable r).
  { intros y d2 Hy. cbv zeta. rewrite Z.shiftl_mul_pow2 by lia. change (2 ^ 1) with 2.
    destruct (y * 2 =? 0) eqn:E.
    - cbn [dret fst]. split; [exists y; lia|lia].
    - unfold dbind. destruct (bget _ d2) as [s d3]. cbn [dret fst]. destruct s; (split; [|lia]); [exists (-y)|exists y]; lia. }
  destruct b.
  - unfold dbind at 1. pose proof (read_bits_bound probs long_bits 0 d1 ltac:(lia)) as B.
    change (fold_right (fun i a => 2 ^ Z.of_nat i + a) 0 long_bits) with 1015 in B.
    destruct (read_bits probs long_bits 0 d1) as [y d2]. cbn [fst] in B.
    destruct (Z.land y 65520 =? 0).
    + cbn [dret]. apply X. lia.
    + unfold dbind at 1. destruct (bget _ d2) as [c d3]. cbn [dret]. apply X. destruct c; lia.
  - destruct (tree_decode small_mv_tree _ d1) as [y d2] eqn:E. apply X.
    pose proof (C04_tree_decode_total small_mv_tree [0; 1; 2; 3; 4; 5; 6; 7] (firstn 7 (skipn SHORT probs)) d1 ltac:(vm_compute; tauto)) as H.
    rewrite E in H. cbn in H. lia.
Qed.

Lemma parses_comp_codable probs c evs : comp_codable c -> write_component probs c = Some evs ->
  parses (read_component probs) evs c.
Proof.
  intros [[k ->] B] W.
  assert (S : Z.shiftr (2 * k) 1 = k) by (rewrite Z.shiftr_div_pow2 by lia; change (2 ^ 1) with 2; lia).
  pose proof (parses_component probs (2 * k) evs ltac:(rewrite S; lia) W) as P. rewrite S in P. exact P.
Qed.

Lemma parses_mv probs m : mv_codable m ->
  exists evs, write_mv probs m = Some evs /\ (Forall prob_ok probs -> Forall event_ok evs) /\
              parses (read_mv probs) evs m.
Proof.
  destruct m as [x y]. intros [HX HY]. cbn [fst snd] in *. unfold write_mv, read_mv. cbn [fst snd].
  destruct (write_component_some (firstn 19 probs) y) as (a & EA & OA).
  destruct (write_component_some (skipn 19 probs) x) as (b & EB & OB).
  rewrite EA, EB. eexists. split; [reflexivity|]. split.
  - intros HP. apply Forall_app. split; [apply OA, Forall_firstn|apply OB, Forall_skipn]; exact HP.
  - apply (parses_bind _ _ _ _ y); [apply parses_comp_codable; assumption|].
    apply (parses_bind_ret _ (fun x => (x, y))). apply parses_comp_codable; assumption.
Qed.

Lemma read_mv_codable probs d : mv_codable (fst (read_mv probs d)).
Proof.
  unfold read_mv, dbind.
  pose proof (read_component_range (firstn 19 probs) d) as A.
  destruct (read_component (firstn 19 probs) d) as [y d1].
  pose proof (read_component_range (skipn 19 probs) d1) as B.
  destruct (read_component (skipn 19 probs) d1) as [x d2]. exact (conj B A).
Qed.
