(** Lemmas about the pictures with margins. *)
From Verif Require Import Base TreeModel MVModel FrameModel RasterModel RasterProofs PredictModel PredictProofs SafeRasterModel PropInter.

(** ** Writing bytes into an allocation *)
Lemma mem_put_none m off l : zlen m < off + zlen l -> mem_put m off l = None.
Proof. intros H. unfold mem_put. replace ((off <? 0) || (zlen m <? off + zlen l)) with true by lia. reflexivity. Qed.
Lemma mem_put_some m off l : 0 <= off -> off + zlen l <= zlen m ->
  exists m', mem_put m off l = Some m' /\ zlen m' = zlen m /\
    forall i, 0 <= i -> nth_error m' (Z.to_nat i) =
      if (off <=? i) && (i <? off + zlen l) then nth_error l (Z.to_nat (i - off)) else nth_error m (Z.to_nat i).
Proof.
  intros H0 H. unfold mem_put. replace ((off <? 0) || (zlen m <? off + zlen l)) with false by lia.
  eexists. split; [reflexivity|]. unfold zlen in *. split.
  - rewrite !app_length, firstn_length, skipn_length. lia.
  - intros i Hi. assert (L : length (firstn (Z.to_nat off) m) = Z.to_nat off) by (rewrite firstn_length; lia).
    destruct ((off <=? i) && (i <? off + Z.of_nat (length l))) eqn:E.
    + rewrite nth_error_app2 by lia. rewrite nth_error_app1 by lia. f_equal. lia.
    + destruct (i <? off) eqn:F.
      * rewrite nth_error_app1 by lia. rewrite <- (firstn_skipn (Z.to_nat off) m) at 2. rewrite nth_error_app1 by lia. reflexivity.
      * rewrite nth_error_app2 by lia. rewrite nth_error_app2 by lia.
        symmetry. rewrite <- (firstn_skipn (Z.to_nat off + length l) m) at 1.
        rewrite (nth_error_app2 (firstn (Z.to_nat off + length l) m)) by (rewrite firstn_length; lia).
        f_equal. rewrite firstn_length. lia.
Qed.

Lemma put_run_some p x y l : inside p x y = true -> y * pl_w p + x + zlen l <= zlen (pl_px p) ->
  exists p', put_run p x y l = Some p' /\ same_dims p' p /\ zlen (pl_px p') = zlen (pl_px p) /\
    forall i, 0 <= i -> nth_error (pl_px p') (Z.to_nat i) =
      if (y * pl_w p + x <=? i) && (i <? y * pl_w p + x + zlen l) then nth_error l (Z.to_nat (i - (y * pl_w p + x)))
      else nth_error (pl_px p) (Z.to_nat i).
Proof.
  intros H L. unfold put_run. rewrite H. apply inside_iff in H.
  destruct (mem_put_some (pl_px p) (y * pl_w p + x) l) as (m' & E & Z' & N); [nia|exact L|].
  rewrite E. cbn [obind]. eexists. split; [reflexivity|]. split; [split; reflexivity|]. split; [exact Z'|exact N].
Qed.
Lemma put_run_none p x y l : zlen (pl_px p) < y * pl_w p + x + zlen l -> put_run p x y l = None.
Proof. intros L. unfold put_run. destruct (inside p x y); [|reflexivity]. rewrite mem_put_none by exact L. reflexivity. Qed.

Lemma put_run_dims q x y k q' : put_run q x y k = Some q' -> same_dims q' q /\ zlen (pl_px q') = zlen (pl_px q).
Proof.
  intros E. destruct (zlen (pl_px q) <? y * pl_w q + x + zlen k) eqn:F; [rewrite put_run_none in E by lia; discriminate|].
  destruct (inside q x y) eqn:I; [|unfold put_run in E; rewrite I in E; discriminate].
  destruct (put_run_some q x y k I ltac:(lia)) as (q2 & E' & D & Zl & _). rewrite E' in E. injection E as <-. split; assumption.
Qed.

Lemma zlen_repeat (v n : Z) : 0 <= n -> zlen (repeat v (Z.to_nat n)) = n.
Proof. intros. unfold zlen. rewrite repeat_length. lia. Qed.
Lemma zlen_zseq {B} (g : Z -> B) n : 0 <= n -> zlen (map g (zseq n)) = n.
Proof. intros. unfold zlen, zseq. rewrite !map_length, seq_length. lia. Qed.
Lemma nth_error_rep {A} (v : A) n i : (i < n)%nat -> nth_error (repeat v n) i = Some v.
Proof. revert i. induction n as [|n IH]; intros [|i] H; cbn; try lia; [reflexivity|]. apply IH. lia. Qed.

(** ** One row *)
Lemma source_row_edge mw h n : 0 < h -> 0 <= mw -> source_row mw h n = Z.max 0 (Z.min (h - 1) (n - mw)).
Proof. intros. unfold source_row. destruct (n <? mw) eqn:?, (mw + h <=? n) eqn:?; lia. Qed.

Section Row.
  Context (mw : Z) (src : plane) (Hm : 0 < mw) (Hs : shaped src).

  Lemma copy_row_some p n : 0 <= n < pl_h p -> mw + pl_w src < pl_w p ->
    n * pl_w p + 2 * mw + pl_w src <= zlen (pl_px p) ->
    exists p', copy_row mw src p n = Some p' /\ same_dims p' p /\ zlen (pl_px p') = zlen (pl_px p) /\
      forall i, 0 <= i -> nth_error (pl_px p') (Z.to_nat i) =
        if (n * pl_w p <=? i) && (i <? n * pl_w p + 2 * mw + pl_w src)
        then Some (edge src (i - n * pl_w p - mw) (n - mw)) else nth_error (pl_px p) (Z.to_nat i).
  Proof.
    intros Hn Hw L. destruct Hs as (Sw & Sh & _). unfold copy_row. rewrite source_row_edge by lia.
    set (sr := Z.max 0 (Z.min (pl_h src - 1) (n - mw))). assert (0 <= sr < pl_h src) by (subst sr; lia).
    rewrite pget_some by (try exact Hs; apply inside_iff; lia). cbn [obind].
    destruct (put_run_some p 0 n (repeat (at_px src 0 sr) (Z.to_nat mw))) as (p1 & E1 & D1 & Z1 & N1);
      [apply inside_iff; lia|rewrite zlen_repeat by lia; lia|].
    rewrite E1. cbn [obind]. rewrite read_run_some by (try exact Hs; lia). cbn [obind].
    destruct (put_run_some p1 mw n (map (fun i => at_px src (0 + i) sr) (zseq (pl_w src)))) as (p2 & E2 & D2 & Z2 & N2);
      [rewrite (inside_dims _ _ _ _ D1); apply inside_iff; lia|rewrite zlen_zseq by lia; rewrite (proj1 D1), Z1; lia|].
    rewrite E2. cbn [obind]. rewrite pget_some by (try exact Hs; apply inside_iff; lia). cbn [obind].
    pose proof (same_dims_trans _ _ _ D2 D1) as D2'.
    destruct (put_run_some p2 (mw + pl_w src) n (repeat (at_px src (pl_w src - 1) sr) (Z.to_nat mw))) as (p3 & E3 & D3 & Z3 & N3);
      [rewrite (inside_dims _ _ _ _ D2'); apply inside_iff; lia|rewrite zlen_repeat by lia; rewrite (proj1 D2'), Z2, Z1; lia|].
    exists p3. split; [exact E3|]. split; [eapply same_dims_trans; eassumption|]. split; [lia|].
    intros i Hi. rewrite N3, N2, N1 by exact Hi. rewrite (proj1 D2'), (proj1 D1). rewrite !zlen_repeat, zlen_zseq by lia.
    clear E1 E2 E3 N1 N2 N3 Z1 Z2 Z3 D1 D2 D3 D2'. set (b := n * pl_w p) in *. clearbody b.
    destruct ((b <=? i) && (i <? b + 2 * mw + pl_w src)) eqn:E.
    - destruct ((b + (mw + pl_w src) <=? i) && (i <? b + (mw + pl_w src) + mw)) eqn:F3; 
      [|destruct ((b + mw <=? i) && (i <? b + mw + pl_w src)) eqn:F2;
      [|destruct ((b + 0 <=? i) && (i <? b + 0 + mw)) eqn:F1; [|lia]]].
      + rewrite nth_error_rep by lia. unfold edge. fold sr. do 2 f_equal. lia.
      + rewrite (proj1 (nth_zseq (fun i => at_px src (0 + i) sr) (pl_w src) (i - (b + mw)) 0 ltac:(lia))). unfold edge. fold sr. do 2 f_equal. lia.
      + rewrite nth_error_rep by lia. unfold edge. fold sr. do 2 f_equal. lia.
    - replace ((b + (mw + pl_w src) <=? i) && (i <? b + (mw + pl_w src) + mw)) with false by lia.
      replace ((b + mw <=? i) && (i <? b + mw + pl_w src)) with false by lia.
      replace ((b + 0 <=? i) && (i <? b + 0 + mw)) with false by lia. reflexivity.
  Qed.

  Lemma copy_row_none p n : 0 <= n < pl_h p -> zlen (pl_px p) < n * pl_w p + 2 * mw + pl_w src ->
    copy_row mw src p n = None.
  Proof.
    intros Hn L. unfold copy_row.
    destruct (pget src 0 _) as [a|]; [|reflexivity]. cbn [obind].
    destruct (put_run p 0 n (repeat a (Z.to_nat mw))) as [p1|] eqn:E1; [|reflexivity]. cbn [obind].
    destruct (read_run src 0 _ _) as [l|] eqn:R; [|reflexivity]. cbn [obind].
    destruct (put_run p1 mw n l) as [p2|] eqn:E2; [|reflexivity]. cbn [obind].
    destruct (pget src (pl_w src - 1) _) as [b|]; [|reflexivity]. cbn [obind].
    apply put_run_dims in E1, E2. destruct E1 as [D1 Z1], E2 as [D2 Z2].
    apply put_run_none. rewrite zlen_repeat by lia. rewrite (proj1 D2), (proj1 D1), Z2, Z1. lia.
  Qed.
End Row.

(** ** The whole picture *)
Section Copy.
  Context (mw : Z) (src : plane) (Hm : 0 < mw) (Hs : shaped src).

  (** The first [n] rows hold the picture continued without end. *)
  Definition rows_done (p : plane) (n : Z) : Prop :=
    forall x y, 0 <= x < pl_w p -> 0 <= y < n -> nth_error (pl_px p) (Z.to_nat (y * pl_w p + x)) = Some (edge src (x - mw) (y - mw)).

  Lemma copy_rows safe : mw + pl_w src < pl_w safe -> pl_w safe <= 2 * mw + pl_w src ->
    forall n, (Z.of_nat n <= pl_h safe) -> (0 < n)%nat ->
    (Z.of_nat n - 1) * pl_w safe + 2 * mw + pl_w src <= zlen (pl_px safe) ->
    exists p, ofold (copy_row mw src) (map Z.of_nat (seq 0 n)) safe = Some p /\ same_dims p safe /\ zlen (pl_px p) = zlen (pl_px safe) /\ rows_done p (Z.of_nat n) /\ forall i, (Z.of_nat n - 1) * pl_w safe + 2 * mw + pl_w src <= i -> nth_error (pl_px p) (Z.to_nat i) = nth_error (pl_px safe) (Z.to_nat i).
  Proof.
    intros Hw Hw2. induction n as [|n IH]; intros Hn Hp L; [lia|].
    rewrite seq_S, map_app, ofold_app. destruct Hs as (Sw & Sh & _).
    assert (Q : exists p, ofold (copy_row mw src) (map Z.of_nat (seq 0 n)) safe = Some p /\ same_dims p safe /\ zlen (pl_px p) = zlen (pl_px safe) /\ rows_done p (Z.of_nat n) /\ forall i, Z.of_nat n * pl_w safe + 2 * mw + pl_w src <= i -> nth_error (pl_px p) (Z.to_nat i) = nth_error (pl_px safe) (Z.to_nat i)).
    { destruct n as [|n].
      - exists safe. split; [reflexivity|]. split; [apply same_dims_refl|]. split; [reflexivity|]. split; [intros x y _ Hy; lia|]. reflexivity.
      - destruct IH as (p & E & D & Zl & R & N); [lia|lia|nia|]. exists p. split; [exact E|]. split; [exact D|]. split; [exact Zl|]. split; [exact R|].
        intros i Hi. apply N. nia. }
    destruct Q as (p & E & D & Zl & R & N). rewrite E. cbn [obind]. cbn [map ofold Nat.add].
    destruct (copy_row_some mw src Hm Hs p (Z.of_nat n)) as (p' & E' & D' & Zl' & N').
    { rewrite (proj2 D). lia. } { rewrite (proj1 D). lia. } { rewrite (proj1 D), Zl. lia. }
    rewrite E'. cbn [obind]. exists p'. split; [reflexivity|]. split; [eapply same_dims_trans; eassumption|]. split; [lia|]. split.
    - intros x y Hx Hy. rewrite (proj1 D'), (proj1 D) in *. 
      assert (0 <= y * pl_w safe) by nia. rewrite N' by lia. 
      destruct (y =? Z.of_nat n) eqn:F.
      + assert (y = Z.of_nat n) by lia. subst y. replace (_ && _) with true by lia. do 2 f_equal. lia.
      + assert (y * pl_w safe + x < Z.of_nat n * pl_w safe) by nia.
        replace (_ && _) with false by lia. pose proof (R x y) as R'. rewrite (proj1 D) in R'. apply R'; lia.
    - intros i Hi. rewrite (proj1 D) in N'. assert (0 <= Z.of_nat n * pl_w safe) by nia. rewrite N' by lia.
      replace (_ && _) with false by lia. apply N. lia.
  Qed.

  Lemma copy_raster_some safe : mw + pl_w src < pl_w safe -> pl_w safe <= 2 * mw + pl_w src -> 0 < pl_h safe ->
    (pl_h safe - 1) * pl_w safe + 2 * mw + pl_w src <= zlen (pl_px safe) ->
    exists p, copy_raster mw src safe = Some p /\ same_dims p safe /\ zlen (pl_px p) = zlen (pl_px safe) /\ rows_done p (pl_h safe) /\ forall i, (pl_h safe - 1) * pl_w safe + 2 * mw + pl_w src <= i -> nth_error (pl_px p) (Z.to_nat i) = nth_error (pl_px safe) (Z.to_nat i).
  Proof.
    intros Hw Hw2 Hh L. unfold copy_raster, zseq.
    destruct (copy_rows safe Hw Hw2 (Z.to_nat (pl_h safe))) as (p & H); [lia|lia|rewrite Z2Nat.id by lia; exact L|].
    rewrite Z2Nat.id in H by lia. exists p. exact H.
  Qed.

  Lemma copy_raster_none safe : 0 < pl_h safe ->
    zlen (pl_px safe) < (pl_h safe - 1) * pl_w safe + 2 * mw + pl_w src -> copy_raster mw src safe = None.
  Proof.
    intros Hh L. unfold copy_raster, zseq. replace (Z.to_nat (pl_h safe)) with (S (Z.to_nat (pl_h safe - 1))) by lia.
    rewrite seq_S, map_app, ofold_app.
    destruct (ofold _ _ safe) as [p|] eqn:E; [|reflexivity]. cbn [obind map ofold Nat.add]. rewrite Z2Nat.id by lia.
    assert (D : same_dims p safe /\ zlen (pl_px p) = zlen (pl_px safe)).
    { assert (I : forall l q q', ofold (copy_row mw src) l q = Some q' -> same_dims q' q /\ zlen (pl_px q') = zlen (pl_px q)).
      { induction l as [|n l IH]; intros q q' F; cbn in F; [injection F as <-; split; [apply same_dims_refl|reflexivity]|].
        destruct (copy_row mw src q n) as [q1|] eqn:C; [|discriminate]. cbn [obind] in F. apply IH in F.
        assert (C' : same_dims q1 q /\ zlen (pl_px q1) = zlen (pl_px q)).
        { unfold copy_row in C. destruct (pget src 0 _) as [a|]; [|discriminate]. cbn [obind] in C.
          destruct (put_run q 0 n _) as [q2|] eqn:P1; [|discriminate]. cbn [obind] in C.
          destruct (read_run _ _ _ _) as [l'|]; [|discriminate]. cbn [obind] in C.
          destruct (put_run q2 mw n _) as [q3|] eqn:P2; [|discriminate]. cbn [obind] in C.
          destruct (pget src (pl_w src - 1) _) as [b|]; [|discriminate]. cbn [obind] in C.
          apply put_run_dims in P1, P2, C. destruct P1 as [A1 B1], P2 as [A2 B2], C as [A3 B3].
          split; [eapply same_dims_trans; [|eapply same_dims_trans]; eassumption|lia]. }
        destruct F as [F1 F2], C' as [C1 C2]. split; [eapply same_dims_trans; eassumption|lia]. }
      eapply I, E. }
    rewrite copy_row_none; [reflexivity|exact Hm|rewrite (proj2 (proj1 D)); lia|]. rewrite (proj2 D), (proj1 (proj1 D)). exact L.
  Qed.
End Copy.
