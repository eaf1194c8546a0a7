(** C68: the weights of rate and distortion. *)
From Coq Require Import SpecFloat.
From Verif Require Import Base HeaderModel RasterModel TransformModel QuantModel ResidueModel PropResidue PropQuant RateModel.

Definition weights (q : Z) : Z * Z := let r := 14 * q * q / 5 in if 1000 <? r then (r / 100, 1) else (r, 100).

Lemma multipliers_small : forallb (fun k => match update_rd_multipliers (Z.of_nat k), weights (Z.of_nat k) with Some (a, b), (c, d) => (a =? c) && (b =? d) | None, _ => false end || (k =? 150)%nat) (seq 0 161) = true.
Proof. vm_compute. reflexivity. Qed.

(** The weights are those of exact arithmetic, except in one case. *)
Theorem C68_exact : forall y_ac, 0 <= y_ac < 2 ^ 16 -> y_ac <> 150 -> update_rd_multipliers y_ac = Some (weights (Z.min y_ac 160)).
Proof.
  intros y H N. assert (C : forall k, 0 <= k <= 160 -> k <> 150 -> update_rd_multipliers k = Some (weights k)).
  { intros k Hk Nk. pose proof (proj1 (forallb_forall _ _) multipliers_small (Z.to_nat k) ltac:(apply in_seq; lia)) as Q. cbn beta in Q. rewrite Z2Nat.id in Q by lia.
    replace (Z.to_nat k =? 150)%nat with false in Q by lia. rewrite Bool.orb_false_r in Q.
    destruct (update_rd_multipliers k) as [[a b]|]; [|discriminate]. destruct (weights k) as [c d]. f_equal. f_equal; lia. }
  destruct (Z.ltb_spec y 160).
  - rewrite Z.min_l by lia. apply C; lia.
  - rewrite Z.min_r by lia. rewrite <- (C 160) by lia. unfold update_rd_multipliers. replace (y <? 160) with false by lia. reflexivity.
Qed.

(** The product of doubles is 62999.99... instead of 63000. *)
Theorem C68_rounding_refuted : update_rd_multipliers 150 = Some (629, 1) /\ weights 150 = (630, 1).
Proof. split; vm_compute; reflexivity. Qed.

Lemma steps_other : forallb (fun x => negb (x =? 150)) ac_qlookup = true.
Proof. reflexivity. Qed.

(** No quantiser has that step. *)
Theorem C68_quantizer : forall qi q, qi_small qi -> make_quantizer qi = Some q -> update_rd_multipliers (q_y_ac q) = Some (weights (Z.min (q_y_ac q) 160)).
Proof.
  intros qi q Hq E. pose proof (quantizer_range qi q Hq E) as R. apply C68_exact; [lia|]. intros Q.
  assert (I : In (q_y_ac q) ac_qlookup).
  { unfold make_quantizer in E. cbv zeta in E.
    destruct (at_ ac_qlookup (clamp_q (y_ac_qi qi + 0))) as [x|] eqn:Ex in E; [|discriminate].
    do 5 (match type of E with match ?m with _ => _ end = _ => destruct m; [|discriminate] end).
    apply some_eq in E. subst q. cbn [q_y_ac]. unfold at_ in Ex. destruct (_ <? 0) in Ex; [discriminate|]. apply nth_error_In in Ex. exact Ex. }
  pose proof (proj1 (forallb_forall _ _) steps_other _ I) as N. cbn beta in N. lia.
Qed.

(** The weights for every quantiser: in the range that the theorems about the
    encoder need (C61, C63, C64), and never both 0. *)
Theorem C68_range : forall y_ac, 4 <= y_ac < 2 ^ 16 -> exists rm dm, update_rd_multipliers y_ac = Some (rm, dm) /\ 10 <= rm <= 1000 /\ (dm = 1 \/ dm = 100) /\ (dm = 100 <-> y_ac <= 18).
Proof.
  intros y H. destruct (Z.eq_dec y 150) as [->|N]; [exists 629, 1; split; [vm_compute; reflexivity|lia]|].
  rewrite C68_exact by lia. unfold weights. set (q := Z.min y 160). assert (Hq : 4 <= q <= 160) by lia.
  assert (14 * 4 * 4 <= 14 * q * q <= 14 * 160 * 160) by nia.
  destruct (1000 <? 14 * q * q / 5) eqn:E.
  - assert (19 <= q) by (destruct (Z.le_gt_cases 19 q); [assumption|exfalso; assert (14 * q * q <= 14 * 18 * 18) by nia; lia]).
    eexists. eexists. split; [reflexivity|]. repeat split; try lia.
  - assert (q <= 18) by (destruct (Z.le_gt_cases q 18); [assumption|exfalso; assert (14 * 19 * 19 <= 14 * q * q) by nia; lia]).
    eexists. eexists. split; [reflexivity|]. repeat split; try lia.
Qed.

Example weights_some : map update_rd_multipliers [4; 18; 19; 157; 284] = [Some (44, 100); Some (907, 100); Some (10, 1); Some (690, 1); Some (716, 1)].
Proof. vm_compute. reflexivity. Qed.

Print Assumptions C68_exact.
Print Assumptions C68_rounding_refuted.
Print Assumptions C68_quantizer.
Print Assumptions C68_range.
