(** C30: dequantisation factors. *)
From Verif Require Import Base HeaderModel HeaderProofs MVModel QuantModel.

(** The index arithmetic the format prescribes: clamp to 0..127. *)
Definition clamp127 (x : Z) : Z := Z.max 0 (Z.min 127 x).

Lemma s16_id x : -32768 <= x <= 32767 -> s16 x = x.
Proof. unfold s16. intros. rewrite Z.mod_small; lia. Qed.
Lemma clamp_q_spec x : -32768 <= x <= 32767 -> clamp_q x = clamp127 x.
Proof. intros. unfold clamp_q, clamp127. rewrite s16_id by lia. destruct (x <? 0) eqn:A, (127 <? x) eqn:B; lia. Qed.

Lemma at_in (l : list Z) i : 0 <= i < zlen l -> at_ l i = Some (nth (Z.to_nat i) l 0).
Proof.
  unfold at_, zlen. intros H. replace (i <? 0) with false by lia.
  rewrite (nth_error_nth' l 0) by lia. reflexivity.
Qed.

Ltac qi_solve := constructor; unfold o_ok, u_ok, s_ok; cbn; intros; repeat match goal with H : Some _ = Some _ |- _ => injection H as <- | H : None = Some _ |- _ => discriminate H end; lia.

(** A quantiser index set as the code may hold it: any uint8_t and five
    deltas (the header gives 7 bits and 4 bits plus sign). *)
Definition qi_small (qi : QuantIndices) : Prop :=
  0 <= y_ac_qi qi < 256 /\
  (forall d, In (Some d) [y_dc qi; y2_dc qi; y2_ac qi; uv_dc qi; uv_ac qi] -> -128 <= d <= 127).

Lemma get_or0_small qi d : qi_small qi -> In d [y_dc qi; y2_dc qi; y2_ac qi; uv_dc qi; uv_ac qi] ->
  -128 <= get_or0 d <= 127.
Proof. intros [_ H] I. destruct d; cbn; [|lia]. apply H, I. Qed.

(** Factors for an index 0..127, by sweep over the tables. *)
Definition factors_ok (i : Z) : bool :=
  let a := nth (Z.to_nat i) ac_qlookup 0 in
  let d := nth (Z.to_nat i) dc_qlookup 0 in
  (4 <=? a) && (a <=? 284) && (4 <=? d) && (d <=? 157).
Lemma factors_sweep : forallb (fun i => factors_ok (Z.of_nat i)) (seq 0 128) = true.
Proof. vm_compute. reflexivity. Qed.
Lemma factors_range i : 0 <= i <= 127 -> factors_ok i = true.
Proof.
  intros H. rewrite <- (Z2Nat.id i) by lia.
  apply (proj1 (forallb_forall _ _) factors_sweep). apply in_seq. lia.
Qed.

(** The table lookups at an index, as plain numbers. *)
Definition ac_at (i : Z) : Z := nth (Z.to_nat (clamp127 i)) ac_qlookup 0.
Definition dc_at (i : Z) : Z := nth (Z.to_nat (clamp127 i)) dc_qlookup 0.

Theorem C30_quantizer :
  forall qi, qi_small qi ->
  exists q, make_quantizer qi = Some q /\
    q_y_ac q = ac_at (y_ac_qi qi) /\
    q_y_dc q = dc_at (y_ac_qi qi + get_or0 (y_dc qi)) /\
    q_y2_dc q = 2 * dc_at (y_ac_qi qi + get_or0 (y2_dc qi)) /\
    q_y2_ac q = Z.max 8 (155 * ac_at (y_ac_qi qi + get_or0 (y2_ac qi)) / 100) /\
    q_uv_dc q = Z.min 132 (dc_at (y_ac_qi qi + get_or0 (uv_dc qi))) /\
    q_uv_ac q = ac_at (y_ac_qi qi + get_or0 (uv_ac qi)) /\
    4 <= q_y_ac q <= 284 /\ 4 <= q_y_dc q <= 157 /\ 8 <= q_y2_ac q <= 440 /\
    8 <= q_y2_dc q <= 314 /\ 4 <= q_uv_ac q <= 284 /\ 4 <= q_uv_dc q <= 132.
Proof.
  intros qi Hq.
  pose proof (proj1 Hq) as H0.
  assert (L : forall tbl d, zlen tbl = 128 -> -128 <= d <= 127 ->
    at_ tbl (clamp_q (y_ac_qi qi + d)) = Some (nth (Z.to_nat (clamp127 (y_ac_qi qi + d))) tbl 0)).
  { intros tbl d Ht Hd. rewrite clamp_q_spec by lia. apply at_in. unfold clamp127. lia. }
  assert (R : forall d, let i := clamp127 (y_ac_qi qi + d) in
     4 <= nth (Z.to_nat i) ac_qlookup 0 <= 284 /\ 4 <= nth (Z.to_nat i) dc_qlookup 0 <= 157).
  { intros d i. assert (Hi : 0 <= i <= 127) by (unfold i, clamp127; lia).
    pose proof (factors_range i Hi) as F. unfold factors_ok in F. lia. }
  unfold make_quantizer.
  pose proof (get_or0_small qi (y_dc qi) Hq ltac:(cbn; tauto)).
  pose proof (get_or0_small qi (y2_dc qi) Hq ltac:(cbn; tauto)).
  pose proof (get_or0_small qi (y2_ac qi) Hq ltac:(cbn; tauto)).
  pose proof (get_or0_small qi (uv_dc qi) Hq ltac:(cbn; tauto)).
  pose proof (get_or0_small qi (uv_ac qi) Hq ltac:(cbn; tauto)).
  rewrite !L by (reflexivity || lia).
  eexists. split; [reflexivity|]. cbn [q_y_ac q_y_dc q_y2_ac q_y2_dc q_uv_ac q_uv_dc].
  unfold ac_at, dc_at.
  pose proof (R 0) as R0. pose proof (R (get_or0 (y_dc qi))) as R1. pose proof (R (get_or0 (y2_dc qi))) as R2.
  pose proof (R (get_or0 (y2_ac qi))) as R3. pose proof (R (get_or0 (uv_dc qi))) as R4. pose proof (R (get_or0 (uv_ac qi))) as R5.
  cbv zeta in *.
  rewrite Z.add_0_r in *.
  repeat match goal with |- context [nth ?a ?b 0] => generalize dependent (nth a b 0); intros end.
  unfold wrap. change (2 ^ 16) with 65536.
  clear L R.
  assert (W : forall x, 4 <= x <= 284 -> (x * 155 / 100) mod 65536 = 155 * x / 100).
  { intros x Hx. rewrite Z.mod_small; [f_equal; lia|]. split; [apply Z.div_pos; lia|]. apply Z.div_lt_upper_bound; lia. }
  assert (W2 : forall x, 4 <= x <= 157 -> (x * 2) mod 65536 = 2 * x) by (intros; rewrite Z.mod_small; lia).
  rewrite W, W2 by lia. clear W W2.
  repeat split; try lia;
  repeat match goal with |- context [if ?c then _ else _] => destruct c eqn:? end; lia.
Qed.

(** Every index set a header can carry and every segment variation of it
    qualifies. *)
Theorem C30_header_indices_qualify :
  forall qi, qi_ok qi -> qi_small qi /\
    forall absolute adj, -128 <= adj <= 127 -> qi_small (segment_indices absolute adj qi).
Proof.
  intros qi [H1 H2 H3 H4 H5 H6]. unfold o_ok, u_ok, s_ok in *.
  assert (P : forall d, In (Some d) [y_dc qi; y2_dc qi; y2_ac qi; uv_dc qi; uv_ac qi] -> -128 <= d <= 127).
  { intros d Hd. assert (Z.abs d < 2 ^ 4) as B; [|change (2 ^ 4) with 16 in B; lia].
    repeat destruct Hd as [Hd|Hd]; try contradiction; eauto. }
  split.
  - split; [change (2 ^ 7) with 128 in H1; lia|exact P].
  - intros ab adj Ha. split; [|exact P]. cbn. unfold segment_q_index, wrap. apply Z.mod_pos_bound. lia.
Qed.

(** The segment index is a number modulo 256 and only then clamped, so the
    documented rule "base + adjustment clamped to 0..127" holds as long as the
    sum is not negative ... *)
Theorem C30_segment_index :
  forall (absolute : bool) adj qi, 0 <= y_ac_qi qi <= 127 -> -128 <= adj <= 127 ->
  let sum := adj + (if absolute then 0 else y_ac_qi qi) in
  0 <= sum ->
  ac_at (y_ac_qi (segment_indices absolute adj qi)) = nth (Z.to_nat (clamp127 sum)) ac_qlookup 0.
Proof.
  intros ab adj qi H Ha sum Hs. cbn. unfold segment_q_index, wrap. rewrite Z.mod_small; [reflexivity|].
  subst sum. destruct ab; lia.
Qed.

(** ... and fails when it is negative: index 10 lowered by 20 gives the
    coarsest quantiser (127) where the rule gives the finest (0). *)
Theorem C30_negative_segment_index_refuted :
  ~ (forall (absolute : bool) adj qi, qi_ok qi -> -127 <= adj <= 127 ->
     let sum := adj + (if absolute then 0 else y_ac_qi qi) in
     ac_at (y_ac_qi (segment_indices absolute adj qi)) = nth (Z.to_nat (clamp127 sum)) ac_qlookup 0).
Proof.
  intros H. specialize (H false (-20) (mkQI 10 None None None None None)).
  assert (Q : qi_ok (mkQI 10 None None None None None)) by qi_solve.
  specialize (H Q ltac:(lia)). vm_compute in H. discriminate H.
Qed.

(** The other deltas are added to the sum before it is clamped, so a sum above
    127 hides a negative delta: the rule "clamp, then add the delta, then
    clamp" is not what the code does. *)
Theorem C30_delta_after_clamp_refuted :
  ~ (forall adj qi q, qi_ok qi -> -127 <= adj <= 127 -> 0 <= adj + y_ac_qi qi ->
     make_quantizer (segment_indices false adj qi) = Some q ->
     q_y_dc q = dc_at (clamp127 (adj + y_ac_qi qi) + get_or0 (y_dc qi))).
Proof.
  intros H. specialize (H 100 (mkQI 100 (Some (-15)) None None None None)).
  destruct (make_quantizer (segment_indices false 100 (mkQI 100 (Some (-15)) None None None None))) as [q|] eqn:E;
    [|vm_compute in E; discriminate E].
  specialize (H q ltac:(qi_solve) ltac:(lia) ltac:(cbn; lia) eq_refl).
  vm_compute in E. injection E as <-. vm_compute in H. discriminate H.
Qed.

Example C30_example :
  qi_ok (mkQI 3 (Some (-15)) (Some 15) None (Some 7) None) /\
  make_quantizer (mkQI 3 (Some (-15)) (Some 15) None (Some 7) None) = Some (mkQ 7 4 10 40 7 13) /\
  make_quantizer (mkQI 0 None None None None None) = Some (mkQ 4 4 8 8 4 4) /\
  make_quantizer (mkQI 127 None None None (Some 15) None) = Some (mkQ 284 157 440 314 284 132).
Proof. split; [qi_solve|]. repeat split; vm_compute; reflexivity. Qed.

(** Dequantised coefficients are 16-bit numbers, and exact unless they leave
    that range. *)
Theorem C30_dequantize :
  forall dc ac c, length c = 16%nat ->
  Forall (fun x => -32768 <= x <= 32767) (dequantize dc ac c) /\
  (forall k, (k < 16)%nat ->
     let f := if (k =? 0)%nat then dc else ac in
     -32768 <= nth k c 0 * f <= 32767 -> nth k (dequantize dc ac c) 0 = nth k c 0 * f).
Proof.
  intros dc ac c Hl. destruct c as [|c0 r]; [discriminate|]. cbn [dequantize]. split.
  - constructor; [unfold s16; lia|]. apply Forall_forall. intros x Hx. apply in_map_iff in Hx.
    destruct Hx as (y & <- & _). unfold s16. lia.
  - intros [|k] Hk Hf; cbn [nth].
    + cbn in *. apply s16_id. lia.
    + cbn in *. rewrite (nth_indep _ 0 (s16 (0 * ac))) by (rewrite map_length; lia).
      rewrite (map_nth (fun x => s16 (x * ac))). apply s16_id. lia.
Qed.
Example C30_dequantize_example :
  dequantize 157 284 (repeat 115 16) = 18055 :: repeat 32660 15 /\ dequantize 157 284 (repeat 200 16) = 31400 :: repeat (-8736) 15.
Proof. vm_compute. auto. Qed.

Print Assumptions C30_quantizer.
Print Assumptions C30_header_indices_qualify.
Print Assumptions C30_segment_index.
Print Assumptions C30_negative_segment_index_refuted.
Print Assumptions C30_delta_after_clamp_refuted.
Print Assumptions C30_dequantize.
