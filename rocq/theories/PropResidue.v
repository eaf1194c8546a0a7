(** C61: the encoder's residues. *)
From Verif Require Import Base HeaderModel MVModel TokenModel TokenProofs FrameModel RasterModel RasterProofs TransformModel QuantModel ReconModel ResidueModel.
From Verif Require Import PropQuant PropTransform ResidueProofs.

(** A 4x4 block of pixels, row by row. *)
Definition pixels (l : list Z) : Prop := length l = 16%nat /\ Forall (fun x => 0 <= x <= 255) l.

(** The first pass, or the second with costs whose multiplier is one the
    encoder uses (encoder.hh l.152-153, encoder.cc: at most 100). *)
Definition pass_ok (pass : option costs) : Prop :=
  match pass with None => True | Some cs => 0 <= distortion_multiplier cs <= 100 end.

(** The factors with which the decoder multiplies the blocks of a type
    (ReconModel.v), and the quantisation step of coefficient [k]. *)
Definition decoder_factors (q : Quantizer) (type : Z) : Z * Z :=
  if type =? UV_type then uv_factors q else if type =? Y2_type then y2_factors q else y_factors q.
Definition step_of (q : Quantizer) (type : Z) (k : nat) : Z :=
  if (k =? 0)%nat then fst (decoder_factors q type) else snd (decoder_factors q type).
Lemma same_factors q type : factors q type = decoder_factors q type.
Proof. reflexivity. Qed.

(** A level the encoder may choose for an unquantised coefficient: rounded
    towards zero, one less in magnitude, or zero. *)
Definition level_for (c f v : Z) : Prop := v = Z.quot c f \/ v = Z.quot c f - Z.sgn (Z.quot c f) \/ v = 0.

Lemma differences_spec a b : pixels a -> pixels b ->
  Forall (fun d => -255 <= d <= 255) (differences a b) /\ length (differences a b) = 16%nat /\
  forall k, (k < 16)%nat -> nth k (differences a b) 0 = nth k a 0 - nth k b 0.
Proof.
  intros [La Ha] [Lb Hb]. unfold differences.
  assert (G : forall a b, length a = length b -> Forall (fun x => 0 <= x <= 255) a -> Forall (fun x => 0 <= x <= 255) b ->
    Forall (fun d => -255 <= d <= 255) (map (fun '(x, y) => s16 (x - y)) (combine a b)) /\
    length (map (fun '(x, y) => s16 (x - y)) (combine a b)) = length a /\
    forall k, (k < length a)%nat -> nth k (map (fun '(x, y) => s16 (x - y)) (combine a b)) 0 = nth k a 0 - nth k b 0).
  { clear. induction a as [|x a IH]; intros [|y b] L A B; try discriminate.
    - split; [constructor|]. split; [reflexivity|]. cbn. lia.
    - pose proof (Forall_inv A) as Ax. pose proof (Forall_inv B) as By. cbn beta in *.
      destruct (IH b) as (P & Q & R); [cbn in L; lia|exact (Forall_inv_tail A)|exact (Forall_inv_tail B)|].
      cbn [combine map]. rewrite s16_id by lia. split; [constructor; [lia|exact P]|]. split; [cbn [length]; lia|].
      intros [|k] Hk; cbn [nth]; [reflexivity|]. apply R. cbn in Hk. lia. }
  destruct (G a b) as (P & Q & R); [lia|assumption|assumption|]. rewrite La in *. auto.
Qed.

Lemma rc16_nth {A} (g : nat -> nat -> A) d k : (k < 16)%nat -> nth k (map (fun '(r, c) => g r c) rc16) d = g (k / 4)%nat (k mod 4)%nat.
Proof. intros H. do 16 (destruct k as [|k]; [reflexivity|]). lia. Qed.
Lemma rc16_length {A} (g : nat * nat -> A) : length (map g rc16) = 16%nat.
Proof. reflexivity. Qed.

Lemma rc16_forall (P : Z -> Prop) g : (forall r c, P (g r c)) -> Forall P (map (fun '(r, c) => g r c) rc16).
Proof. intros H. apply Forall_forall. intros x Hx. apply in_map_iff in Hx. destruct Hx as ([r c] & <- & _). apply H. Qed.

Lemma coef_range (P : Z -> Prop) x i j : P 0 -> Forall P x -> P (coef x i j).
Proof.
  intros H0 H. unfold coef. destruct (nth_in_or_default (4 * i + j) x 0) as [I| ->]; [|exact H0].
  exact (proj1 (Forall_forall _ _) H _ I).
Qed.

Lemma quantizer_range qi q : qi_small qi -> make_quantizer qi = Some q ->
  4 <= q_y_ac q <= 284 /\ 4 <= q_y_dc q <= 157 /\ 8 <= q_y2_ac q <= 440 /\
  8 <= q_y2_dc q <= 314 /\ 4 <= q_uv_ac q <= 284 /\ 4 <= q_uv_dc q <= 132.
Proof.
  intros H E. destruct (C30_quantizer qi H) as (q' & E' & _ & _ & _ & _ & _ & _ & R). rewrite E in E'. injection E' as <-. exact R.
Qed.

Lemma nth_abs_le (l : list Z) m k : 0 <= m -> Forall (fun c => -m <= c <= m) l -> Z.abs (nth k l 0) <= m.
Proof.
  intros Hm H. destruct (nth_in_or_default k l 0) as [I| ->]; [|lia].
  pose proof (proj1 (Forall_forall _ _) H _ I). cbn beta in *. lia.
Qed.

Lemma factor_ok_other c f : 4 <= f <= 440 -> Forall (fun x => -2040 <= x <= 2040) c -> factor_ok c f.
Proof. intros Hf H. split; [exact Hf|]. intros k. pose proof (nth_abs_le c 2040 k ltac:(lia) H). lia. Qed.
Lemma factor_ok_y2 c f : 8 <= f <= 440 -> Forall (fun x => -16320 <= x <= 16320) c -> factor_ok c f.
Proof. intros Hf H. split; [lia|]. intros k. pose proof (nth_abs_le c 16320 k ltac:(lia) H). lia. Qed.

Lemma quantize_spec dc ac c : length c = 16%nat -> factor_ok c dc -> factor_ok c ac ->
  exists r, quantize dc ac c = Some r /\ length r = 16%nat /\
    forall k, (k < 16)%nat -> nth k r 0 = Z.quot (nth k c 0) (if (k =? 0)%nat then dc else ac).
Proof.
  intros L [Fd Kd] [Fa Ka]. destruct c as [|c0 c]; [discriminate|]. unfold quantize. replace ((dc =? 0) || (ac =? 0)) with false by lia.
  eexists. split; [reflexivity|]. split; [cbn [length] in *; rewrite map_length; exact L|].
  intros [|k] Hk; cbn [nth Nat.eqb].
  - specialize (Kd 0%nat). cbn [nth] in Kd. pose proof (quot_small c0 dc ltac:(lia) ltac:(lia)). apply s16_id. lia.
  - specialize (Ka (S k)). cbn [nth] in Ka. cbn [length] in L.
    rewrite (nth_indep _ 0 (s16 (Z.quot 0 ac))) by (rewrite map_length; lia). rewrite (map_nth (fun x => s16 (Z.quot x ac))).
    pose proof (quot_small (nth k c 0) ac ltac:(lia) ltac:(lia)). apply s16_id. lia.
Qed.

Lemma quantise_spec pass ctx q type c : pass_ok pass -> length c = 16%nat ->
  factor_ok c (fst (factors q type)) -> factor_ok c (snd (factors q type)) -> (type = Y_after_Y2 -> nth 0 c 0 = 0) ->
  exists r, quantise pass ctx q type c = Some r /\ length r = 16%nat /\
    (forall k, (k < 16)%nat -> level_for (nth k c 0) (step_of q type k) (nth k r 0)) /\
    (pass = None -> forall k, (k < 16)%nat -> nth k r 0 = Z.quot (nth k c 0) (step_of q type k)).
Proof.
  intros Hp L Fd Fa H0. unfold quantise, step_of, level_for. change (decoder_factors q type) with (factors q type). destruct (factors q type) as [dc ac]. cbn [fst snd] in *.
  destruct pass as [cs|].
  - destruct (trellis_ok cs type ctx dc ac c Hp L Fd Fa H0) as (r & E & Lr & K). exists r. split; [exact E|]. split; [exact Lr|].
    split; [|discriminate]. intros k Hk. destruct (K k Hk) as [A|[A|A]]; auto.
  - destruct (quantize_spec dc ac c L Fd Fa) as (r & E & Lr & K). exists r. split; [exact E|]. split; [exact Lr|].
    split; [|intros _; exact K]. intros k Hk. left. apply K, Hk.
Qed.

Lemma level_small c f v : 4 <= f -> Z.abs c <= 2040 * f -> level_for c f v -> Z.abs v <= 2040.
Proof. intros Hf Hc [-> |[-> | ->]]; [|pose proof (quot_small c f Hf Hc); lia|lia]. apply quot_small; assumption. Qed.

Lemma levels_block_ok type q c r : length r = 16%nat ->
  factor_ok c (fst (factors q type)) -> factor_ok c (snd (factors q type)) -> (type = Y_after_Y2 -> nth 0 c 0 = 0) ->
  (forall k, (k < 16)%nat -> level_for (nth k c 0) (step_of q type k) (nth k r 0)) ->
  block_ok type (with_flag r).
Proof.
  intros L [Fd Kd] [Fa Ka] H0 H. change (factors q type) with (decoder_factors q type) in *. split; [exact L|]. cbn [fst snd with_flag]. split; [|split; [reflexivity|]].
  - apply Forall_nth. intros k d Hk. rewrite (nth_indep _ d 0) by exact Hk. rewrite L in Hk. specialize (H k Hk).
    apply level_small in H; [lia|unfold step_of; destruct (k =? 0)%nat; lia|].
    specialize (Kd k). specialize (Ka k). unfold step_of. destruct (k =? 0)%nat; lia.
  - intros E. specialize (H 0%nat ltac:(lia)). rewrite (H0 E) in H. unfold level_for in H. rewrite Z.quot_0_l in H; [cbn in H; lia|].
    unfold step_of. cbn [Nat.eqb]. lia.
Qed.

(** ** Every block can be coded, and written *)

(** Whatever the picture, the prediction and the costs: no overflow, no index
    out of range, no use of an unset choice; the result is a block that the
    tokens can represent; every level is the unquantised coefficient divided
    by the step, one less in magnitude, or zero. *)
Theorem C61_block :
  forall qi q pass ctx type original prediction,
  qi_small qi -> make_quantizer qi = Some q -> pass_ok pass -> type = Y_without_Y2 \/ type = UV_type ->
  pixels original -> pixels prediction ->
  exists c b, subtract_dct original prediction = Some c /\ code_block pass ctx q type original prediction = Some b /\
    length c = 16%nat /\ Forall (fun x => -2040 <= x <= 2040) c /\ block_ok type b /\
    forall k, (k < 16)%nat -> level_for (nth k c 0) (step_of q type k) (nth k (fst b) 0).
Proof.
  intros qi q pass ctx type a b Hq Eq Hp Ht Ha Hb.
  destruct (differences_spec a b Ha Hb) as (D & Ld & _). pose proof (quantizer_range qi q Hq Eq) as R.
  unfold code_block, subtract_dct. rewrite (fdct_formula _ D).
  set (c := map _ rc16).
  assert (C : Forall (fun x => -2040 <= x <= 2040) c).
  { apply rc16_forall. intros r k. apply forward_range. intros i j. apply coef_range; [lia|exact D]. }
  assert (F : factor_ok c (fst (factors q type)) /\ factor_ok c (snd (factors q type))).
  { split; apply factor_ok_other; try exact C; destruct Ht as [-> | ->]; cbn; lia. }
  assert (H0 : type = Y_after_Y2 -> nth 0 c 0 = 0) by (intros E; destruct Ht as [Ht|Ht]; rewrite Ht in E; discriminate).
  destruct (quantise_spec pass ctx q type c Hp eq_refl (proj1 F) (proj2 F) H0) as (r & E & L & K & _).
  exists c, (with_flag r). split; [reflexivity|]. cbn [obind]. rewrite E. split; [reflexivity|]. split; [reflexivity|].
  split; [exact C|]. split; [|exact K]. apply (levels_block_ok type q c r L (proj1 F) (proj2 F) H0 K).
Qed.

Theorem C61_block_under_y2 :
  forall qi q pass ctx original prediction,
  qi_small qi -> make_quantizer qi = Some q -> pass_ok pass -> pixels original -> pixels prediction ->
  exists c b dc, subtract_dct original prediction = Some c /\ code_block_y2 pass ctx q original prediction = Some (b, dc) /\
    length c = 16%nat /\ -2040 <= dc <= 2040 /\ dc = nth 0 c 0 /\ block_ok Y_after_Y2 b /\
    forall k, (0 < k < 16)%nat -> level_for (nth k c 0) (q_y_ac q) (nth k (fst b) 0).
Proof.
  intros qi q pass ctx a b Hq Eq Hp Ha Hb.
  destruct (differences_spec a b Ha Hb) as (D & Ld & _). pose proof (quantizer_range qi q Hq Eq) as R.
  unfold code_block_y2, subtract_dct. rewrite (fdct_formula _ D).
  set (c := map _ rc16).
  assert (C : Forall (fun x => -2040 <= x <= 2040) c).
  { apply rc16_forall. intros r k. apply forward_range. intros i j. apply coef_range; [lia|exact D]. }
  assert (C0 : Forall (fun x => -2040 <= x <= 2040) (list_set c 0 0)) by (apply list_set_forall; [exact C|lia]).
  assert (F : factor_ok (list_set c 0 0) (fst (factors q Y_after_Y2)) /\ factor_ok (list_set c 0 0) (snd (factors q Y_after_Y2))).
  { split; apply factor_ok_other; try exact C0; cbn; lia. }
  destruct (quantise_spec pass ctx q Y_after_Y2 (list_set c 0 0) Hp eq_refl (proj1 F) (proj2 F) (fun _ => eq_refl)) as (r & E & L & K & _).
  exists c, (with_flag r), (nth 0 c 0). split; [reflexivity|]. cbn [obind]. rewrite E. split; [reflexivity|]. split; [reflexivity|].
  split; [pose proof (nth_abs_le c 2040 0 ltac:(lia) C); lia|]. split; [reflexivity|].
  split; [apply (levels_block_ok Y_after_Y2 q (list_set c 0 0) r L (proj1 F) (proj2 F) (fun _ => eq_refl) K)|].
  intros k Hk. specialize (K k ltac:(lia)). rewrite nth_list_set in K by (subst c; cbn; lia).
  unfold step_of in K. replace (k =? 0)%nat with false in K by lia. exact K.
Qed.

Theorem C61_y2_block :
  forall qi q pass ctx dcs,
  qi_small qi -> make_quantizer qi = Some q -> pass_ok pass -> length dcs = 16%nat -> Forall (fun x => -2040 <= x <= 2040) dcs ->
  exists c b, wht dcs = Some c /\ code_y2 pass ctx q dcs = Some b /\
    length c = 16%nat /\ Forall (fun x => -16320 <= x <= 16320) c /\ block_ok Y2_type b /\
    forall k, (k < 16)%nat -> level_for (nth k c 0) (step_of q Y2_type k) (nth k (fst b) 0).
Proof.
  intros qi q pass ctx dcs Hq Eq Hp L D. pose proof (quantizer_range qi q Hq Eq) as R.
  unfold code_y2. rewrite (wht_formula _ D). cbn [obind].
  set (c := map _ rc16).
  assert (C : Forall (fun x => -16320 <= x <= 16320) c).
  { apply rc16_forall. intros r k. apply forward_wht_range. intros i j. apply coef_range; [lia|exact D]. }
  set (c' := match pass with None => c | Some _ => check_reset_y2 q c end).
  assert (Hc' : c' = c \/ c' = repeat 0 16).
  { unfold c', check_reset_y2. destruct pass; [|left; reflexivity]. destruct (_ && _); [left; reflexivity|]. destruct (_ <? _); auto. }
  assert (C' : Forall (fun x => -16320 <= x <= 16320) c').
  { destruct Hc' as [-> | ->]; [exact C|]. apply Forall_forall. intros x Hx. apply repeat_spec in Hx. lia. }
  assert (L' : length c' = 16%nat) by (destruct Hc' as [-> | ->]; reflexivity).
  assert (F : factor_ok c' (fst (factors q Y2_type)) /\ factor_ok c' (snd (factors q Y2_type))).
  { split; apply factor_ok_y2; try exact C'; cbn; lia. }
  assert (H0 : Y2_type = Y_after_Y2 -> nth 0 c' 0 = 0) by discriminate.
  destruct (quantise_spec pass ctx q Y2_type c' Hp L' (proj1 F) (proj2 F) H0) as (r & E & Lr & K & _).
  exists c, (with_flag r). split; [reflexivity|]. rewrite E. split; [reflexivity|]. split; [reflexivity|]. split; [exact C|].
  split; [apply (levels_block_ok Y2_type q c' r Lr (proj1 F) (proj2 F) H0 K)|].
  intros k Hk. specialize (K k Hk). destruct Hc' as [G|G]; rewrite G in K; [exact K|].
  rewrite nth_repeat in K. unfold level_for in *. rewrite Z.quot_0_l in K; [right; right; cbn in K; tauto|].
  unfold step_of. destruct (k =? 0)%nat; cbn; lia.
Qed.

(** ** What the decoder makes of them *)

Lemma dequantize_spec dc ac c : length c = 16%nat ->
  (forall k, (k < 16)%nat -> -32768 <= nth k c 0 * (if (k =? 0)%nat then dc else ac) <= 32767) ->
  length (dequantize dc ac c) = 16%nat /\
  forall k, (k < 16)%nat -> nth k (dequantize dc ac c) 0 = nth k c 0 * (if (k =? 0)%nat then dc else ac).
Proof.
  intros L H. split.
  - destruct c; [discriminate|]. cbn [dequantize length] in *. rewrite map_length. exact L.
  - intros k Hk. apply (proj2 (C30_dequantize dc ac c L) k Hk). apply H, Hk.
Qed.

Lemma coef_of_nth x i j : coef x i j = nth (4 * i + j) x 0. Proof. reflexivity. Qed.

Lemma forward_coef x i j : (i < 4)%nat -> (j < 4)%nat ->
  coef (map (fun '(r, k) => forward (coef x) r k) rc16) i j = forward (coef x) i j.
Proof.
  intros Hi Hj. unfold coef at 1. rewrite (rc16_nth (forward (coef x))) by lia. f_equal; lia.
Qed.

Lemma error_clamped a b d e : 0 <= a <= 255 -> 0 <= b <= 255 -> Z.abs (d - (a - b)) <= e -> Z.abs (clamp255 (b + d) - a) <= e.
Proof. intros. unfold clamp255. destruct (b + d <? 0) eqn:?; [lia|]. destruct (255 <? b + d) eqn:?; lia. Qed.

(** The residue from coefficients [y] near the transform of the difference. *)
Lemma residue_error a b y e0 e : pixels a -> pixels b -> 0 <= e0 -> 0 <= e -> length y = 16%nat ->
  (forall k, (k < 16)%nat -> -4000 <= nth k y 0 <= 4000) ->
  forall c, subtract_dct a b = Some c ->
  Z.abs (nth 0 y 0 - nth 0 c 0) <= e0 -> (forall k, (0 < k < 16)%nat -> Z.abs (nth k y 0 - nth k c 0) <= e) ->
  exists res, idct_residue y = Some res /\ length res = 16%nat /\
    forall k, (k < 16)%nat -> Z.abs (clamp255 (nth k b 0 + nth k res 0) - nth k a 0) <= (e0 + 15 * e + 21) / 8.
Proof.
  intros Ha Hb He0 He Ly Hy c Ec H0 Hk. destruct (differences_spec a b Ha Hb) as (D & Ld & Dn).
  unfold subtract_dct in Ec. rewrite (fdct_formula _ D) in Ec.
  apply (f_equal (fun o => match o with Some l => l | None => [] end)) in Ec. cbv beta iota in Ec.
  assert (Fc : forall i j, (i < 4)%nat -> (j < 4)%nat -> nth (4 * i + j) c 0 = forward (coef (differences a b)) i j).
  { intros i j Hi Hj. rewrite <- Ec. apply (forward_coef (differences a b) i j Hi Hj). }
  clear Ec.
  assert (Fy : Forall int16_ok y).
  { apply Forall_nth. intros k d K. rewrite (nth_indep _ d 0) by exact K. rewrite Ly in K. specialize (Hy k K). unfold int16_ok. lia. }
  rewrite (idct_formula _ Fy). eexists. split; [reflexivity|]. split; [reflexivity|].
  intros k K. rewrite (rc16_nth (fun r c => (both_ways cosine (coef y) r c + 4) / 8)) by exact K.
  apply error_clamped; [apply (proj1 (Forall_forall _ _) (proj2 Ha)), nth_In; rewrite (proj1 Ha); exact K|
                        apply (proj1 (Forall_forall _ _) (proj2 Hb)), nth_In; rewrite (proj1 Hb); exact K|].
  rewrite <- (Dn k K).
  replace (nth k (differences a b) 0) with (coef (differences a b) (k / 4) (k mod 4)).
  2:{ unfold coef. f_equal. rewrite <- Nat.div_mod; lia. }
  apply inverse_error; try assumption.
  - intros i j. apply coef_range; [lia|exact D].
  - intros i j Hi Hj. apply Hy. lia.
  - rewrite <- Fc by lia. unfold coef. cbn [Nat.mul Nat.add]. lia.
  - intros i j Hi Hj Hn. rewrite <- Fc by lia. unfold coef. assert (0 < 4 * i + j)%nat. { destruct i, j; try lia. congruence. }
    specialize (Hk (4 * i + j)%nat ltac:(lia)). lia.
  - apply Nat.div_lt_upper_bound; lia.
  - apply Nat.mod_upper_bound. lia.
Qed.

(** Without quantisation the two transforms are off by at most two. *)
Theorem C61_transforms :
  forall original prediction, pixels original -> pixels prediction ->
  exists c res, subtract_dct original prediction = Some c /\ idct_residue c = Some res /\
    forall k, (k < 16)%nat -> Z.abs (clamp255 (nth k prediction 0 + nth k res 0) - nth k original 0) <= 2.
Proof.
  intros a b Ha Hb. destruct (differences_spec a b Ha Hb) as (D & Ld & Dn).
  pose proof (fdct_formula _ D) as E. set (c := map _ rc16) in E.
  assert (C : Forall (fun x => -2040 <= x <= 2040) c).
  { apply rc16_forall. intros r k. apply forward_range. intros i j. apply coef_range; [lia|exact D]. }
  destruct (residue_error a b c 0 0 Ha Hb ltac:(lia) ltac:(lia) eq_refl) with (c := c) as (res & Er & _ & K).
  - intros k Hk. pose proof (nth_abs_le c 2040 k ltac:(lia) C). lia.
  - exact E.
  - lia.
  - intros. lia.
  - exists c, res. auto.
Qed.

(** First pass: the picture the decoder builds is near the original, by an
    amount that depends on the quantiser only. *)
Theorem C61_first_pass :
  forall qi q ctx type original prediction,
  qi_small qi -> make_quantizer qi = Some q -> type = Y_without_Y2 \/ type = UV_type ->
  pixels original -> pixels prediction ->
  exists b res, code_block None ctx q type original prediction = Some b /\
    idct_residue (dequant (decoder_factors q type) b) = Some res /\
    forall k, (k < 16)%nat ->
      Z.abs (clamp255 (nth k prediction 0 + nth k res 0) - nth k original 0) <= (fst (decoder_factors q type) + 15 * snd (decoder_factors q type) + 5) / 8.
Proof.
  intros qi q ctx type a b Hq Eq Ht Ha Hb.
  destruct (differences_spec a b Ha Hb) as (D & Ld & _). pose proof (quantizer_range qi q Hq Eq) as R.
  pose proof (fdct_formula _ D) as E. set (c := map _ rc16) in E.
  assert (C : Forall (fun x => -2040 <= x <= 2040) c).
  { apply rc16_forall. intros r k. apply forward_range. intros i j. apply coef_range; [lia|exact D]. }
  assert (F : factor_ok c (fst (factors q type)) /\ factor_ok c (snd (factors q type))).
  { split; apply factor_ok_other; try exact C; destruct Ht as [-> | ->]; cbn; lia. }
  assert (H0 : type = Y_after_Y2 -> nth 0 c 0 = 0) by (intros G; destruct Ht as [Ht|Ht]; rewrite Ht in G; discriminate).
  destruct (quantise_spec None ctx q type c I eq_refl (proj1 F) (proj2 F) H0) as (r & Er & L & _ & K). specialize (K eq_refl).
  unfold code_block, subtract_dct. rewrite E. cbn [obind]. rewrite Er. cbn [obind].
  unfold dequant. cbn [fst with_flag]. unfold step_of in K. change (decoder_factors q type) with (factors q type) in *. destruct (factors q type) as [dc ac]. cbn [fst snd] in *.
  destruct F as [[Fd _] [Fa _]].
  assert (Q : forall k, (k < 16)%nat -> Z.abs (nth k r 0 * (if (k =? 0)%nat then dc else ac)) <= 2040 /\
     Z.abs (nth k r 0 * (if (k =? 0)%nat then dc else ac) - nth k c 0) < (if (k =? 0)%nat then dc else ac)).
  { intros k Hk. rewrite K by exact Hk. pose proof (nth_abs_le c 2040 k ltac:(lia) C).
    destruct (quot_facts (nth k c 0) (if (k =? 0)%nat then dc else ac)) as (A & B & _); [destruct (k =? 0)%nat; lia|].
    clear - A B H. lia. }
  destruct (dequantize_spec dc ac r L) as [Ld' Kd]; [intros k Hk; specialize (Q k Hk); lia|].
  destruct (residue_error a b (dequantize dc ac r) (dc - 1) (ac - 1) Ha Hb ltac:(lia) ltac:(lia) Ld') with (c := c) as (res & Er' & _ & Kr).
  - intros k Hk. rewrite Kd by exact Hk. specialize (Q k Hk). lia.
  - exact E.
  - rewrite Kd by lia. specialize (Q 0%nat ltac:(lia)). cbn [Nat.eqb] in *. lia.
  - intros k Hk. rewrite Kd by lia. specialize (Q k ltac:(lia)). replace (k =? 0)%nat with false in * by lia. lia.
  - exists (with_flag r), res. split; [reflexivity|]. split; [exact Er'|]. intros k Hk. specialize (Kr k Hk).
    replace (dc + 15 * ac + 5) with (dc - 1 + 15 * (ac - 1) + 21) by lia. exact Kr.
Qed.

Lemma omap_map2 {A B C} (f : A -> option (B * C)) (P : A -> B -> C -> Prop) l :
  Forall (fun x => exists b c, f x = Some (b, c) /\ P x b c) l ->
  exists bs cs, omap f l = Some (combine bs cs) /\ length bs = length l /\ length cs = length l /\
    forall i d db dc, (i < length l)%nat -> P (nth i l d) (nth i bs db) (nth i cs dc).
Proof.
  induction l as [|x l IH]; intros H.
  - exists [], []. repeat split. intros. cbn in *. lia.
  - destruct (Forall_inv H) as (b & c & E & Hp). destruct (IH (Forall_inv_tail H)) as (bs & cs & El & Lb & Lc & K).
    exists (b :: bs), (c :: cs). cbn [omap combine]. rewrite E. cbn [obind]. rewrite El. cbn [obind length].
    split; [reflexivity|]. split; [lia|]. split; [lia|]. intros [|i] d db dc Hi; cbn [nth]; [exact Hp|]. apply K. cbn in Hi. lia.
Qed.

(** The same for a luma macroblock with a Y2 block: sixteen blocks whose DC
    coefficients go through the Walsh transform. *)
Theorem C61_first_pass_y2 :
  forall qi q ctx ctx2 originals predictions,
  qi_small qi -> make_quantizer qi = Some q -> length originals = 16%nat -> length predictions = 16%nat ->
  Forall pixels originals -> Forall pixels predictions ->
  exists blocks dcs y2 dcs',
    omap (fun '(a, b) => code_block_y2 None ctx q a b) (combine originals predictions) = Some (combine blocks dcs) /\
    length blocks = 16%nat /\ length dcs = 16%nat /\
    code_y2 None ctx2 q dcs = Some y2 /\ iwht (dequant (y2_factors q) y2) = Some dcs' /\ length dcs' = 16%nat /\
    forall i, (i < 16)%nat -> exists res,
      idct_residue (set_dc (dequant (y_factors q) (nth i blocks fresh_block)) (nth i dcs' 0)) = Some res /\
      forall k, (k < 16)%nat ->
        Z.abs (clamp255 (nth k (nth i predictions []) 0 + nth k res 0) - nth k (nth i originals []) 0)
        <= (2 * Z.max (q_y2_dc q) (q_y2_ac q) + 15 * q_y_ac q + 5) / 8.
Proof.
  intros qi q ctx ctx2 os ps Hq Eq Lo Lp Ho Hp. pose proof (quantizer_range qi q Hq Eq) as R.
  destruct (omap_map2 (fun '(a, b) => code_block_y2 None ctx q a b)
    (fun ab b dc => exists c, subtract_dct (fst ab) (snd ab) = Some c /\ dc = nth 0 c 0 /\ -2040 <= dc <= 2040 /\ length (fst b) = 16%nat /\
       forall k, (0 < k < 16)%nat -> nth k (fst b) 0 = Z.quot (nth k c 0) (q_y_ac q) /\ Z.abs (nth k c 0) <= 2040) (combine os ps))
    as (blocks & dcs & E & Lb & Ld & K).
  { apply Forall_forall. intros [a b] Hin. pose proof (in_combine_l _ _ _ _ Hin) as Ia. pose proof (in_combine_r _ _ _ _ Hin) as Ib.
    pose proof (proj1 (Forall_forall _ _) Ho _ Ia) as Ha. pose proof (proj1 (Forall_forall _ _) Hp _ Ib) as Hb.
    destruct (differences_spec a b Ha Hb) as (D & Ldi & _). pose proof (fdct_formula _ D) as E. set (c := map _ rc16) in E.
    assert (C : Forall (fun x => -2040 <= x <= 2040) c).
    { apply rc16_forall. intros r k. apply forward_range. intros i j. apply coef_range; [lia|exact D]. }
    assert (C0 : Forall (fun x => -2040 <= x <= 2040) (list_set c 0 0)) by (apply list_set_forall; [exact C|lia]).
    assert (F : factor_ok (list_set c 0 0) (fst (factors q Y_after_Y2)) /\ factor_ok (list_set c 0 0) (snd (factors q Y_after_Y2))).
    { split; apply factor_ok_other; try exact C0; cbn; lia. }
    destruct (quantise_spec None ctx q Y_after_Y2 (list_set c 0 0) I eq_refl (proj1 F) (proj2 F) (fun _ => eq_refl)) as (r & Er & Lr & _ & Kr).
    specialize (Kr eq_refl). exists (with_flag r), (nth 0 c 0). unfold code_block_y2, subtract_dct. rewrite E. cbn [obind]. rewrite Er.
    split; [reflexivity|]. exists c. cbn [fst snd]. split; [exact E|]. split; [reflexivity|].
    split; [pose proof (nth_abs_le c 2040 0 ltac:(lia) C); lia|]. split; [exact Lr|].
    intros k Hk. specialize (Kr k ltac:(lia)). rewrite nth_list_set in Kr by (subst c; cbn; lia).
    unfold step_of in Kr. replace (k =? 0)%nat with false in Kr by lia. split; [exact Kr|]. apply nth_abs_le; [lia|exact C]. }
  rewrite combine_length in *. rewrite Lo, Lp, Nat.min_id in *.
  assert (Dr : Forall (fun x => -2040 <= x <= 2040) dcs).
  { apply Forall_nth. intros i d Hi. specialize (K i ([], []) fresh_block d ltac:(lia)). destruct K as (c & _ & _ & G & _). exact G. }
  pose proof (wht_formula _ Dr) as Ew. set (w := map _ rc16) in Ew.
  assert (Cw : Forall (fun x => -16320 <= x <= 16320) w).
  { apply rc16_forall. intros r k. apply forward_wht_range. intros i j. apply coef_range; [lia|exact Dr]. }
  assert (F : factor_ok w (fst (factors q Y2_type)) /\ factor_ok w (snd (factors q Y2_type))).
  { split; apply factor_ok_y2; try exact Cw; cbn; lia. }
  destruct (quantise_spec None ctx2 q Y2_type w I eq_refl (proj1 F) (proj2 F)) as (r2 & Er2 & Lr2 & _ & Kr2); [discriminate|].
  specialize (Kr2 eq_refl). unfold step_of in Kr2. cbn [decoder_factors y2_factors fst snd Z.eqb Y2_type UV_type Pos.eqb] in Kr2.
  change (fst (factors q Y2_type)) with (q_y2_dc q) in *. change (snd (factors q Y2_type)) with (q_y2_ac q) in *.
  assert (Q : forall k, (k < 16)%nat -> Z.abs (nth k r2 0 * (if (k =? 0)%nat then q_y2_dc q else q_y2_ac q)) <= 16320 /\
     Z.abs (nth k r2 0 * (if (k =? 0)%nat then q_y2_dc q else q_y2_ac q) - nth k w 0) <= Z.max (q_y2_dc q) (q_y2_ac q) - 1).
  { intros k Hk. rewrite Kr2 by exact Hk. pose proof (nth_abs_le w 16320 k ltac:(lia) Cw) as H.
    destruct (quot_facts (nth k w 0) (if (k =? 0)%nat then q_y2_dc q else q_y2_ac q)) as (A & B & _); [destruct (k =? 0)%nat; lia|].
    assert ((if (k =? 0)%nat then q_y2_dc q else q_y2_ac q) <= Z.max (q_y2_dc q) (q_y2_ac q)) as M by (destruct (k =? 0)%nat; lia).
    clear - A B H M. lia. }
  destruct (dequantize_spec (q_y2_dc q) (q_y2_ac q) r2 Lr2) as [Ld2 Kd2]; [intros k Hk; specialize (Q k Hk); lia|].
  set (y := dequantize (q_y2_dc q) (q_y2_ac q) r2) in *.
  assert (Fy : Forall int16_ok y).
  { apply Forall_nth. intros k d Hk. rewrite (nth_indep _ d 0) by exact Hk. rewrite Ld2 in Hk. rewrite Kd2 by exact Hk.
    specialize (Q k Hk). unfold int16_ok. lia. }
  exists blocks, dcs, (with_flag r2), (map (fun '(r, c) => s16 ((both_ways hadamard (coef y) r c + 3) / 8)) rc16).
  split; [exact E|]. split; [exact Lb|]. split; [exact Ld|].
  unfold code_y2. rewrite Ew. cbn [obind]. rewrite Er2. cbn [obind]. split; [reflexivity|].
  unfold dequant, y2_factors. cbn [fst snd with_flag]. fold y. rewrite (iwht_formula _ Fy). split; [reflexivity|]. split; [reflexivity|].
  intros i Hi. rewrite (rc16_nth (fun r c => s16 ((both_ways hadamard (coef y) r c + 3) / 8))) by exact Hi.
  assert (We : Z.abs (s16 ((both_ways hadamard (coef y) (i / 4) (i mod 4) + 3) / 8) - nth i dcs 0) <= 2 * (Z.max (q_y2_dc q) (q_y2_ac q) - 1) + 1).
  { replace (nth i dcs 0) with (coef dcs (i / 4) (i mod 4)) by (unfold coef; f_equal; symmetry; apply (Nat.div_mod i 4); lia).
    apply walsh_error; [|lia| | |].
    - intros a b. apply coef_range; [lia|exact Dr].
    - intros a b La Lb'. rewrite (coef_of_nth y a b), Kd2 by lia. specialize (Q (4 * a + b)%nat ltac:(lia)).
      assert (G : nth (4 * a + b) w 0 = forward_wht (coef dcs) a b) by (unfold w; rewrite (rc16_nth (forward_wht (coef dcs))) by lia; f_equal; lia).
      rewrite G in Q. clear - Q. lia.
    - apply (Nat.div_lt_upper_bound i 4 4); [lia|exact Hi].
    - apply Nat.mod_upper_bound. lia. }
  generalize dependent (s16 ((both_ways hadamard (coef y) (i / 4) (i mod 4) + 3) / 8)). intros dc' We. clear y Q Kd2 Ld2 Fy Er2 Kr2 F Cw Ew w.
  specialize (K i ([], []) fresh_block 0 ltac:(lia)). rewrite combine_nth in K by lia. cbn [fst snd] in K.
  destruct K as (c & Ec & Edc & Rdc & Lbi & Kb).
  assert (Ha : pixels (nth i os [])) by (apply (proj1 (Forall_forall _ _) Ho), nth_In; lia).
  assert (Hb : pixels (nth i ps [])) by (apply (proj1 (Forall_forall _ _) Hp), nth_In; lia).
  set (b := nth i blocks fresh_block) in *. unfold dequant, y_factors. cbn [fst snd].
  assert (Q : forall k, (0 < k < 16)%nat -> Z.abs (nth k (fst b) 0 * q_y_ac q) <= 2040 /\ Z.abs (nth k (fst b) 0 * q_y_ac q - nth k c 0) <= q_y_ac q - 1).
  { intros k Hk. destruct (Kb k Hk) as [G1 G2]. rewrite G1. destruct (quot_facts (nth k c 0) (q_y_ac q)) as (A & B & _); [lia|]. clear - A B G2. lia. }
  assert (Y : forall k, (k < 16)%nat -> nth k (set_dc (dequantize (q_y_dc q) (q_y_ac q) (fst b)) dc') 0 = if (k =? 0)%nat then dc' else nth k (fst b) 0 * q_y_ac q).
  { intros k Hk. destruct (fst b) as [|b0 br] eqn:Eb; [discriminate|]. cbn [dequantize set_dc]. destruct k as [|k]; cbn [nth Nat.eqb]; [reflexivity|].
    cbn [length] in Lbi. rewrite (nth_indep _ 0 (s16 (0 * q_y_ac q))) by (rewrite map_length; lia). rewrite (map_nth (fun x => s16 (x * q_y_ac q))).
    apply s16_id. specialize (Q (S k) ltac:(lia)). cbn [nth] in Q. lia. }
  destruct (residue_error (nth i os []) (nth i ps []) (set_dc (dequantize (q_y_dc q) (q_y_ac q) (fst b)) dc')
    (2 * (Z.max (q_y2_dc q) (q_y2_ac q) - 1) + 1) (q_y_ac q - 1) Ha Hb) with (c := c) as (res & Er & _ & Kr).
  - lia.
  - lia.
  - destruct (fst b) as [|b0 br]; [discriminate|]. cbn [dequantize set_dc length] in *. rewrite map_length. exact Lbi.
  - intros k Hk. rewrite Y by exact Hk. destruct (k =? 0)%nat eqn:E0; [lia|]. specialize (Q k ltac:(lia)). lia.
  - exact Ec.
  - rewrite Y by lia. cbn [Nat.eqb]. rewrite <- Edc. exact We.
  - intros k Hk. rewrite Y by lia. replace (k =? 0)%nat with false by lia. apply Q, Hk.
  - exists res. split; [exact Er|]. intros k Hk. specialize (Kr k Hk).
    replace (2 * Z.max (q_y2_dc q) (q_y2_ac q) + 15 * q_y_ac q + 5) with (2 * (Z.max (q_y2_dc q) (q_y2_ac q) - 1) + 1 + 15 * (q_y_ac q - 1) + 21) by lia.
    exact Kr.
Qed.

(** ** Nothing to code *)

Lemma some_eq {A} (x y : A) : Some x = Some y -> x = y.
Proof. congruence. Qed.

Lemma quantise_zero pass ctx q type c r : quantise pass ctx q type c = Some r -> length r = 16%nat ->
  (forall k, (k < 16)%nat -> level_for (nth k c 0) (step_of q type k) (nth k r 0)) ->
  (forall k, (k < 16)%nat -> Z.abs (nth k c 0) < step_of q type k) -> with_flag r = (repeat 0 16, false).
Proof.
  intros _ L K H.
  assert (R : r = repeat 0 16).
  { apply nth_ext_Z; [exact L|]. intros k Hk. rewrite L in Hk. rewrite nth_repeat. specialize (K k Hk). specialize (H k Hk).
    assert (Q : Z.quot (nth k c 0) (step_of q type k) = 0).
    { destruct (quot_facts (nth k c 0) (step_of q type k)) as (A & _); [lia|].
      generalize dependent (Z.quot (nth k c 0) (step_of q type k)). intros v. nia. }
    unfold level_for in K. rewrite Q in K. cbn in K. lia. }
  rewrite R. reflexivity.
Qed.

(** A prediction equal to the picture leaves nothing, in either pass. *)
Theorem C61_equal :
  forall qi q pass ctx type picture,
  qi_small qi -> make_quantizer qi = Some q -> pass_ok pass -> pixels picture ->
  (type = Y_without_Y2 \/ type = UV_type -> code_block pass ctx q type picture picture = Some (repeat 0 16, false)) /\
  code_block_y2 pass ctx q picture picture = Some ((repeat 0 16, false), 0) /\
  code_y2 pass ctx q (repeat 0 16) = Some (repeat 0 16, false).
Proof.
  intros qi q pass ctx type a Hq Eq Hp Ha. pose proof (quantizer_range qi q Hq Eq) as R.
  assert (Dz : differences a a = repeat 0 16).
  { destruct (differences_spec a a Ha Ha) as (_ & L & K). apply nth_ext_Z; [exact L|]. intros k Hk. rewrite L in Hk.
    rewrite K, nth_repeat by exact Hk. lia. }
  assert (Sd : subtract_dct a a = Some (0 :: 1 :: repeat 0 14)).
  { unfold subtract_dct. rewrite Dz. vm_compute. reflexivity. }
  split; [|split].
  - intros Ht. destruct (C61_block qi q pass ctx type a a Hq Eq Hp Ht Ha Ha) as (c & b & Ec & Eb & Lc & _ & Hb & K).
    rewrite Eb. unfold code_block in Eb. rewrite Ec in Eb. cbn [obind] in Eb.
    destruct (quantise pass ctx q type c) as [r|] eqn:Er; [|discriminate]. cbn [obind] in Eb. injection Eb as <-.
    f_equal. apply (quantise_zero pass ctx q type c r Er (proj1 Hb) K).
    intros k Hk. rewrite Sd in Ec. apply some_eq in Ec. subst c.
    assert (4 <= step_of q type k) by (unfold step_of; destruct Ht as [-> | ->]; destruct (k =? 0)%nat; cbn; lia).
    destruct k as [|[|k]]; cbn [nth]; [lia|lia|]. rewrite nth_repeat. lia.
  - destruct (C61_block_under_y2 qi q pass ctx a a Hq Eq Hp Ha Ha) as (c & b & dc & Ec & Eb & Lc & _ & Edc & Hb & K).
    rewrite Eb. unfold code_block_y2 in Eb. rewrite Sd in Ec. apply some_eq in Ec. subst c. rewrite Sd in Eb. cbn [obind] in Eb.
    destruct (quantise pass ctx q Y_after_Y2 _) as [r|] eqn:Er; [|discriminate]. cbn [obind] in Eb. injection Eb as <- Ed.
    cbn [nth] in Ed. subst dc. f_equal. f_equal.
    apply (quantise_zero pass ctx q Y_after_Y2 (0 :: 1 :: repeat 0 14) r).
    + exact Er.
    + exact (proj1 Hb).
    + intros [|k] Hk; [|specialize (K (S k) ltac:(lia)); exact K]. right. right.
      destruct Hb as (_ & _ & _ & Hb). exact (Hb eq_refl).
    + intros k Hk. assert (4 <= step_of q Y_after_Y2 k) by (unfold step_of; destruct (k =? 0)%nat; cbn; lia).
      destruct k as [|[|k]]; cbn [nth]; [lia|lia|]. rewrite nth_repeat. lia.
  - destruct (C61_y2_block qi q pass ctx (repeat 0 16) Hq Eq Hp eq_refl) as (c & b & Ec & Eb & Lc & _ & Hb & K).
    { apply Forall_forall. intros x Hx. apply repeat_spec in Hx. lia. }
    rewrite Eb. assert (Z0 : wht (repeat 0 16) = Some (repeat 0 16)) by (vm_compute; reflexivity). rewrite Z0 in Ec. apply some_eq in Ec. subst c.
    unfold code_y2 in Eb. rewrite Z0 in Eb. cbn [obind] in Eb.
    destruct (quantise pass ctx q Y2_type _) as [r|] eqn:Er; [|discriminate]. cbn [obind] in Eb. injection Eb as <-. f_equal.
    apply (quantise_zero pass ctx q Y2_type (repeat 0 16) r).
    + destruct pass; [|exact Er]. unfold check_reset_y2 in Er. destruct (_ && _); [exact Er|]. destruct (_ <? _); exact Er.
    + exact (proj1 Hb).
    + exact K.
    + intros k Hk. rewrite nth_repeat. unfold step_of. destruct (k =? 0)%nat; cbn; lia.
Qed.

(** ** Examples *)

(** The bound of two is met. *)
Definition worst_original := [20; 221; 172; 194; 0; 0; 169; 0; 0; 0; 0; 251; 0; 221; 172; 194].
Definition worst_prediction := [201; 0; 0; 0; 68; 143; 0; 110; 62; 73; 101; 0; 181; 0; 0; 0].
Example C61_transforms_example :
  (let? c := subtract_dct worst_original worst_prediction in let? res := idct_residue c in
   Some (clamp255 (nth 0 worst_prediction 0 + nth 0 res 0))) = Some 18 /\ nth 0 worst_original 0 = 20 /\
  pixels worst_original /\ pixels worst_prediction.
Proof. split; [vm_compute; reflexivity|]. split; [reflexivity|]. split; (split; [reflexivity|repeat constructor; lia]). Qed.

(** Costs that make non-zero tokens dear: the second pass chooses smaller
    levels and drops the tail. *)
Definition dear : costs := mkCosts (fun _ _ _ t => if t =? EOB_token then 0 else 1000 * t) (fun _ => 0) 300 1.
Definition ramp : list Z := [0; 30; 60; 90; 10; 40; 70; 100; 20; 50; 80; 110; 30; 60; 90; 120].
Definition some_q : Quantizer := mkQ 20 18 31 36 20 18.
Example C61_block_example :
  make_quantizer (mkQI 16 None None None None None) = Some some_q /\
  code_block None 0 some_q Y_without_Y2 ramp (repeat 50 16) = Some ([4; -13; 0; 0; -4; 0; 0; 0; 0; 0; 0; 0; 0; 0; 0; 0], true) /\
  code_block (Some dear) 0 some_q Y_without_Y2 ramp (repeat 50 16) = Some ([3; -13; 0; 0; -3; 0; 0; 0; 0; 0; 0; 0; 0; 0; 0; 0], true).
Proof. vm_compute. auto. Qed.
Example C61_hypotheses_example :
  qi_small (mkQI 16 None None None None None) /\ pass_ok (Some dear) /\ pixels ramp /\ pixels (repeat 50 16).
Proof.
  split; [split; cbn; [lia|intros d H; intuition discriminate]|]. split; [cbn; lia|].
  split; (split; [reflexivity|repeat constructor; lia]).
Qed.

(** Under a Y2 block. *)
Example C61_y2_example :
  code_block_y2 None 0 some_q ramp (repeat 50 16) = Some (([0; -13; 0; 0; -4; 0; 0; 0; 0; 0; 0; 0; 0; 0; 0; 0], true), 80) /\
  code_y2 None 0 some_q (repeat 80 16) = Some ([17; 0; 0; 0; 0; 0; 0; 0; 0; 0; 0; 0; 0; 0; 0; 0], true) /\
  iwht (dequant (y2_factors some_q) ([17; 0; 0; 0; 0; 0; 0; 0; 0; 0; 0; 0; 0; 0; 0; 0], true)) = Some (repeat 76 16).
Proof. vm_compute. auto. Qed.

Print Assumptions C61_block.
Print Assumptions C61_block_under_y2.
Print Assumptions C61_y2_block.
Print Assumptions C61_transforms.
Print Assumptions C61_first_pass.
Print Assumptions C61_first_pass_y2.
Print Assumptions C61_equal.
