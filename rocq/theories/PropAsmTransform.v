(** C70: the assembled transforms against the portable ones. *)
From Verif Require Import Base HeaderModel MVModel FrameModel RasterModel RasterProofs TransformModel QuantModel ResidueModel.
From Verif Require Import PropQuant PropTransform ResidueProofs PropResidue VarianceModel SimdModel AsmTransformModel.
From Verif Require Import SimdProofs AsmTransformProofs AsmForwardProofs AsmSubtractProofs.

Lemma array16_int16 : forall m s o st n, Forall int16_ok (array16 m s o st n).
Proof.
  intros. apply Forall_forall. intros x Ix. unfold array16 in Ix. apply in_map_iff in Ix as (j & <- & _).
  unfold peek16, word. apply PropTransform.s16_range.
Qed.

(** In thirteen bits. *)
Definition fits13 (x : Z) : Prop := -4096 <= x <= 4095.
Lemma s13_fits : forall x, s13 x = x <-> fits13 x.
Proof. intros. unfold s13, fits13. lia. Qed.
Lemma s13_map : forall l, map s13 l = l <-> Forall fits13 l.
Proof.
  induction l as [|x l IH]; cbn [map]; [split; [constructor|reflexivity]|]. split.
  - intros E. injection E as E1 E2. constructor; [apply s13_fits, E1|apply IH, E2].
  - intros F. f_equal; [apply s13_fits, (Forall_inv F)|apply IH, (Forall_inv_tail F)].
Qed.

(** The inverse Walsh transform.  Two 16-byte loads, so the input has to be
    aligned; every result is the portable one cut to 13 bits. *)
Theorem C70_iwalsh :
  forall L m i io o oo,
  0 <= io -> io + 32 <= extent L i -> (base L i + io) mod 16 = 0 ->
  0 <= oo -> oo + 482 <= extent L o ->
  exists m' out, call 1 L [Ptr i io; Ptr o oo] iwalsh m = Some m' /\
    iwht (array16 m i io 2 16) = Some out /\
    array16 m' o oo 32 16 = map s13 out /\
    forall s a, (forall j, 0 <= j < 16 -> s = o -> oo + 32 * j <= a < oo + 32 * j + 2 -> False) -> m' s a = m s a.
Proof.
  intros L m i io o oo I0 I1 Al O0 O1.
  eexists _, _. split; [apply iwalsh_call; assumption|].
  split; [apply iwht_formula, array16_int16|]. split.
  - rewrite iwalsh_result, map_map. apply map_ext. intros [r k]. unfold iwalsh_lane.
    apply s13_div. reflexivity.
  - intros s a N. apply put16_out. intros p Ip. unfold iwalsh_puts in Ip. apply in_map_iff in Ip as ([r k] & <- & J). cbn [fst].
    destruct (Nat.eq_dec s o) as [->|]; [right|left; assumption].
    assert (B : (r < 4 /\ k < 4)%nat).
    { unfold iwalsh_order in J. repeat (destruct J as [J|J]; [apply pair_equal_spec in J as [<- <-]; lia|]). destruct J. }
    specialize (N (Z.of_nat (4 * r + k))). destruct (Z_lt_dec a (oo + 32 * Z.of_nat (4 * r + k))); [left; lia|].
    destruct (Z_le_dec (oo + 32 * Z.of_nat (4 * r + k) + 2) a); [right; lia|]. exfalso. apply N; lia.
Qed.

Theorem C70_iwalsh_agrees :
  forall L m i io o oo m' out,
  0 <= io -> io + 32 <= extent L i -> (base L i + io) mod 16 = 0 ->
  0 <= oo -> oo + 482 <= extent L o ->
  call 1 L [Ptr i io; Ptr o oo] iwalsh m = Some m' -> iwht (array16 m i io 2 16) = Some out ->
  (array16 m' o oo 32 16 = out <-> Forall fits13 out).
Proof.
  intros L m i io o oo m' out I0 I1 Al O0 O1 E F.
  destruct (C70_iwalsh L m i io o oo I0 I1 Al O0 O1) as (m1 & out1 & E1 & F1 & A & _).
  rewrite E in E1. apply some_eq in E1. rewrite F in F1. apply some_eq in F1. subst m1 out1.
  rewrite A. apply s13_map.
Qed.

Lemma coef_bound : forall c B, 0 <= B -> Forall (fun x => -B <= x <= B) c -> forall r k, -B <= coef c r k <= B.
Proof. intros c B HB F r k. apply (coef_range (fun z => -B <= z <= B)); [lia|exact F]. Qed.

Lemma hadamard_bound : forall f B i, (forall j, -B <= f j <= B) -> -(4 * B) <= hadamard i f <= 4 * B.
Proof.
  intros f B i H. pose proof (H 0%nat). pose proof (H 1%nat). pose proof (H 2%nat). pose proof (H 3%nat).
  unfold hadamard. destruct i as [|[|[|[|]]]]; lia.
Qed.

Theorem C70_iwalsh_small :
  forall L m i io o oo,
  0 <= io -> io + 32 <= extent L i -> (base L i + io) mod 16 = 0 ->
  0 <= oo -> oo + 482 <= extent L o ->
  Forall (fun x => -2047 <= x <= 2047) (array16 m i io 2 16) ->
  exists m', call 1 L [Ptr i io; Ptr o oo] iwalsh m = Some m' /\
    iwht (array16 m i io 2 16) = Some (array16 m' o oo 32 16).
Proof.
  intros L m i io o oo I0 I1 Al O0 O1 F.
  destruct (C70_iwalsh L m i io o oo I0 I1 Al O0 O1) as (m1 & out & E1 & F1 & A & _).
  exists m1. split; [exact E1|]. rewrite F1, A. f_equal. symmetry. apply s13_map.
  rewrite iwht_formula in F1 by apply array16_int16. apply some_eq in F1. subst out.
  apply rc16_forall. intros r k.
  pose proof (coef_bound _ 2047 ltac:(lia) F) as C. unfold both_ways, fits13.
  match goal with |- context [hadamard k ?f] => assert (-32752 <= hadamard k f <= 32752) as Hb end.
  { apply (hadamard_bound _ 8188). intros j.
    match goal with |- context [hadamard r ?g] => pose proof (hadamard_bound g 2047 r ltac:(intros; apply C)) as G; generalize dependent (hadamard r g) end.
    intros z Hz. unfold s16. lia. }
  match type of Hb with context [hadamard k ?f] => generalize dependent (hadamard k f) end.
  intros z Hz. unfold s16. lia.
Qed.

Theorem C70_iwalsh_misaligned :
  forall L m i io o oo,
  0 <= io -> io + 32 <= extent L i -> (base L i + io) mod 16 <> 0 ->
  call 1 L [Ptr i io; Ptr o oo] iwalsh m = None.
Proof.
  intros L m i io o oo I0 I1 Al.
  unfold call, call_from, iwalsh. cbn [run_blocks].
  rewrite (run_app _ _ [_;_;_;_;_]).
  do 3 vstep ltac:(side).
  rewrite run_cons. cbn [exec].
  match goal with |- context [source ?l ?s ?x] => assert (source l s x = None) as -> end; [|reflexivity].
  transitivity (obind (load L true 16 m (Ptr i (io + 0))) (fun l => Some (Vb (l ++ repeat 0 (16 - 16))))); [reflexivity|].
  rewrite load_misaligned by (rewrite Z.add_0_r; exact Al). reflexivity.
Qed.

(** Agreement without a condition would be false: one DC coefficient of
    32764 gives 4095 from both, 32765 gives 4096 and -4096. *)
Definition mem_of (l : list Z) (rest : Z) : nat -> Z -> Z :=
  fun s a => match s with 0%nat => nth (Z.to_nat a) l 0 | _ => rest end.
Definition wide : layout := mkLayout (fun _ => 600) (fun _ => 0).
Theorem C70_iwalsh_refuted :
  ~ forall L m i io o oo,
    0 <= io -> io + 32 <= extent L i -> (base L i + io) mod 16 = 0 ->
    0 <= oo -> oo + 482 <= extent L o ->
    exists m', call 1 L [Ptr i io; Ptr o oo] iwalsh m = Some m' /\
      iwht (array16 m i io 2 16) = Some (array16 m' o oo 32 16).
Proof.
  intros H.
  assert (W : iwht (array16 (mem_of [253; 127] 0) 0 0 2 16) = Some (repeat 4096 16)) by (vm_compute; reflexivity).
  revert W. set (m := mem_of [253; 127] 0). intros W.
  assert (W0 : 0 <= 0) by lia. assert (W1 : 0 + 32 <= extent wide 0) by (cbn; lia).
  assert (W2 : (base wide 0 + 0) mod 16 = 0) by reflexivity. assert (W3 : 0 + 482 <= extent wide 1) by (cbn; lia).
  destruct (H wide m 0%nat 0 1%nat 0 W0 W1 W2 W0 W3) as (m' & E & F).
  pose proof (C70_iwalsh_agrees wide m 0 0 1 0 m' _ W0 W1 W2 W0 W3 E F) as [G _].
  rewrite F in W. apply some_eq in W. rewrite W in G.
  pose proof (Forall_inv (G eq_refl)) as B. unfold fits13 in B. lia.
Qed.

(** The inverse cosine transform, called by transform.cc l.95 with the same
    place as prediction and destination. *)
Lemma clamp255_max : forall x, clamp255 x = Z.max 0 (Z.min 255 x).
Proof. intros. unfold clamp255. destruct (x <? 0) eqn:?, (255 <? x) eqn:?; lia. Qed.

Theorem C70_idct :
  forall L m i io d o st,
  bytes_ok m -> 0 <= io -> io + 32 <= extent L i -> 4 <= st -> 0 <= o -> o + 3 * st + 4 <= extent L d ->
  exists m' res, call 1 L [Ptr i io; Ptr d o; Int st; Ptr d o; Int st] idctllm m = Some m' /\
    idct_residue (array16 m i io 2 16) = Some res /\
    (forall r k, (r < 4)%nat -> (k < 4)%nat ->
      let a := o + Z.of_nat r * st + Z.of_nat k in
      m' d a = Z.max 0 (Z.min 255 (m d a + s13 (coef res r k)))) /\
    (forall s a, (forall r k, 0 <= r < 4 -> 0 <= k < 4 -> s = d -> a = o + r * st + k -> False) -> m' s a = m s a).
Proof.
  intros L m i io d o st Bm I0 I1 St O0 O1.
  destruct (idct_call L m i io d o st Bm I0 I1 St O0 O1) as (m' & E & In_ & Out).
  destruct (C31_idct (array16 m i io 2 16) eq_refl (array16_int16 _ _ _ _ _)) as (res & F & _ & _ & G).
  exists m', res. split; [exact E|]. split; [exact F|]. split; [|exact Out].
  intros r k Hr Hk a. unfold a. rewrite In_, clamp255_max, G by assumption. do 3 f_equal.
  unfold idct_lane, s16, s13. generalize (both_ways cosine (coef (array16 m i io 2 16)) r k). intros. lia.
Qed.

(** A plane stored row by row in segment [d], with its width as the stride. *)
Definition holds (m : nat -> Z -> Z) (d : nat) (p : plane) : Prop :=
  forall x y, inside p x y = true -> m d (y * pl_w p + x) = at_px p x y.

Theorem C70_idct_add :
  forall L m i io d p x0 y0 res,
  bytes_ok m -> plane_ok p -> holds m d p -> pl_w p * pl_h p <= extent L d ->
  0 <= io -> io + 32 <= extent L i ->
  0 <= x0 -> 0 <= y0 -> x0 + 4 <= pl_w p -> y0 + 4 <= pl_h p ->
  idct_residue (array16 m i io 2 16) = Some res -> Forall fits13 res ->
  let o := y0 * pl_w p + x0 in
  exists m' p', call 1 L [Ptr i io; Ptr d o; Int (pl_w p); Ptr d o; Int (pl_w p)] idctllm m = Some m' /\
    idct_add x0 y0 (array16 m i io 2 16) p = Some p' /\ holds m' d p'.
Proof.
  intros L m i io d p x0 y0 res Bm Pk Hm Ex I0 I1 X0 Y0 X4 Y4 F Fit o.
  destruct (C70_idct L m i io d o (pl_w p) Bm I0 I1) as (m' & res1 & E & F1 & In_ & Out); [lia|unfold o; nia|unfold o; nia|].
  rewrite F in F1. apply some_eq in F1. subst res1.
  destruct (C31_idct_add p x0 y0 (array16 m i io 2 16) Pk eq_refl (array16_int16 _ _ _ _ _) X0 Y0 X4 Y4) as (p' & E' & Ok' & Sd & At).
  exists m', p'. split; [exact E|]. split; [exact E'|].
  intros x y In'. rewrite (inside_dims _ p) in In' by exact Sd. rewrite At by exact In'.
  destruct Sd as [Sw Sh]. rewrite Sw.
  destruct ((x0 <=? x) && (x <? x0 + 4) && (y0 <=? y) && (y <? y0 + 4)) eqn:C.
  - apply andb_true_iff in C as [C C4]. apply andb_true_iff in C as [C C3]. apply andb_true_iff in C as [C1 C2].
    specialize (In_ (Z.to_nat (y - y0)) (Z.to_nat (x - x0)) ltac:(lia) ltac:(lia)). cbn zeta in In_.
    replace (o + Z.of_nat (Z.to_nat (y - y0)) * pl_w p + Z.of_nat (Z.to_nat (x - x0))) with (y * pl_w p + x) in In_ by (unfold o; rewrite !Z2Nat.id by lia; ring).
    rewrite In_, Hm by exact In'. do 3 f_equal.
    destruct (C31_idct (array16 m i io 2 16) eq_refl (array16_int16 _ _ _ _ _)) as (res1 & F1 & _ & _ & G).
    rewrite F in F1. apply some_eq in F1. subst res1. rewrite <- G by lia. apply s13_fits.
    apply (coef_range fits13); [unfold fits13; lia|exact Fit].
  - rewrite Out; [apply Hm, In'|]. intros r k Hr Hk _ Ea. unfold o in Ea. unfold inside in In'.
    assert (y = y0 + r /\ x = x0 + k); [|lia].
    assert (y = y0 + r) as -> by nia. lia.
Qed.

(** Small coefficients fit: both codes do the same. *)
Lemma cosine_bound : forall f i, (forall j, -2047 <= f j <= 2047) -> -8100 <= cosine i f <= 8100.
Proof.
  intros f i H. pose proof (H 0%nat). pose proof (H 1%nat). pose proof (H 2%nat). pose proof (H 3%nat).
  unfold cosine, cos_part, sin_part. destruct i as [|[|[|[|]]]]; lia.
Qed.
Lemma cosine_bound2 : forall f i, (forall j, -8100 <= f j <= 8100) -> -32000 <= cosine i f <= 32000.
Proof.
  intros f i H. pose proof (H 0%nat). pose proof (H 1%nat). pose proof (H 2%nat). pose proof (H 3%nat).
  unfold cosine, cos_part, sin_part. destruct i as [|[|[|[|]]]]; lia.
Qed.
Theorem C70_idct_small :
  forall c, length c = 16%nat -> Forall (fun x => -2047 <= x <= 2047) c ->
  exists res, idct_residue c = Some res /\ Forall fits13 res.
Proof.
  intros c Hl F. rewrite idct_formula by (eapply Forall_impl; [|exact F]; unfold int16_ok; cbn beta; intros; lia).
  eexists. split; [reflexivity|]. apply rc16_forall. intros r k.
  pose proof (coef_bound _ 2047 ltac:(lia) F) as C. unfold both_ways, fits13.
  match goal with |- context [cosine k ?f] => assert (-32000 <= cosine k f <= 32000) as Hb end.
  { apply cosine_bound2. intros j.
    match goal with |- context [cosine r ?g] => pose proof (cosine_bound g r ltac:(intros; apply C)) as G; generalize dependent (cosine r g) end.
    intros z Hz. unfold s16. lia. }
  match type of Hb with context [cosine k ?f] => generalize dependent (cosine k f) end.
  intros z Hz. lia.
Qed.

Lemma nth_repeat_lt : forall (x d : Z) n k, (k < n)%nat -> nth k (repeat x n) d = x.
Proof. intros x d. induction n as [|n IH]; intros [|k] Hk; cbn; [lia|lia|reflexivity|]. apply IH. lia. Qed.

(** 43 is a step of the DC table, and 43 * 762 = 32766: a coded DC coefficient
    of 762.  On a grey block the portable code gives white, the assembled one
    black. *)
Theorem C70_idct_refuted :
  exists L m dc level p0 m' p',
    In dc dc_qlookup /\ 0 <= level <= 2047 /\ bytes_ok m /\
    p0 = mkPlane 4 4 (repeat 128 16) /\ holds m 1 p0 /\
    dequantize dc dc (level :: repeat 0 15) = array16 m 0 0 2 16 /\
    call 1 L [Ptr 0 0; Ptr 1 0; Int 4; Ptr 1 0; Int 4] idctllm m = Some m' /\
    idct_add 0 0 (array16 m 0 0 2 16) p0 = Some p' /\
    (forall x y, inside p0 x y = true -> at_px p' x y = 255 /\ m' 1%nat (y * 4 + x) = 0).
Proof.
  set (m := mem_of [254; 127] 128).
  assert (Bm : bytes_ok m).
  { intros s a. unfold m, mem_of. destruct s; [|lia].
    destruct (nth_in_or_default (Z.to_nat a) [254; 127] 0) as [[<-|[<-|[]]]| ->]; lia. }
  assert (A : array16 m 0 0 2 16 = 32766 :: repeat 0 15) by (vm_compute; reflexivity).
  destruct (C70_idct wide m 0 0 1 0 4 Bm) as (m' & res & E & F & I_ & _); try (cbn; lia).
  rewrite A in F. rewrite (proj1 (C31_dc_only 32766 ltac:(unfold int16_ok; lia))) in F. apply some_eq in F. subst res.
  assert (Q : idct_add 0 0 (array16 m 0 0 2 16) (mkPlane 4 4 (repeat 128 16)) = Some (mkPlane 4 4 (repeat 255 16))) by (rewrite A; vm_compute; reflexivity).
  exists wide, m, 43, 762, (mkPlane 4 4 (repeat 128 16)), m', (mkPlane 4 4 (repeat 255 16)).
  split; [vm_compute; tauto|]. split; [lia|]. split; [exact Bm|]. split; [reflexivity|]. split.
  { intros x y J. unfold inside in J. cbn [pl_w pl_h] in J. unfold at_px, pix_index, m, mem_of. cbn [pl_w pl_px].
    symmetry. apply (nth_repeat_lt); lia. }
  split; [rewrite A; reflexivity|]. split; [exact E|]. split; [exact Q|].
  intros x y J. unfold inside in J. cbn [pl_w pl_h] in J. split.
  - unfold at_px, pix_index. cbn [pl_w pl_px]. apply (nth_repeat_lt); lia.
  - specialize (I_ (Z.to_nat y) (Z.to_nat x) ltac:(lia) ltac:(lia)). cbn zeta in I_.
    replace (0 + Z.of_nat (Z.to_nat y) * 4 + Z.of_nat (Z.to_nat x)) with (y * 4 + x) in I_ by lia.
    rewrite I_. unfold coef. rewrite nth_repeat_lt by lia. reflexivity.
Qed.

(** The encoder's transforms.  The inputs are the sixteen DC coefficients of
    the cosine transforms (at most 2040, C61), and differences of pixels; the
    output is stored with two aligned 16-byte stores. *)
Lemma poke_two : forall m o oo l1 l2 s a, zlen l1 = 16 -> zlen l2 = 16 ->
  (s <> o \/ a < oo \/ oo + 32 <= a) -> poke (poke m o oo l1) o (oo + 16) l2 s a = m s a.
Proof. intros. rewrite poke_out by lia. apply poke_out. lia. Qed.

Lemma map_s16_id : forall l, Forall (fun x => -32768 <= x <= 32767) l -> map s16 l = l.
Proof. induction 1 as [|x l Hx Hl IH]; cbn [map]; [reflexivity|]. f_equal; [apply s16_id; exact Hx|exact IH]. Qed.

Theorem C70_fwalsh :
  forall L m i io o oo,
  0 <= io -> io + 32 <= extent L i -> 0 <= oo -> oo + 32 <= extent L o -> (base L o + oo) mod 16 = 0 ->
  Forall (fun z => -2040 <= z <= 2040) (array16 m i io 2 16) ->
  exists m', call 1 L [Ptr i io; Ptr o oo; Int 8] fwalsh m = Some m' /\
    wht (array16 m i io 2 16) = Some (array16 m' o oo 2 16) /\
    forall s a, (s <> o \/ a < oo \/ oo + 32 <= a) -> m' s a = m s a.
Proof.
  intros L m i io o oo I0 I1 O0 O1 Al F.
  pose proof (fwalsh_call L m i io o oo I0 I1 O0 O1 Al F) as E. cbn zeta in E.
  eexists. split; [exact E|]. split.
  - rewrite array16_two by reflexivity. rewrite wht_formula by exact F. f_equal.
    set (x := array16 m i io 2 16) in *.
    transitivity (map s16 (map (fun '(r, k) => forward_wht (coef x) r k) rc16)); [|reflexivity].
    symmetry. apply map_s16_id, rc16_forall. intros r k.
    pose proof (forward_wht_range (coef x) r k (coef_bound x 2040 ltac:(lia) F)). lia.
  - intros s a N. apply poke_two; [reflexivity|reflexivity|exact N].
Qed.

Theorem C70_fdct :
  forall L m i io o oo,
  0 <= io -> io + 32 <= extent L i -> 0 <= oo -> oo + 32 <= extent L o -> (base L o + oo) mod 16 = 0 ->
  Forall (fun z => -255 <= z <= 255) (array16 m i io 2 16) ->
  exists m', call 1 L [Ptr i io; Ptr o oo; Int 8] fdct4x4 m = Some m' /\
    fdct (array16 m i io 2 16) = Some (array16 m' o oo 2 16) /\
    forall s a, (s <> o \/ a < oo \/ oo + 32 <= a) -> m' s a = m s a.
Proof.
  intros L m i io o oo I0 I1 O0 O1 Al F.
  pose proof (fdct_call L m i io o oo I0 I1 O0 O1 Al F) as E. cbn zeta in E.
  eexists. split; [exact E|]. split.
  - rewrite array16_two by reflexivity. rewrite fdct_formula by exact F. f_equal.
    set (x := array16 m i io 2 16) in *.
    transitivity (map s16 (map (fun '(r, k) => forward (coef x) r k) rc16)); [|reflexivity].
    symmetry. apply map_s16_id, rc16_forall. intros r k.
    pose proof (forward_range (coef x) r k (coef_bound x 255 ltac:(lia) F)). lia.
  - intros s a N. apply poke_two; [reflexivity|reflexivity|exact N].
Qed.

(** The sixteen bytes of a 4x4 block in memory, row by row. *)
Definition block4 (m : nat -> Z -> Z) (s : nat) (o stride : Z) : list Z :=
  flat_map (fun r => map (fun k => m s (o + r * stride + k)) [0; 1; 2; 3]) [0; 1; 2; 3].

(** The subtraction never initialises the MMX register it unpacks with
    (subtract_sse2.asm l.25 clears the SSE register of the same number):
    whatever it holds, the result is the same. *)
Theorem C70_subtract :
  forall L m g d o s so ss p po ps,
  length g = 8%nat -> bytes_ok m -> s <> d -> p <> d ->
  0 <= o -> o + 32 <= extent L d ->
  0 <= ss -> 0 <= so -> so + 3 * ss + 4 <= extent L s ->
  0 <= ps -> 0 <= po -> po + 3 * ps + 4 <= extent L p ->
  exists m', call_from (set_v (start m) (mm 7) (Vb g)) 2 L
      [Int 4; Int 4; Ptr d o; Int 4; Ptr s so; Int ss; Ptr p po; Int ps] subtract4 = Some m' /\
    array16 m' d o 2 16 = ResidueModel.differences (block4 m s so ss) (block4 m p po ps) /\
    forall t a, (t <> d \/ a < o \/ o + 32 <= a) -> m' t a = m t a.
Proof.
  intros L m g d o s so ss p po ps Lg Bm Sd Pd O0 O1 SS S0 S1 PS P0 P1.
  do 8 (destruct g as [|?x g]; [discriminate|]). destruct g; [|discriminate].
  pose proof (subtract4_call L m x x0 x1 x2 x3 x4 x5 x6 d o s so ss p po ps Bm Sd Pd O0 O1 SS S0 S1 PS P0 P1) as E. cbn zeta in E.
  eexists. split; [exact E|]. split.
  - rewrite subtract4_result by reflexivity. reflexivity.
  - intros t a N. rewrite !poke_out by (cbn; lia). reflexivity.
Qed.

(** dct.cc l.52-57: the subtraction into an array, then the transform of it. *)
Lemma block4_pixels : forall m s o st, bytes_ok m -> PropResidue.pixels (block4 m s o st).
Proof.
  intros m s o st B. split; [reflexivity|]. apply Forall_forall. intros x I_. unfold block4 in I_.
  apply in_flat_map in I_ as (r & _ & I_). apply in_map_iff in I_ as (k & <- & _). specialize (B s (o + r * st + k)). lia.
Qed.
Theorem C70_subtract_dct :
  forall L m g d o s so ss p po ps c co,
  length g = 8%nat -> bytes_ok m -> s <> d -> p <> d ->
  0 <= o -> o + 32 <= extent L d ->
  0 <= ss -> 0 <= so -> so + 3 * ss + 4 <= extent L s ->
  0 <= ps -> 0 <= po -> po + 3 * ps + 4 <= extent L p ->
  0 <= co -> co + 32 <= extent L c -> (base L c + co) mod 16 = 0 ->
  exists m1 m2,
    call_from (set_v (start m) (mm 7) (Vb g)) 2 L
      [Int 4; Int 4; Ptr d o; Int 4; Ptr s so; Int ss; Ptr p po; Int ps] subtract4 = Some m1 /\
    call 1 L [Ptr d o; Ptr c co; Int 8] fdct4x4 m1 = Some m2 /\
    subtract_dct (block4 m s so ss) (block4 m p po ps) = Some (array16 m2 c co 2 16).
Proof.
  intros L m g d o s so ss p po ps c co Lg Bm Sd Pd O0 O1 SS S0 S1 PS P0 P1 C0 C1 Al.
  destruct (C70_subtract L m g d o s so ss p po ps Lg Bm Sd Pd O0 O1 SS S0 S1 PS P0 P1) as (m1 & E1 & A1 & _).
  destruct (differences_spec _ _ (block4_pixels m s so ss Bm) (block4_pixels m p po ps Bm)) as (Rg & _ & _).
  rewrite <- A1 in Rg.
  destruct (C70_fdct L m1 d o c co O0 O1 C0 C1 Al Rg) as (m2 & E2 & F2 & _).
  exists m1, m2. split; [exact E1|]. split; [exact E2|]. unfold subtract_dct. rewrite <- A1. exact F2.
Qed.

(** Multiplication by the factors: they are unsigned, the instruction's
    operands signed, and the low half of the product does not care. *)
Theorem C70_dequantize :
  forall L m first second i io o oo,
  0 <= io -> io + 32 <= extent L i -> 0 <= oo -> oo + 32 <= extent L o -> (base L o + oo) mod 16 = 0 ->
  exists m', call 1 L [Ptr i io; Ptr o oo] (dequantize_sse2 first second) m = Some m' /\
    array16 m' o oo 2 16 = dequantize first second (array16 m i io 2 16) /\
    forall s a, (s <> o \/ a < oo \/ oo + 32 <= a) -> m' s a = m s a.
Proof.
  intros L m first second i io o oo I0 I1 O0 O1 Al.
  pose proof (dequantize_call L m first second i io o oo I0 I1 O0 O1 Al) as E. cbn zeta in E.
  assert (Q : dequant_lanes first second (array16 m i io 2 16) = dequantize first second (array16 m i io 2 16)).
  { assert (M : forall x q, s16 (x * s16 q) = s16 (x * q)).
    { intros x q. destruct (s16_ex q) as [k ->]. apply s16_cong. replace (x * (q + 65536 * k) - x * q) with (x * k * 65536) by ring. apply Z.mod_mul. lia. }
    unfold dequant_lanes, dequantize. destruct (array16 m i io 2 16) as [|x t]; [reflexivity|].
    rewrite M. f_equal. apply map_ext. intros y. apply M. }
  eexists. split; [exact E|]. split.
  - rewrite array16_two by reflexivity. rewrite firstn_skipn, Q.
    apply map_s16_id. unfold dequantize, array16. cbn [seq map].
    repeat constructor; apply PropTransform.s16_range.
  - intros s a N. apply poke_two; [reflexivity|reflexivity|exact N].
Qed.

(** * Examples *)

Definition words (l : list Z) : list Z := flat_map (fun w => [w mod 256; (w / 256) mod 256]) l.
Definition example_coefs : list Z := [300; -20; 15; 7; -31; 8; 90; 4; 100; -3; 8; 9; 0; 1; -400; 12].
Definition example_mem : nat -> Z -> Z :=
  fun s a => match s with 0%nat => nth (Z.to_nat a) (words example_coefs) 7 | 1%nat => 10 + a mod 97 | _ => 99 end.

Example C70_example_iwalsh :
  option_map (fun m => array16 m 2 0 32 16) (call 1 wide [Ptr 0 0; Ptr 2 0] iwalsh example_mem) = iwht example_coefs /\
  iwht example_coefs = Some [12; 76; 88; 8; 81; -41; -41; 86; -34; 85; 93; -29; 91; 8; 16; 99] /\
  option_map (fun m => array16 m 2 0 32 16) (call 1 wide [Ptr 0 2; Ptr 2 0] iwalsh example_mem) = None.
Proof. repeat split; vm_compute; reflexivity. Qed.
Example C70_example_idct :
  option_map (fun m => map (m 1%nat) [0; 1; 2; 3; 4; 20; 21; 22; 23; 24])
    (call 1 wide [Ptr 0 0; Ptr 1 0; Int 20; Ptr 1 0; Int 20] idctllm example_mem) = Some [45; 60; 72; 49; 14; 122; 0; 0; 132; 34] /\
  option_map (firstn 8) (idct_residue example_coefs) = Some [35; 49; 60; 36; 92; -48; -51; 99].
Proof. repeat split; vm_compute; reflexivity. Qed.
Example C70_example_forward :
  obind (call_from (set_v (start example_mem) (mm 7) (Vb [9; 200; 3; 4; 5; 66; 7; 8])) 2 wide
      [Int 4; Int 4; Ptr 2 0; Int 4; Ptr 1 3; Int 20; Ptr 1 90; Int 33] subtract4)
    (fun m1 => option_map (fun m2 => (array16 m1 2 0 2 16, array16 m2 3 0 2 16)) (call 1 wide [Ptr 2 0; Ptr 3 0; Int 8] fdct4x4 m1)) =
  Some ([-87; -87; -87; -87; -3; -3; -3; -3; -16; -16; -16; -16; -29; -29; -29; -29],
        [-270; 1; 0; 0; -137; 0; 0; 0; -194; 0; 0; 0; -96; 0; 0; 0]) /\
  option_map (fun m => array16 m 2 0 2 16) (call 1 wide [Ptr 0 0; Ptr 2 0; Int 8] fwalsh example_mem) =
  Some [50; 305; 351; 32; 323; -164; -164; 343; -135; 342; 372; -117; 366; 33; 65; 398] /\
  option_map (fun m => firstn 4 (array16 m 2 0 2 16)) (call 1 wide [Ptr 0 0; Ptr 2 0] (dequantize_sse2 157 284) example_mem) =
  Some [-18436; -5680; 4260; 1988].
Proof. repeat split; vm_compute; reflexivity. Qed.

Print Assumptions C70_iwalsh.
Print Assumptions C70_iwalsh_agrees.
Print Assumptions C70_iwalsh_small.
Print Assumptions C70_iwalsh_misaligned.
Print Assumptions C70_iwalsh_refuted.
Print Assumptions C70_idct.
Print Assumptions C70_idct_add.
Print Assumptions C70_idct_small.
Print Assumptions C70_idct_refuted.
Print Assumptions C70_fwalsh.
Print Assumptions C70_fdct.
Print Assumptions C70_subtract.
Print Assumptions C70_subtract_dct.
Print Assumptions C70_dequantize.
