(** Symbolic execution of the assembled intra predictors. *)
From Verif Require Import Base TreeModel MVModel FrameModel RasterModel PredictModel VarianceModel SimdModel AsmIntraModel.
From Verif Require Import SimdProofs AsmTransformProofs.

(** * Rows in memory *)

(** The rows listed in [rs] hold [f], nothing else differs from [m0]. *)
Definition laid (m0 : nat -> Z -> Z) (d : nat) (o st : Z) (w : nat) (f : Z -> Z -> Z) (rs : list Z) (m : nat -> Z -> Z) : Prop :=
  (forall r c, In r rs -> 0 <= c < Z.of_nat w -> m d (o + r * st + c) = f r c) /\
  (forall s a, s <> d \/ (forall r c, In r rs -> 0 <= c < Z.of_nat w -> a <> o + r * st + c) -> m s a = m0 s a).
Lemma laid_nil : forall m d o st w f, laid m d o st w f [] m.
Proof. intros. split; [intros r c []|reflexivity]. Qed.
Lemma laid_step : forall m0 d o st w f rs m r off l,
  laid m0 d o st w f rs m -> Z.of_nat w <= st -> off = o + r * st -> l = map (fun c => f r (Z.of_nat c)) (seq 0 w) ->
  laid m0 d o st w f (r :: rs) (poke m d off l).
Proof.
  intros m0 d o st w f rs m r off l [F1 F2] W -> ->.
  assert (Ln : zlen (map (fun c => f r (Z.of_nat c)) (seq 0 w)) = Z.of_nat w) by (unfold zlen; rewrite map_length, seq_length; reflexivity).
  split.
  - intros i c I C. destruct (Z.eq_dec i r) as [->|N].
    + rewrite poke_in by lia. replace (o + r * st + c - (o + r * st)) with c by ring.
      set (g := fun c => f r (Z.of_nat c)). rewrite (nth_indep _ 0 (g 0%nat)) by (rewrite map_length, seq_length; lia).
      rewrite map_nth, seq_nth by lia. unfold g. f_equal. lia.
    + destruct I as [->|I]; [congruence|]. rewrite poke_out; [apply F1; assumption|]. right. rewrite Ln.
      destruct (Z_lt_dec i r); [left|right]; nia.
  - intros s a A. rewrite poke_out.
    + apply F2. destruct A as [A|A]; [left; exact A|right; intros i c I C; apply A; [right; exact I|exact C]].
    + destruct A as [A|A]; [left; exact A|right]. rewrite Ln.
      destruct (Z_lt_dec a (o + r * st)); [left; lia|right].
      destruct (Z_le_dec (o + r * st + Z.of_nat w) a); [assumption|exfalso].
      apply (A r (a - (o + r * st))); [left; reflexivity|lia|lia].
Qed.

(** * Lanes *)

Lemma abs0 : forall x, 0 <= x -> Z.abs (x - 0) = x.
Proof. intros. lia. Qed.
Lemma clamp_id : forall x, 0 <= x < 256 -> clamp255 x = x.
Proof. intros x H. unfold clamp255. destruct (x <? 0) eqn:?; [lia|]. destruct (255 <? x) eqn:?; lia. Qed.
Lemma lo16_small : forall x, 0 <= x < 32768 -> lo16 x = x.
Proof. intros. apply s16_small. lia. Qed.
Lemma add16_small : forall x y, -32768 <= x + y < 32768 -> add16 x y = x + y.
Proof. intros. apply s16_small. lia. Qed.
Lemma word0 : forall x, 0 <= x < 256 -> word x 0 = x.
Proof. intros. unfold word. rewrite s16_small; lia. Qed.
Lemma tm_lane : forall p t tl, 0 <= p < 256 -> 0 <= t < 256 -> 0 <= tl < 256 ->
  clamp255 (add16 (word p 0) (sub16 (word t 0) (word tl 0))) = clamp255 (p + t - tl).
Proof.
  intros. rewrite !word0 by assumption. unfold sub16. rewrite s16_small, add16_small by lia. f_equal. lia.
Qed.
Lemma lo8_twice : forall v, 0 <= v < 256 -> lo8 (word (lo8 v) (lo8 v)) = v.
Proof. intros v H. rewrite lo8_word by apply lo8_range. unfold lo8. apply Z.mod_small, H. Qed.
Lemma hi8_twice : forall v, 0 <= v < 256 -> hi8 (word (lo8 v) (lo8 v)) = v.
Proof. intros v H. rewrite hi8_word by apply lo8_range. unfold lo8. apply Z.mod_small, H. Qed.

Lemma wrap8_id : forall v, 0 <= v < 256 -> wrap 8 v = v.
Proof. intros v H. apply Z.mod_small. exact H. Qed.

(** The trick of l.31-35. *)
Lemma avg3_lane : forall x y z, 0 <= x < 256 -> 0 <= y < 256 -> 0 <= z < 256 ->
  Z.shiftr (lo8 (Z.shiftr (x + z + 1) 1 - Z.land (Z.lxor z x) 1) + y + 1) 1 = avg3 x y z.
Proof.
  intros x y z X Y Z0. unfold avg3. rewrite !Z.shiftr_div_pow2 by lia. change (2 ^ 1) with 2. change (2 ^ 2) with 4.
  assert (P : Z.land (Z.lxor z x) 1 = (x + z) mod 2).
  { change 1 with (Z.ones 1) at 1. rewrite Z.land_ones by lia. change (2 ^ 1) with 2.
    rewrite <- !Z.bit0_mod, Z.lxor_spec, Z.add_bit0. destruct (Z.testbit z 0), (Z.testbit x 0); reflexivity. }
  rewrite P. unfold lo8. rewrite (Z.mod_small (_ - _)) by lia. rewrite wrap8_id; lia.
Qed.
Lemma avg2_lane : forall x y, 0 <= x < 256 -> 0 <= y < 256 -> Z.shiftr (x + y + 1) 1 = avg2 y x.
Proof.
  intros x y X Y. unfold avg2. rewrite !Z.shiftr_div_pow2 by lia. change (2 ^ 1) with 2. rewrite wrap8_id by lia. f_equal. lia.
Qed.
Lemma avg2_same : forall x, 0 <= x < 256 -> avg2 x x = x.
Proof. intros x X. unfold avg2. rewrite Z.shiftr_div_pow2 by lia. change (2 ^ 1) with 2. rewrite wrap8_id; lia. Qed.
Lemma avg3_same : forall x, 0 <= x < 256 -> avg3 x x x = x.
Proof. intros x X. unfold avg3. rewrite Z.shiftr_div_pow2 by lia. change (2 ^ 2) with 4. rewrite wrap8_id; lia. Qed.

(** * Sums *)

Definition sum_at (m : nat -> Z -> Z) (s : nat) (o : Z) (n : nat) : Z := fold_right Z.add 0 (map (fun i => m s (o + Z.of_nat i)) (seq 0 n)).
Lemma sum_range : forall m s o n, bytes_ok m -> 0 <= sum_at m s o n <= 255 * Z.of_nat n.
Proof.
  intros m s o n Bm. unfold sum_at.
  assert (G : forall l, 0 <= fold_right Z.add 0 (map (fun i => m s (o + Z.of_nat i)) l) <= 255 * zlen l).
  { induction l as [|i l IH]; [cbn; lia|]. cbn [map fold_right]. unfold zlen in *. cbn [length]. pose proof (Bm s (o + Z.of_nat i)). lia. }
  specialize (G (seq 0 n)). unfold zlen in G. rewrite seq_length in G. exact G.
Qed.

(** * The predictors *)

Definition predicts (x : list Z) (L : layout) (d : nat) (o st : Z) (a l : nat) (m : nat -> Z -> Z) (code : list block) (w : nat) (rs : list Z) (f : Z -> Z -> Z) : Prop :=
  exists m', predictor_call x L code d o st a l m = Some m' /\ laid m d o st w f rs m'.

Lemma loop_nz_unfold : forall n L args ctr body st, loop_nz (S n) L args ctr body st =
  (let? s := run L args body st in let? z := as_int (reg s ctr) in if z =? 0 then Some s else loop_nz n L args ctr body s).
Proof. reflexivity. Qed.

Ltac unfold_rows := unfold four_rows4, eight_rows8, times3, entry, avg3_of, Op3; cbn [app].
Ltac steps := repeat vstep ltac:(side); cbn [run obind].
Ltac begin code := unfold predicts, predictor_call, call_from, code; cbn [repeat run_blocks]; unfold_rows.
Ltac turn body := rewrite loop_nz_unfold; unfold body at 1; unfold Op3; cbn [app]; steps;
  match goal with |- context [as_int (reg ?s ?r)] => let v := eval cbn [reg nth gp as_int rcx rdx] in (as_int (reg s r)) in change (as_int (reg s r)) with v end; cbn [obind];
  match goal with |- context [if ?z =? 0 then _ else _] => let b := eval vm_compute in (z =? 0) in change (z =? 0) with b end; cbv iota.
Ltac finish := eexists; split; [reflexivity|]; cbn [mem].
Ltac lrow := apply laid_step; [|lia|lia|].
Ltac byte := match goal with B : bytes_ok _ |- _ => apply B end.

(** The four-row loop of the wide ones. *)
Lemma rows16_run : forall L args d o st s3 B S g0 g3 g4 gs vs m b0 b1 b2 b3 b4 b5 b6 b7 b8 b9 b10 b11 b12 b13 b14 b15,
  16 <= st -> s3 = 3 * st -> 0 <= o -> o + 15 * st + 16 <= extent L d -> base L d + o = 16 * B -> st = 16 * S ->
  let row := [b0; b1; b2; b3; b4; b5; b6; b7; b8; b9; b10; b11; b12; b13; b14; b15] in
  exists s, loop_nz 8 L args rcx rows16 (mkMachine (g0 :: Int 4 :: Int s3 :: g3 :: g4 :: Int st :: Ptr d o :: gs) (Vb row :: vs) m) = Some s /\
    laid m d o st 16 (fun _ c => nth (Z.to_nat c) row 0) [15; 14; 13; 12; 11; 10; 9; 8; 7; 6; 5; 4; 3; 2; 1; 0] (mem s).
Proof.
  intros L args d o st s3 B S g0 g3 g4 gs vs m b0 b1 b2 b3 b4 b5 b6 b7 b8 b9 b10 b11 b12 b13 b14 b15 St E3 O1 O2 Al As row. subst row.
  do 4 turn rows16. finish. do 16 (lrow; [|reflexivity]). apply laid_nil.
Qed.

Lemma laid_ext : forall m0 d o st w f g rs m, laid m0 d o st w f rs m -> (forall r c, In r rs -> 0 <= c < Z.of_nat w -> f r c = g r c) -> laid m0 d o st w g rs m.
Proof. intros m0 d o st w f g rs m [F1 F2] E. split; [|exact F2]. intros r c I C. rewrite F1 by assumption. apply E; assumption. Qed.
Ltac wide := match goal with |- context [loop_nz 8 ?L ?args rcx rows16 (mkMachine (?g0 :: Int 4 :: Int ?s3 :: ?g3 :: ?g4 :: Int ?st :: Ptr ?d ?o :: ?gs) (Vb [?b0; ?b1; ?b2; ?b3; ?b4; ?b5; ?b6; ?b7; ?b8; ?b9; ?b10; ?b11; ?b12; ?b13; ?b14; ?b15] :: ?vs) ?m)] =>
  let s := fresh "s" in let E := fresh "E" in let F := fresh "F" in
  match goal with Al : base L d + o = 16 * ?B, As : st = 16 * ?S |- _ =>
  destruct (rows16_run L args d o st s3 B S g0 g3 g4 gs vs m b0 b1 b2 b3 b4 b5 b6 b7 b8 b9 b10 b11 b12 b13 b14 b15) as (s & E & F); [assumption|lia|assumption|assumption|assumption|assumption|];
  rewrite E; cbn [obind]; clear E; eexists; split; [reflexivity|]; apply (laid_ext _ _ _ _ _ _ _ _ _ F); clear F end end.
(** Sixteen columns one by one. *)
Lemma each16 : forall (P : Z -> Prop), (forall k, (k < 16)%nat -> P (Z.of_nat k)) -> forall c, 0 <= c < Z.of_nat 16 -> P c.
Proof. intros P H c C. rewrite <- (Z2Nat.id c) by lia. apply H. lia. Qed.

Lemma v_4_ok : forall x L d o st a l m, bytes_ok m -> 4 <= st -> 0 <= o -> o + 3 * st + 4 <= extent L d -> extent L a = 24 ->
  predicts x L d o st a l m v_4 4 [3; 2; 1; 0] (fun _ c => m a (16 + c)).
Proof.
  intros x L d o st a l m Bm S O1 O2 Ea. begin v_4. steps. finish. do 4 (lrow; [|reflexivity]). apply laid_nil.
Qed.
Lemma v_8_ok : forall x L d o st a l m, bytes_ok m -> 8 <= st -> 0 <= o -> o + 7 * st + 8 <= extent L d -> extent L a = 32 ->
  predicts x L d o st a l m v_8 8 [7; 6; 5; 4; 3; 2; 1; 0] (fun _ c => m a (16 + c)).
Proof.
  intros x L d o st a l m Bm S O1 O2 Ea. begin v_8. steps. finish. do 8 (lrow; [|reflexivity]). apply laid_nil.
Qed.
Lemma v_16_ok : forall x L d o st a l m A B S, bytes_ok m -> 16 <= st -> 0 <= o -> o + 15 * st + 16 <= extent L d -> extent L a = 48 ->
  base L a = 16 * A -> base L d + o = 16 * B -> st = 16 * S ->
  predicts x L d o st a l m v_16 16 [15; 14; 13; 12; 11; 10; 9; 8; 7; 6; 5; 4; 3; 2; 1; 0] (fun _ c => m a (16 + c)).
Proof.
  intros x L d o st a l m A B S Bm St O1 O2 Ea Aa Al As. begin v_16. steps. wide.
  intros r c _. revert c. apply each16. intros k K. do 16 (destruct k as [|k]; [reflexivity|]). lia.
Qed.

Lemma h_4_ok : forall x L d o st a l m, bytes_ok m -> 4 <= st -> 0 <= o -> o + 3 * st + 4 <= extent L d -> extent L l = 4 ->
  predicts x L d o st a l m h_4 4 [3; 2; 1; 0] (fun r _ => m l r).
Proof.
  intros x L d o st a l m Bm S O1 O2 El. begin h_4. steps. finish.
  do 4 (lrow; [|cbn [map seq]; rewrite ?lo8_word, ?hi8_word by byte; reflexivity]). apply laid_nil.
Qed.
Lemma h_8_ok : forall x L d o st a l m, bytes_ok m -> 8 <= st -> 0 <= o -> o + 7 * st + 8 <= extent L d -> extent L l = 8 ->
  predicts x L d o st a l m h_8 8 [7; 6; 5; 4; 3; 2; 1; 0] (fun r _ => m l r).
Proof.
  intros x L d o st a l m Bm S O1 O2 El. begin h_8. steps. do 2 turn h_8_rows. finish.
  do 8 (lrow; [|cbn [map seq]; rewrite ?lo8_word, ?hi8_word by byte; reflexivity]). apply laid_nil.
Qed.

Lemma tm_4_ok : forall x L d o st a l m, bytes_ok m -> 4 <= st -> 0 <= o -> o + 3 * st + 4 <= extent L d -> extent L a = 24 -> extent L l = 4 ->
  predicts x L d o st a l m tm_4 4 [3; 2; 1; 0] (fun r c => clamp255 (m l r + m a (16 + c) - m a 15)).
Proof.
  intros x L d o st a l m Bm S O1 O2 Ea El. begin tm_4. steps. finish.
  do 4 (lrow; [|cbn [map seq]; rewrite !tm_lane by byte; reflexivity]). apply laid_nil.
Qed.
Lemma tm_8_ok : forall x L d o st a l m, bytes_ok m -> 8 <= st -> 0 <= o -> o + 7 * st + 8 <= extent L d -> extent L a = 32 -> extent L l = 8 ->
  predicts x L d o st a l m tm_8 8 [7; 6; 5; 4; 3; 2; 1; 0] (fun r c => clamp255 (m l r + m a (16 + c) - m a 15)).
Proof.
  intros x L d o st a l m Bm S O1 O2 Ea El. begin tm_8. steps. do 4 turn tm_8_rows. finish.
  do 8 (lrow; [|cbn [map seq]; rewrite !tm_lane by byte; reflexivity]). apply laid_nil.
Qed.

(** Rows of HU and HD begin two entries apart. *)
Definition hu_list (l : Z -> Z) : list Z :=
  [avg2 (l 0) (l 1); avg3 (l 0) (l 1) (l 2); avg2 (l 1) (l 2); avg3 (l 1) (l 2) (l 3); avg2 (l 2) (l 3); avg3 (l 2) (l 3) (l 3); l 3; l 3; l 3; l 3].
Definition hd_list (e : Z -> Z) : list Z :=
  [avg2 (e 0) (e 1); avg3 (e 0) (e 1) (e 2); avg2 (e 1) (e 2); avg3 (e 1) (e 2) (e 3); avg2 (e 2) (e 3); avg3 (e 2) (e 3) (e 4);
   avg2 (e 3) (e 4); avg3 (e 3) (e 4) (e 5); avg3 (e 4) (e 5) (e 6); avg3 (e 5) (e 6) (e 7)].
Definition east_at (m : nat -> Z -> Z) (a l : nat) (i : Z) : Z := if i <=? 3 then m l (3 - i) else m a (i + 11).

Lemma d207_4_ok : forall x L d o st a l m, bytes_ok m -> 4 <= st -> 0 <= o -> o + 3 * st + 4 <= extent L d -> extent L l = 4 ->
  predicts x L d o st a l m d207_4 4 [3; 2; 1; 0] (fun r c => nth (Z.to_nat (2 * r + c)) (hu_list (m l)) 0).
Proof.
  intros x L d o st a l m Bm S O1 O2 El. begin d207_4. steps. finish.
  do 4 (lrow; [|cbn [map seq]; rewrite ?avg3_lane, ?avg2_lane by byte; rewrite ?avg3_same, ?avg2_same by byte; reflexivity]). apply laid_nil.
Qed.
Lemma d153_4_ok : forall x L d o st a l m, bytes_ok m -> 4 <= st -> 0 <= o -> o + 3 * st + 4 <= extent L d -> extent L a = 24 -> extent L l = 4 ->
  predicts x L d o st a l m d153_4 4 [0; 1; 2; 3] (fun r c => nth (Z.to_nat (2 * (3 - r) + c)) (hd_list (east_at m a l)) 0).
Proof.
  intros x L d o st a l m Bm S O1 O2 Ea El. begin d153_4. steps. finish.
  do 4 (lrow; [|cbn [map seq]; rewrite ?avg3_lane, ?avg2_lane by byte; reflexivity]). apply laid_nil.
Qed.
