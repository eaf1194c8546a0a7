(** The averaging assembled predictors. *)
From Verif Require Import Base TreeModel MVModel FrameModel RasterModel PredictModel VarianceModel SimdModel AsmIntraModel.
From Verif Require Import SimdProofs AsmTransformProofs AsmIntraProofs.

(** ** Averages *)

(** The sums that psadbw leaves. *)
Ltac sums := repeat match goal with |- context [Z.abs (?e - 0)] => rewrite (abs0 e) by first [byte | lia] end.
Ltac bounded Bm := repeat match goal with E : ?v = sum_at ?m ?s ?o ?n |- _ => lazymatch goal with _ : 0 <= v <= _ |- _ => fail | _ => idtac end; let H := fresh in assert (H := sum_range m s o n Bm); rewrite <- E in H; cbn [Z.of_nat Pos.of_succ_nat Pos.succ Z.mul Pos.mul Pos.add] in H end.

Lemma dc_4_ok : forall x L d o st a l m, bytes_ok m -> 4 <= st -> 0 <= o -> o + 3 * st + 4 <= extent L d -> extent L a = 24 -> extent L l = 4 ->
  predicts x L d o st a l m dc_4 4 [3; 2; 1; 0] (fun _ _ => (sum_at m a 16 4 + sum_at m l 0 4 + 4) / 8).
Proof.
  intros x L d o st a l m Bm S O1 O2 Ea El. begin dc_4. do 9 vstep ltac:(side). sums.
  match goal with |- context [Vd (?s :: _)] => replace s with (sum_at m a 16 4 + sum_at m l 0 4) by (unfold sum_at; cbn; lia) end.
  remember (sum_at m a 16 4) as SA. remember (sum_at m l 0 4) as SL. bounded Bm.
  do 4 vstep ltac:(side).
  match goal with |- context [Vb (?e :: _)] => remember e as v eqn:Ev end.
  rewrite lo16_small, add16_small, sar_div in Ev by lia. change (2 ^ 3) with 8 in Ev. rewrite clamp_id in Ev by lia.
  steps. finish. rewrite <- Ev. do 4 (lrow; [|reflexivity]). apply laid_nil.
Qed.

Lemma dc_side_4_ok : forall x L d o st a l m b, bytes_ok m -> 4 <= st -> 0 <= o -> o + 3 * st + 4 <= extent L d -> extent L a = 24 -> extent L l = 4 ->
  predicts x L d o st a l m (dc_side_4 b) 4 [3; 2; 1; 0] (fun _ _ => ((if b then sum_at m l 0 4 else sum_at m a 16 4) + 2) / 4).
Proof.
  intros x L d o st a l m b Bm S O1 O2 Ea El. begin dc_side_4.
  destruct b.
  - remember (sum_at m l 0 4) as SS eqn:ES. do 7 vstep ltac:(side). sums.
    match goal with |- context [Vd (?s :: _)] => replace s with SS by (rewrite ES; unfold sum_at; cbn; lia) end. bounded Bm.
    do 4 vstep ltac:(side).
    match goal with |- context [Vb (?e :: _)] => remember e as v eqn:Ev end.
    rewrite lo16_small, add16_small, sar_div in Ev by lia. change (2 ^ 2) with 4 in Ev. rewrite clamp_id in Ev by lia.
    steps. finish. rewrite <- Ev. do 4 (lrow; [|reflexivity]). apply laid_nil.
  - remember (sum_at m a 16 4) as SS eqn:ES. do 7 vstep ltac:(side). sums.
    match goal with |- context [Vd (?s :: _)] => replace s with SS by (rewrite ES; unfold sum_at; cbn; lia) end. bounded Bm.
    do 4 vstep ltac:(side).
    match goal with |- context [Vb (?e :: _)] => remember e as v eqn:Ev end.
    rewrite lo16_small, add16_small, sar_div in Ev by lia. change (2 ^ 2) with 4 in Ev. rewrite clamp_id in Ev by lia.
    steps. finish. rewrite <- Ev. do 4 (lrow; [|reflexivity]). apply laid_nil.
Qed.
Lemma dc_128_4_ok : forall x L d o st a l m, 4 <= st -> 0 <= o -> o + 3 * st + 4 <= extent L d ->
  predicts x L d o st a l m dc_128_4 4 [3; 2; 1; 0] (fun _ _ => 128).
Proof. intros x L d o st a l m S O1 O2. begin dc_128_4. steps. finish. do 4 (lrow; [|reflexivity]). apply laid_nil. Qed.

(** Eight: the average is doubled into words. *)
Ltac rows8 := steps; finish; do 8 (lrow; [|cbn [map seq]; rewrite ?lo8_twice, ?hi8_twice by assumption; reflexivity]); apply laid_nil.
Lemma dc_8_ok : forall x L d o st a l m, bytes_ok m -> 8 <= st -> 0 <= o -> o + 7 * st + 8 <= extent L d -> extent L a = 32 -> extent L l = 8 ->
  predicts x L d o st a l m dc_8 8 [7; 6; 5; 4; 3; 2; 1; 0] (fun _ _ => (sum_at m a 16 8 + sum_at m l 0 8 + 8) / 16).
Proof.
  intros x L d o st a l m Bm S O1 O2 Ea El. begin dc_8. do 11 vstep ltac:(side). sums.
  remember (sum_at m a 16 8) as SA eqn:EA. remember (sum_at m l 0 8) as SL eqn:ES.
  match goal with |- context [Vd (?s :: _) :: _ :: Vd (?t :: _) :: _] => replace s with SA by (rewrite EA; reflexivity); replace t with SL by (rewrite ES; reflexivity) end.
  bounded Bm. do 3 vstep ltac:(side).
  match goal with |- context [Vw (?e :: _)] => remember e as v eqn:Ev end.
  rewrite !lo16_small, !add16_small, sar_div in Ev by (try rewrite !add16_small; lia). change (2 ^ 4) with 16 in Ev.
  assert (V : 0 <= v < 256) by lia. rewrite <- Ev. rows8.
Qed.
Lemma dc_side_8_ok : forall x L d o st a l m b, bytes_ok m -> 8 <= st -> 0 <= o -> o + 7 * st + 8 <= extent L d -> extent L a = 32 -> extent L l = 8 ->
  predicts x L d o st a l m (dc_side_8 b) 8 [7; 6; 5; 4; 3; 2; 1; 0] (fun _ _ => ((if b then sum_at m l 0 8 else sum_at m a 16 8) + 4) / 8).
Proof.
  intros x L d o st a l m b Bm S O1 O2 Ea El. begin dc_side_8. destruct b.
  - remember (sum_at m l 0 8) as SS eqn:ES. do 9 vstep ltac:(side). sums.
    match goal with |- context [Vd (?s :: _)] => replace s with SS by (rewrite ES; reflexivity) end. bounded Bm.
    do 2 vstep ltac:(side). match goal with |- context [Vw (?e :: _)] => remember e as v eqn:Ev end.
    rewrite lo16_small, add16_small, sar_div in Ev by lia. change (2 ^ 3) with 8 in Ev. assert (V : 0 <= v < 256) by lia. rewrite <- Ev. rows8.
  - remember (sum_at m a 16 8) as SS eqn:ES. do 9 vstep ltac:(side). sums.
    match goal with |- context [Vd (?s :: _)] => replace s with SS by (rewrite ES; reflexivity) end. bounded Bm.
    do 2 vstep ltac:(side). match goal with |- context [Vw (?e :: _)] => remember e as v eqn:Ev end.
    rewrite lo16_small, add16_small, sar_div in Ev by lia. change (2 ^ 3) with 8 in Ev. assert (V : 0 <= v < 256) by lia. rewrite <- Ev. rows8.
Qed.
Lemma dc_128_8_ok : forall x L d o st a l m, 8 <= st -> 0 <= o -> o + 7 * st + 8 <= extent L d ->
  predicts x L d o st a l m dc_128_8 8 [7; 6; 5; 4; 3; 2; 1; 0] (fun _ _ => 128).
Proof. intros x L d o st a l m S O1 O2. begin dc_128_8. steps. finish. do 8 (lrow; [|reflexivity]). apply laid_nil. Qed.

(** Sixteen: two sums of eight for each side. *)
Lemma high_sum : forall x, 0 <= x < 32768 -> word (lo8 (lo16 x)) (hi8 (lo16 x)) = x.
Proof. intros x H. rewrite word_split, (lo16_small x H). apply s16_small. lia. Qed.
Ltac columns := intros r c _; revert c; apply each16; intros k K; do 16 (destruct k as [|k]; [reflexivity|]); lia.
Lemma dc_16_ok : forall x L d o st a l m A A' B S, bytes_ok m -> 16 <= st -> 0 <= o -> o + 15 * st + 16 <= extent L d -> extent L a = 48 -> extent L l = 16 ->
  base L a = 16 * A -> base L l = 16 * A' -> base L d + o = 16 * B -> st = 16 * S ->
  predicts x L d o st a l m dc_16 16 [15; 14; 13; 12; 11; 10; 9; 8; 7; 6; 5; 4; 3; 2; 1; 0]
    (fun _ _ => (sum_at m a 16 8 + sum_at m l 0 8 + (sum_at m a 24 8 + sum_at m l 8 8) + 16) / 32).
Proof.
  intros x L d o st a l m A A' B S Bm St O1 O2 Ea El Aa Al' Al As. begin dc_16. do 12 vstep ltac:(side). sums.
  remember (sum_at m a 16 8) as SA eqn:EA. remember (sum_at m l 0 8) as SL eqn:ES. remember (sum_at m a 24 8) as SA' eqn:EA'. remember (sum_at m l 8 8) as SL' eqn:ES'.
  match goal with |- context [Vd (?s :: _ :: ?s' :: _) :: _ :: Vd (?t :: _ :: ?t' :: _) :: _] =>
    replace s with SA by (rewrite EA; reflexivity); replace t with SL by (rewrite ES; reflexivity);
    replace s' with SA' by (rewrite EA'; reflexivity); replace t' with SL' by (rewrite ES'; reflexivity) end.
  bounded Bm. do 8 vstep ltac:(side).
  match goal with |- context [Vb (?e :: _)] => remember e as v eqn:Ev end.
  rewrite !lo16_small in Ev by lia. rewrite (add16_small SA), (add16_small SA') in Ev by lia. rewrite !add16_small in Ev by (rewrite ?add16_small; lia).
  rewrite sar_div in Ev by lia. change (2 ^ 5) with 32 in Ev. rewrite clamp_id in Ev by lia.
  cbn [run obind]. wide. rewrite <- Ev. columns.
Qed.
Lemma dc_side_16_ok : forall x L d o st a l m b A A' B S, bytes_ok m -> 16 <= st -> 0 <= o -> o + 15 * st + 16 <= extent L d -> extent L a = 48 -> extent L l = 16 ->
  base L a = 16 * A -> base L l = 16 * A' -> base L d + o = 16 * B -> st = 16 * S -> length x = 16%nat ->
  predicts x L d o st a l m (dc_side_16 b) 16 [15; 14; 13; 12; 11; 10; 9; 8; 7; 6; 5; 4; 3; 2; 1; 0]
    (fun _ _ => ((if b then sum_at m l 0 8 + sum_at m l 8 8 else sum_at m a 16 8 + sum_at m a 24 8) + 8) / 16).
Proof.
  intros x L d o st a l m b A A' B S Bm St O1 O2 Ea El Aa Al' Al As Lx.
  do 16 (destruct x as [|? x]; [discriminate Lx|]). destruct x; [|discriminate Lx]. clear Lx.
  begin dc_side_16. destruct b.
  - do 10 vstep ltac:(side). sums. remember (sum_at m l 0 8) as SA eqn:EA. remember (sum_at m l 8 8) as SA' eqn:EA'.
    match goal with |- context [Vd (?s :: _ :: ?s' :: _)] => replace s with SA by (rewrite EA; reflexivity); replace s' with SA' by (rewrite EA'; reflexivity) end.
    bounded Bm. do 7 vstep ltac:(side).
    match goal with |- context [Vb (?e :: _) :: _] => remember e as v eqn:Ev end.
    rewrite high_sum, (lo16_small SA), (add16_small SA SA'), (add16_small (SA + SA') 8), sar_div in Ev by lia.
    change (2 ^ 4) with 16 in Ev. rewrite clamp_id in Ev by lia. cbn [run obind]. wide. rewrite <- Ev. columns.
  - do 10 vstep ltac:(side). sums. remember (sum_at m a 16 8) as SA eqn:EA. remember (sum_at m a 24 8) as SA' eqn:EA'.
    match goal with |- context [Vd (?s :: _ :: ?s' :: _)] => replace s with SA by (rewrite EA; reflexivity); replace s' with SA' by (rewrite EA'; reflexivity) end.
    bounded Bm. do 7 vstep ltac:(side).
    match goal with |- context [Vb (?e :: _) :: _] => remember e as v eqn:Ev end.
    rewrite high_sum, (lo16_small SA), (add16_small SA SA'), (add16_small (SA + SA') 8), sar_div in Ev by lia.
    change (2 ^ 4) with 16 in Ev. rewrite clamp_id in Ev by lia. cbn [run obind]. wide. rewrite <- Ev. columns.
Qed.
Lemma dc_128_16_ok : forall x L d o st a l m B S, 16 <= st -> 0 <= o -> o + 15 * st + 16 <= extent L d -> base L d + o = 16 * B -> st = 16 * S ->
  predicts x L d o st a l m dc_128_16 16 [15; 14; 13; 12; 11; 10; 9; 8; 7; 6; 5; 4; 3; 2; 1; 0] (fun _ _ => 128).
Proof. intros x L d o st a l m B S St O1 O2 Al As. begin dc_128_16. steps. wide. columns. Qed.
