(** The wide assembled predictors that go round a loop. *)
From Verif Require Import Base TreeModel MVModel FrameModel RasterModel PredictModel VarianceModel SimdModel AsmIntraModel.
From Verif Require Import SimdProofs AsmTransformProofs AsmIntraProofs.

Definition down16 : list Z := [15; 14; 13; 12; 11; 10; 9; 8; 7; 6; 5; 4; 3; 2; 1; 0].

(** What the loop has written so far, then forgotten. *)
Ltac forget m d o st w f rs tac :=
  match goal with |- context [loop_nz _ _ _ _ _ (mkMachine _ _ ?mm)] =>
    let F := fresh "F" in assert (F : laid m d o st w f rs mm); [tac|];
    generalize dependent mm; let m1 := fresh "m1" in intros m1 F end.
Ltac turn_from body N := rewrite loop_nz_unfold; unfold body at 1; cbn [app]; vstep ltac:(side);
  try match goal with F : laid _ _ _ _ _ _ _ ?m1 |- _ => rewrite !(proj2 F _ _ (or_introl N)) end; steps;
  match goal with |- context [as_int (reg ?s ?r)] => let v := eval cbn [reg nth gp as_int rcx rdx] in (as_int (reg s r)) in change (as_int (reg s r)) with v end; cbn [obind];
  match goal with |- context [if ?z =? 0 then _ else _] => let b := eval vm_compute in (z =? 0) in change (z =? 0) with b end; cbv iota.
Ltac prev := match goal with F : laid _ _ _ _ _ _ _ ?m1 |- laid _ _ _ _ _ _ _ ?m1 => exact F | _ => apply laid_nil end.

Lemma tm_16_ok : forall x L d o st a l m A A' B S, bytes_ok m -> 16 <= st -> 0 <= o -> o + 15 * st + 16 <= extent L d -> extent L a = 48 -> extent L l = 16 ->
  base L a = 16 * A -> base L l = 16 * A' -> base L d + o = 16 * B -> st = 16 * S ->
  predicts x L d o st a l m tm_16 16 [15; 7; 14; 6; 13; 5; 12; 4; 11; 3; 10; 2; 9; 1; 8; 0] (fun r c => clamp255 (m l r + m a (16 + c) - m a 15)).
Proof.
  intros x L d o st a l m A A' B S Bm St O1 O2 Ea El Aa Al' Al As. begin tm_16. steps.
  Ltac two := do 2 (lrow; [|cbn [map seq]; rewrite !tm_lane by byte; reflexivity]); prev.
  Ltac next m d o st a l rs := turn tm_16_rows; forget m d o st 16%nat (fun r c => clamp255 (m l r + m a (16 + c) - m a 15)) rs two.
  next m d o st a l [8; 0].
  next m d o st a l [9; 1; 8; 0].
  next m d o st a l [10; 2; 9; 1; 8; 0].
  next m d o st a l [11; 3; 10; 2; 9; 1; 8; 0].
  next m d o st a l [12; 4; 11; 3; 10; 2; 9; 1; 8; 0].
  next m d o st a l [13; 5; 12; 4; 11; 3; 10; 2; 9; 1; 8; 0].
  next m d o st a l [14; 6; 13; 5; 12; 4; 11; 3; 10; 2; 9; 1; 8; 0].
  turn tm_16_rows. finish. two.
Qed.
Lemma h_16_ok : forall x L d o st a l m B S, bytes_ok m -> 16 <= st -> 0 <= o -> o + 15 * st + 16 <= extent L d -> extent L l = 16 -> l <> d ->
  base L d + o = 16 * B -> st = 16 * S ->
  predicts x L d o st a l m h_16 16 down16 (fun r _ => m l r).
Proof.
  intros x L d o st a l m B S Bm St O1 O2 El N Al As. begin h_16. steps.
  Ltac quad := do 4 (lrow; [|cbn [map seq]; rewrite ?lo8_word, ?hi8_word by byte; reflexivity]); prev.
  Ltac fours m d o st l N rs := turn_from h_16_rows N; forget m d o st 16%nat (fun r (_ : Z) => m l r) rs quad.
  fours m d o st l N [3; 2; 1; 0].
  fours m d o st l N [7; 6; 5; 4; 3; 2; 1; 0].
  fours m d o st l N [11; 10; 9; 8; 7; 6; 5; 4; 3; 2; 1; 0].
  turn_from h_16_rows N. finish. quad.
Qed.
