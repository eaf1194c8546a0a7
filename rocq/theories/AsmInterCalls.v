(** The assembled interpolation filters as calls. *)
From Verif Require Import Base MVModel FrameModel RasterModel PredictModel VarianceModel SimdModel AsmInterModel.
From Verif Require Import SimdProofs AsmTransformProofs AsmInterProofs.

(** * The loops *)

Lemma tap6_byte : forall k05 k13 k24 v, 0 <= tap6 k05 k13 k24 v < 256.
Proof. intros. unfold tap6, clamp255. repeat match goal with |- context [if ?b then _ else _] => destruct b eqn:? end; lia. Qed.
Lemma tap6_ext : forall k05 k13 k24 v v', (forall j, v j = v' j) -> tap6 k05 k13 k24 v = tap6 k05 k13 k24 v'.
Proof. intros k05 k13 k24 v v' E. unfold tap6. rewrite !E. reflexivity. Qed.
Lemma poke_bytes : forall m m' d o l, bytes_ok m -> Forall (fun x => 0 <= x < 256) l -> (forall s a, m' s a = poke m d o l s a) -> bytes_ok m'.
Proof.
  intros m m' d o l B F E s a. rewrite E. unfold poke.
  destruct (Nat.eqb s d && (o <=? a) && (a <? o + zlen l)) eqn:Q; [|apply B].
  destruct (nth_in_or_default (Z.to_nat (a - o)) l 0) as [I| ->]; [|lia]. rewrite Forall_forall in F. apply F, I.
Qed.

Section Rows.
  Variables (L : layout) (args : list val) (body : list instr) (V : list vec -> Prop) (state : Z -> Z -> Z -> list vec -> (nat -> Z -> Z) -> machine).
  (** [row m r]: the bytes of row [r] computed from memory [m]. *)
  Variables (s d : nat) (so ss o pitch pre w h : Z) (row : (nat -> Z -> Z) -> Z -> list Z) (f : Z -> Z -> Z) (m : nat -> Z -> Z).
  Hypothesis C : forall off o' n vs m', reg (state off o' n vs m') rcx = Int n.
  Hypothesis Mm : forall off o' n vs m', mem (state off o' n vs m') = m'.
  Hypothesis W : w <= pitch.
  Hypothesis Sd : s <> d.
  Hypothesis Bytes : forall m' r, Forall (fun x => 0 <= x < 256) (row m' r).
  Hypothesis Len : forall m' r, zlen (row m' r) = w.
  Hypothesis Val : forall m' r c, 0 <= r < h -> (forall a, m' s a = m s a) -> 0 <= c < w -> nth (Z.to_nat c) (row m' r) 0 = f r c.
  Hypothesis Step : forall r vs m', 0 <= r < h -> bytes_ok m' -> V vs ->
    exists vs' m'', run L args body (state (so + r * ss) (o + (r - pre) * pitch) (h - r) vs m') =
      Some (state (so + (r + 1) * ss) (o + (r + 1 - pre) * pitch) (h - (r + 1)) vs' m'') /\ V vs' /\
      forall s' a, m'' s' a = poke m' d (o + r * pitch) (row m' r) s' a.

  Lemma rows_loop : forall vs, 0 < h -> bytes_ok m -> V vs ->
    exists st, loop_nz (Z.to_nat h) L args rcx body (state so (o - pre * pitch) h vs m) = Some st /\ filled m d o pitch w f h (mem st) /\ bytes_ok (mem st).
  Proof.
    intros vs H Bm Vv.
    set (I := fun r st => exists vs m', st = state (so + r * ss) (o + (r - pre) * pitch) (h - r) vs m' /\ V vs /\ bytes_ok m' /\ filled m d o pitch w f r m').
    destruct (loop_nz_rows L args rcx body I h) with (n := Z.to_nat (h - 1)) (st := state so (o - pre * pitch) h vs m) as (st & E & vs' & m' & -> & _ & Bm' & F).
    - intros r st Hr (vs1 & m1 & -> & V1 & B1 & F1).
      destruct (Step r vs1 m1 Hr B1 V1) as (vs2 & m2 & R & V2 & P).
      eexists. split; [exact R|]. split; [|apply C].
      exists vs2, m2. split; [reflexivity|]. split; [exact V2|].
      split; [exact (poke_bytes _ _ _ _ _ B1 (Bytes m1 r) P)|].
      apply (filled_step m d o pitch w f r m1 m2 (row m1 r)); [exact F1|lia|exact W|apply Len| |exact P].
      intros c Hc. apply Val; [lia| |exact Hc]. intros a. apply F1. left. exact Sd.
    - lia.
    - exists vs, m. replace (h - 1 - Z.of_nat (Z.to_nat (h - 1))) with 0 by lia.
      split; [f_equal; lia|]. split; [exact Vv|]. split; [exact Bm|apply filled_0].
    - replace (S (Z.to_nat (h - 1))) with (Z.to_nat h) in E by lia.
      eexists. split; [exact E|]. rewrite Mm. split; assumption.
  Qed.
End Rows.

Lemma nth_map_seq : forall (g : nat -> Z) w c, 0 <= c < Z.of_nat w -> nth (Z.to_nat c) (map g (seq 0 w)) 0 = g (Z.to_nat c).
Proof.
  intros g w c B. rewrite (nth_indep _ 0 (g 0%nat)) by (rewrite map_length, seq_length; lia).
  rewrite map_nth, seq_nth by lia. reflexivity.
Qed.

(** What the two passes compute for row [r], column [c]. *)
Definition across (k05 k13 k24 : Z * Z) (m : nat -> Z -> Z) (s : nat) (so ss : Z) (r c : Z) : Z :=
  tap6 k05 k13 k24 (fun j => m s (so + r * ss + c + j)).
Definition down (k05 k13 k24 : Z * Z) (m : nat -> Z -> Z) (s : nat) (so ss : Z) (r c : Z) : Z :=
  tap6 k05 k13 k24 (fun j => m s (so + (r + j + 2) * ss + c)).

Lemma h_loop : forall L args body (V : list vec -> Prop) (w : nat) pre k05 k13 k24 s so ss d o pitch h vs m,
  0 < h -> Z.of_nat w <= pitch -> s <> d -> bytes_ok m -> V vs ->
  (forall r vs m', 0 <= r < h -> bytes_ok m' -> V vs ->
    exists vs' m'', run L args body (hstate s (so + r * ss) ss d (o + (r - pre) * pitch) pitch (h - r) vs m') =
      Some (hstate s (so + r * ss + ss) ss d (o + (r - pre) * pitch + pitch) pitch (h - r - 1) vs' m'') /\ V vs' /\
      forall s' a, m'' s' a = poke m' d (o + r * pitch) (hrow w k05 k13 k24 m' s (so + r * ss)) s' a) ->
  exists st, loop_nz (Z.to_nat h) L args rcx body (hstate s so ss d (o - pre * pitch) pitch h vs m) = Some st /\
    filled m d o pitch (Z.of_nat w) (across k05 k13 k24 m s so ss) h (mem st) /\ bytes_ok (mem st).
Proof.
  intros L args body V w pre k05 k13 k24 s so ss d o pitch h vs m H W N Bm Vv Step.
  apply (rows_loop L args body V (fun off o' n vs m => hstate s off ss d o' pitch n vs m) s d so ss o pitch pre (Z.of_nat w) h (fun m r => hrow w k05 k13 k24 m s (so + r * ss))); try assumption.
  - reflexivity.
  - reflexivity.
  - intros m' r. apply Forall_forall. intros x Ix. apply in_map_iff in Ix as (c & <- & _). apply tap6_byte.
  - intros m' r. unfold zlen, hrow. rewrite map_length, seq_length. reflexivity.
  - intros m' r c Hr E Hc. unfold hrow. rewrite nth_map_seq by lia. unfold across. apply tap6_ext. intros j. rewrite E. f_equal. lia.
  - intros r vs1 m1 Hr B1 V1. destruct (Step r vs1 m1 Hr B1 V1) as (vs' & m'' & R & V' & P).
    exists vs', m''. split; [|split; assumption]. rewrite R. f_equal. f_equal; lia.
Qed.
Lemma v_loop : forall L args body (V : list vec -> Prop) (w : nat) k05 k13 k24 s so ss d o pitch h vs m,
  0 < h -> Z.of_nat w <= pitch -> s <> d -> bytes_ok m -> V vs ->
  (forall r vs m', 0 <= r < h -> bytes_ok m' -> V vs ->
    exists vs' m'', run L args body (vstate s (so + r * ss) ss d (o + r * pitch) pitch (h - r) vs m') =
      Some (vstate s (so + r * ss + ss) ss d (o + r * pitch + pitch) pitch (h - r - 1) vs' m'') /\ V vs' /\
      forall s' a, m'' s' a = poke m' d (o + r * pitch) (vrow w k05 k13 k24 m' s (so + r * ss) ss) s' a) ->
  exists st, loop_nz (Z.to_nat h) L args rcx body (vstate s so ss d o pitch h vs m) = Some st /\
    filled m d o pitch (Z.of_nat w) (down k05 k13 k24 m s so ss) h (mem st) /\ bytes_ok (mem st).
Proof.
  intros L args body V w k05 k13 k24 s so ss d o pitch h vs m H W N Bm Vv Step.
  replace (vstate s so ss d o pitch h vs m) with (vstate s so ss d (o - 0 * pitch) pitch h vs m) by (f_equal; ring).
  apply (rows_loop L args body V (fun off o' n vs m => vstate s off ss d o' pitch n vs m) s d so ss o pitch 0 (Z.of_nat w) h (fun m r => vrow w k05 k13 k24 m s (so + r * ss) ss)); try assumption.
  - reflexivity.
  - reflexivity.
  - intros m' r. apply Forall_forall. intros x Ix. apply in_map_iff in Ix as (c & <- & _). apply tap6_byte.
  - intros m' r. unfold zlen, vrow. rewrite map_length, seq_length. reflexivity.
  - intros m' r c Hr E Hc. unfold vrow. rewrite nth_map_seq by lia. unfold down. apply tap6_ext. intros j. rewrite E. f_equal. lia.
  - intros r vs1 m1 Hr B1 V1. destruct (Step r vs1 m1 Hr B1 V1) as (vs' & m'' & R & V' & P).
    exists vs', m''. split; [|split; assumption]. replace (o + (r - 0) * pitch) with (o + r * pitch) by ring. rewrite R. f_equal. f_equal; lia.
Qed.

(** * The functions *)

Lemma h8_six_call : forall L k05 k13 k24 s so ss d o pitch h m,
  good k05 k13 k24 -> bytes_ok m -> s <> d -> 0 < h -> 0 <= ss -> 8 <= pitch ->
  2 <= so -> so + (h - 1) * ss + 11 <= extent L s -> 0 <= o -> o + (h - 1) * pitch + 8 <= extent L d ->
  exists m', call (Z.to_nat h) L [Ptr s so; Int ss; Ptr d o; Int pitch; Int h] (h8_six k05 k13 k24) m = Some m' /\
    filled m d o pitch 8 (across k05 k13 k24 m s so ss) h m' /\ bytes_ok m'.
Proof.
  intros L k05 k13 k24 s so ss d o pitch h m G Bm N H S P B1 B2 O1 O2.
  set (args := [Ptr s so; Int ss; Ptr d o; Int pitch; Int h]).
  destruct (h_loop L args h8_six_row (V_h8_six k05 k13 k24) 8 1 k05 k13 k24 s so ss d o pitch h ([Vb []; Vb []; Vb []; Vb []; T k05; T k24; T k13; rd] ++ others 16) m) as (st & E & F & B'); try assumption.
  - eexists _, _, _, _. reflexivity.
  - intros r vs m' Hr Bm' Vv.
    replace (o + r * pitch) with (o + (r - 1) * pitch + pitch) by ring.
    apply h8_six_row_run; try assumption; try nia.
  - exists (mem st). split; [|split; assumption].
    unfold call, call_from, h8_six, start. cbn [run_blocks repeat].
    do 12 vstep ltac:(side). cbn [run obind].
    match goal with |- context [loop_nz _ _ _ _ _ ?x] => replace x with (hstate s so ss d (o - 1 * pitch) pitch h ([Vb []; Vb []; Vb []; Vb []; T k05; T k24; T k13; rd] ++ others 16) m) end.
    + rewrite E. reflexivity.
    + unfold hstate. apply machine_eq; [cbn [app repeat]; repeat (f_equal; try lia)|reflexivity|reflexivity].
Qed.

Lemma h8_four_call : forall L k13 k24 s so ss d o pitch h m,
  good (0, 0) k13 k24 -> bytes_ok m -> s <> d -> 0 < h -> 0 <= ss -> 8 <= pitch ->
  2 <= so -> so + (h - 1) * ss + 11 <= extent L s -> 0 <= o -> o + (h - 1) * pitch + 8 <= extent L d ->
  exists m', call (Z.to_nat h) L [Ptr s so; Int ss; Ptr d o; Int pitch; Int h] (h8_four k13 k24) m = Some m' /\
    filled m d o pitch 8 (across (0, 0) k13 k24 m s so ss) h m' /\ bytes_ok m'.
Proof.
  intros L k13 k24 s so ss d o pitch h m G Bm N H S P B1 B2 O1 O2.
  set (args := [Ptr s so; Int ss; Ptr d o; Int pitch; Int h]).
  destruct (h_loop L args h8_four_row (V_h8_four k13 k24) 8 1 (0, 0) k13 k24 s so ss d o pitch h ([Vb []; Vb []; Vb []; shuf2bfrom1; shuf3bfrom1; T k24; T k13; rd] ++ others 16) m) as (st & E & F & B'); try assumption.
  - eexists _, _, _. reflexivity.
  - intros r vs m' Hr Bm' Vv.
    replace (o + r * pitch) with (o + (r - 1) * pitch + pitch) by ring.
    apply h8_four_row_run; try assumption; try nia.
  - exists (mem st). split; [|split; assumption].
    unfold call, call_from, h8_four, start. cbn [run_blocks repeat].
    do 13 vstep ltac:(side). cbn [run obind].
    match goal with |- context [loop_nz _ _ _ _ _ ?x] => replace x with (hstate s so ss d (o - 1 * pitch) pitch h ([Vb []; Vb []; Vb []; shuf2bfrom1; shuf3bfrom1; T k24; T k13; rd] ++ others 16) m) end.
    + rewrite E. reflexivity.
    + unfold hstate. apply machine_eq; [cbn [app repeat]; repeat (f_equal; try lia)|reflexivity|reflexivity].
Qed.

Lemma h16_call : forall L k05 k13 k24 s so ss d o pitch h m,
  good k05 k13 k24 -> bytes_ok m -> s <> d -> 0 < h -> 0 <= ss -> 16 <= pitch ->
  2 <= so -> so + (h - 1) * ss + 19 <= extent L s -> 0 <= o -> o + (h - 1) * pitch + 16 <= extent L d -> (forall r, 0 <= r < h -> (base L d + (o + r * pitch)) mod 16 = 0) ->
  exists m', call (Z.to_nat h) L [Ptr s so; Int ss; Ptr d o; Int pitch; Int h] (h16 k05 k13 k24) m = Some m' /\
    filled m d o pitch 16 (across k05 k13 k24 m s so ss) h m' /\ bytes_ok m'.
Proof.
  intros L k05 k13 k24 s so ss d o pitch h m G Bm N H S P B1 B2 O1 O2 Al.
  set (args := [Ptr s so; Int ss; Ptr d o; Int pitch; Int h]).
  destruct (h_loop L args h16_row (V_h16 k05 k13 k24) 16 0 k05 k13 k24 s so ss d o pitch h ([Vb []; Vb []; Vb []; Vb []; T k05; T k24; T k13; Vb []] ++ others 16) m) as (st & E & F & B'); try assumption.
  - eexists _, _, _, _, _. reflexivity.
  - intros r vs m' Hr Bm' Vv.
    replace (o + (r - 0) * pitch) with (o + r * pitch) by ring.
    apply h16_row_run; try assumption; try nia. apply Al. exact Hr.
  - exists (mem st). split; [|split; assumption].
    unfold call, call_from, h16, start. cbn [run_blocks repeat].
    do 8 vstep ltac:(side). cbn [run obind].
    match goal with |- context [loop_nz _ _ _ _ _ ?x] => replace x with (hstate s so ss d (o - 0 * pitch) pitch h ([Vb []; Vb []; Vb []; Vb []; T k05; T k24; T k13; Vb []] ++ others 16) m) end.
    + rewrite E. reflexivity.
    + unfold hstate. apply machine_eq; [cbn [app repeat]; repeat (f_equal; try lia)|reflexivity|reflexivity].
Qed.

Lemma h4_six_call : forall L k05 k13 k24 s so ss d o pitch h m,
  good k05 k13 k24 -> bytes_ok m -> s <> d -> 0 < h -> 0 <= ss -> 4 <= pitch ->
  2 <= so -> so + (h - 1) * ss + 14 <= extent L s -> 0 <= o -> o + (h - 1) * pitch + 4 <= extent L d ->
  exists m', call (Z.to_nat h) L [Ptr s so; Int ss; Ptr d o; Int pitch; Int h] (h4_six k05 k13 k24) m = Some m' /\
    filled m d o pitch 4 (across k05 k13 k24 m s so ss) h m' /\ bytes_ok m'.
Proof.
  intros L k05 k13 k24 s so ss d o pitch h m G Bm N H S P B1 B2 O1 O2.
  set (args := [Ptr s so; Int ss; Ptr d o; Int pitch; Int h]).
  destruct (h_loop L args h4_six_row (V_h4_six k05 k13 k24) 4 0 k05 k13 k24 s so ss d o pitch h ([Vb []; Vb []; Vb []; Vb []; T k05; T k24; T k13; rd] ++ others 16) m) as (st & E & F & B'); try assumption.
  - eexists _, _, _, _. reflexivity.
  - intros r vs m' Hr Bm' Vv.
    replace (o + (r - 0) * pitch) with (o + r * pitch) by ring.
    apply h4_six_row_run; try assumption; try nia.
  - exists (mem st). split; [|split; assumption].
    unfold call, call_from, h4_six, start. cbn [run_blocks repeat].
    do 9 vstep ltac:(side). cbn [run obind].
    match goal with |- context [loop_nz _ _ _ _ _ ?x] => replace x with (hstate s so ss d (o - 0 * pitch) pitch h ([Vb []; Vb []; Vb []; Vb []; T k05; T k24; T k13; rd] ++ others 16) m) end.
    + rewrite E. reflexivity.
    + unfold hstate. apply machine_eq; [cbn [app repeat]; repeat (f_equal; try lia)|reflexivity|reflexivity].
Qed.

Lemma h4_four_call : forall L k13 k24 s so ss d o pitch h m,
  good (0, 0) k13 k24 -> bytes_ok m -> s <> d -> 0 < h -> 0 <= ss -> 4 <= pitch ->
  2 <= so -> so + (h - 1) * ss + 14 <= extent L s -> 0 <= o -> o + (h - 1) * pitch + 4 <= extent L d ->
  exists m', call (Z.to_nat h) L [Ptr s so; Int ss; Ptr d o; Int pitch; Int h] (h4_four k13 k24) m = Some m' /\
    filled m d o pitch 4 (across (0, 0) k13 k24 m s so ss) h m' /\ bytes_ok m'.
Proof.
  intros L k13 k24 s so ss d o pitch h m G Bm N H S P B1 B2 O1 O2.
  set (args := [Ptr s so; Int ss; Ptr d o; Int pitch; Int h]).
  destruct (h_loop L args h4_four_row (V_h4_four k13 k24) 4 0 (0, 0) k13 k24 s so ss d o pitch h ([shuf2b; Vb []; Vb []; shuf3b; Vb []; T k24; T k13; rd] ++ others 16) m) as (st & E & F & B'); try assumption.
  - eexists _, _, _. reflexivity.
  - intros r vs m' Hr Bm' Vv.
    replace (o + (r - 0) * pitch) with (o + r * pitch) by ring.
    apply h4_four_row_run; try assumption; try nia.
  - exists (mem st). split; [|split; assumption].
    unfold call, call_from, h4_four, start. cbn [run_blocks repeat].
    do 10 vstep ltac:(side). cbn [run obind].
    match goal with |- context [loop_nz _ _ _ _ _ ?x] => replace x with (hstate s so ss d (o - 0 * pitch) pitch h ([shuf2b; Vb []; Vb []; shuf3b; Vb []; T k24; T k13; rd] ++ others 16) m) end.
    + rewrite E. reflexivity.
    + unfold hstate. apply machine_eq; [cbn [app repeat]; repeat (f_equal; try lia)|reflexivity|reflexivity].
Qed.

Lemma v8_six_call : forall L k05 k13 k24 s so ss d o pitch h m,
  good k05 k13 k24 -> bytes_ok m -> s <> d -> 0 < h -> 0 <= ss -> 8 <= pitch ->
  0 <= so -> so + (h + 4) * ss + 8 <= extent L s -> 0 <= o -> o + (h - 1) * pitch + 8 <= extent L d ->
  exists m', call (Z.to_nat h) L [Ptr s so; Int ss; Ptr d o; Int pitch; Int h] (v8_six k05 k13 k24) m = Some m' /\
    filled m d o pitch 8 (down k05 k13 k24 m s so ss) h m' /\ bytes_ok m'.
Proof.
  intros L k05 k13 k24 s so ss d o pitch h m G Bm N H S P B1 B2 O1 O2.
  set (args := [Ptr s so; Int ss; Ptr d o; Int pitch; Int h]).
  destruct (v_loop L args v8_six_row (V_v8_six k05 k13 k24) 8 k05 k13 k24 s so ss d o pitch h ([Vb []; Vb []; Vb []; Vb []; Vb []; T k05; T k24; T k13] ++ others 16) m) as (st & E & F & B'); try assumption.
  - eexists _, _, _, _, _. reflexivity.
  - intros r vs m' Hr Bm' Vv.
    
    apply v8_six_row_run; try assumption; try nia.
  - exists (mem st). split; [|split; assumption].
    unfold call, call_from, v8_six, start. cbn [run_blocks repeat].
    do 10 vstep ltac:(side). cbn [run obind].
    match goal with |- context [loop_nz _ _ _ _ _ ?x] => replace x with (vstate s so ss d (o) pitch h ([Vb []; Vb []; Vb []; Vb []; Vb []; T k05; T k24; T k13] ++ others 16) m) end.
    + rewrite E. reflexivity.
    + unfold vstate. apply machine_eq; [cbn [app repeat]; repeat (f_equal; try lia)|reflexivity|reflexivity].
Qed.

Lemma v8_four_call : forall L k13 k24 s so ss d o pitch h m,
  good (0, 0) k13 k24 -> bytes_ok m -> s <> d -> 0 < h -> 0 <= ss -> 8 <= pitch ->
  0 <= so -> so + (h + 4) * ss + 8 <= extent L s -> 0 <= o -> o + (h - 1) * pitch + 8 <= extent L d ->
  exists m', call (Z.to_nat h) L [Ptr s so; Int ss; Ptr d o; Int pitch; Int h] (v8_four k13 k24) m = Some m' /\
    filled m d o pitch 8 (down (0, 0) k13 k24 m s so ss) h m' /\ bytes_ok m'.
Proof.
  intros L k13 k24 s so ss d o pitch h m G Bm N H S P B1 B2 O1 O2.
  set (args := [Ptr s so; Int ss; Ptr d o; Int pitch; Int h]).
  destruct (v_loop L args v8_four_row (V_v8_four k13 k24) 8 (0, 0) k13 k24 s so ss d o pitch h ([Vb []; Vb []; Vb []; Vb []; Vb []; rd; T k24; T k13] ++ others 16) m) as (st & E & F & B'); try assumption.
  - eexists _, _, _, _, _. reflexivity.
  - intros r vs m' Hr Bm' Vv.
    
    apply v8_four_row_run; try assumption; try nia.
  - exists (mem st). split; [|split; assumption].
    unfold call, call_from, v8_four, start. cbn [run_blocks repeat].
    do 10 vstep ltac:(side). cbn [run obind].
    match goal with |- context [loop_nz _ _ _ _ _ ?x] => replace x with (vstate s so ss d (o) pitch h ([Vb []; Vb []; Vb []; Vb []; Vb []; rd; T k24; T k13] ++ others 16) m) end.
    + rewrite E. reflexivity.
    + unfold vstate. apply machine_eq; [cbn [app repeat]; repeat (f_equal; try lia)|reflexivity|reflexivity].
Qed.

Lemma v4_six_call : forall L k05 k13 k24 s so ss d o pitch h m,
  good k05 k13 k24 -> bytes_ok m -> s <> d -> 0 < h -> 0 <= ss -> 4 <= pitch ->
  0 <= so -> so + (h + 4) * ss + 4 <= extent L s -> 0 <= o -> o + (h - 1) * pitch + 4 <= extent L d ->
  exists m', call (Z.to_nat h) L [Ptr s so; Int ss; Ptr d o; Int pitch; Int h] (v4_six k05 k13 k24) m = Some m' /\
    filled m d o pitch 4 (down k05 k13 k24 m s so ss) h m' /\ bytes_ok m'.
Proof.
  intros L k05 k13 k24 s so ss d o pitch h m G Bm N H S P B1 B2 O1 O2.
  set (args := [Ptr s so; Int ss; Ptr d o; Int pitch; Int h]).
  destruct (v_loop L args v4_six_row (V_v4_six k05 k13 k24) 4 k05 k13 k24 s so ss d o pitch h (others 16 ++ [Vb []; Vb []; Vb []; Vb []; Vb []; T4 k05; T4 k24; T4 k13]) m) as (st & E & F & B'); try assumption.
  - eexists _, _, _, _, _. reflexivity.
  - intros r vs m' Hr Bm' Vv.
    
    apply v4_six_row_run; try assumption; try nia.
  - exists (mem st). split; [|split; assumption].
    unfold call, call_from, v4_six, start. cbn [run_blocks repeat].
    do 10 vstep ltac:(side). cbn [run obind].
    match goal with |- context [loop_nz _ _ _ _ _ ?x] => replace x with (vstate s so ss d (o) pitch h (others 16 ++ [Vb []; Vb []; Vb []; Vb []; Vb []; T4 k05; T4 k24; T4 k13]) m) end.
    + rewrite E. reflexivity.
    + unfold vstate. apply machine_eq; [cbn [app repeat]; repeat (f_equal; try lia)|reflexivity|reflexivity].
Qed.

Lemma v4_four_call : forall L k13 k24 s so ss d o pitch h m,
  good (0, 0) k13 k24 -> bytes_ok m -> s <> d -> 0 < h -> 0 <= ss -> 4 <= pitch ->
  0 <= so -> so + (h + 4) * ss + 4 <= extent L s -> 0 <= o -> o + (h - 1) * pitch + 4 <= extent L d ->
  exists m', call (Z.to_nat h) L [Ptr s so; Int ss; Ptr d o; Int pitch; Int h] (v4_four k13 k24) m = Some m' /\
    filled m d o pitch 4 (down (0, 0) k13 k24 m s so ss) h m' /\ bytes_ok m'.
Proof.
  intros L k13 k24 s so ss d o pitch h m G Bm N H S P B1 B2 O1 O2.
  set (args := [Ptr s so; Int ss; Ptr d o; Int pitch; Int h]).
  destruct (v_loop L args v4_four_row (V_v4_four k13 k24) 4 (0, 0) k13 k24 s so ss d o pitch h (others 16 ++ [Vb []; Vb []; Vb []; Vb []; Vb []; rd4; T4 k24; T4 k13]) m) as (st & E & F & B'); try assumption.
  - eexists _, _, _, _, _. reflexivity.
  - intros r vs m' Hr Bm' Vv.
    
    apply v4_four_row_run; try assumption; try nia.
  - exists (mem st). split; [|split; assumption].
    unfold call, call_from, v4_four, start. cbn [run_blocks repeat].
    do 10 vstep ltac:(side). cbn [run obind].
    match goal with |- context [loop_nz _ _ _ _ _ ?x] => replace x with (vstate s so ss d (o) pitch h (others 16 ++ [Vb []; Vb []; Vb []; Vb []; Vb []; rd4; T4 k24; T4 k13]) m) end.
    + rewrite E. reflexivity.
    + unfold vstate. apply machine_eq; [cbn [app repeat]; repeat (f_equal; try lia)|reflexivity|reflexivity].
Qed.

Lemma v16_six_call : forall L k05 k13 k24 s so ss d o pitch h m,
  good k05 k13 k24 -> bytes_ok m -> s <> d -> 0 < h -> 0 <= ss -> 16 <= pitch ->
  0 <= so -> so + (h + 4) * ss + 16 <= extent L s -> 0 <= o -> o + (h - 1) * pitch + 16 <= extent L d ->
  exists m', call (Z.to_nat h) L [Ptr s so; Int ss; Ptr d o; Int pitch; Int h] (v16_six k05 k13 k24) m = Some m' /\
    filled m d o pitch 16 (down k05 k13 k24 m s so ss) h m' /\ bytes_ok m'.
Proof.
  intros L k05 k13 k24 s so ss d o pitch h m G Bm N H S P B1 B2 O1 O2.
  set (args := [Ptr s so; Int ss; Ptr d o; Int pitch; Int h]).
  destruct (v_loop L args v16_six_row (V_v16_six k05 k13 k24) 16 k05 k13 k24 s so ss d o pitch h ([Vb []; Vb []; Vb []; Vb []; Vb []; T k05; T k24; T k13] ++ others 16) m) as (st & E & F & B'); try assumption.
  - eexists _, _, _, _, _. reflexivity.
  - intros r vs m' Hr Bm' Vv.
    
    apply v16_six_row_run; try assumption; try nia.
  - exists (mem st). split; [|split; assumption].
    unfold call, call_from, v16_six, start. cbn [run_blocks repeat].
    do 10 vstep ltac:(side). cbn [run obind].
    match goal with |- context [loop_nz _ _ _ _ _ ?x] => replace x with (vstate s so ss d (o) pitch h ([Vb []; Vb []; Vb []; Vb []; Vb []; T k05; T k24; T k13] ++ others 16) m) end.
    + rewrite E. reflexivity.
    + unfold vstate. apply machine_eq; [cbn [app repeat]; repeat (f_equal; try lia)|reflexivity|reflexivity].
Qed.

Lemma v16_four_call : forall L k13 k24 s so ss d o pitch h m,
  good (0, 0) k13 k24 -> bytes_ok m -> s <> d -> 0 < h -> 0 <= ss -> 16 <= pitch ->
  0 <= so -> so + (h + 4) * ss + 16 <= extent L s -> 0 <= o -> o + (h - 1) * pitch + 16 <= extent L d -> (forall r, 0 <= r < h -> (base L d + (o + r * pitch)) mod 16 = 0) ->
  exists m', call (Z.to_nat h) L [Ptr s so; Int ss; Ptr d o; Int pitch; Int h] (v16_four k13 k24) m = Some m' /\
    filled m d o pitch 16 (down (0, 0) k13 k24 m s so ss) h m' /\ bytes_ok m'.
Proof.
  intros L k13 k24 s so ss d o pitch h m G Bm N H S P B1 B2 O1 O2 Al.
  set (args := [Ptr s so; Int ss; Ptr d o; Int pitch; Int h]).
  destruct (v_loop L args v16_four_row (V_v16_four k13 k24) 16 (0, 0) k13 k24 s so ss d o pitch h ([Vb []; Vb []; Vb []; Vb []; Vb []; Vb []; T k24; T k13] ++ others 16) m) as (st & E & F & B'); try assumption.
  - eexists _, _, _, _, _, _. reflexivity.
  - intros r vs m' Hr Bm' Vv.
    
    apply v16_four_row_run; try assumption; try nia. apply Al. exact Hr.
  - exists (mem st). split; [|split; assumption].
    unfold call, call_from, v16_four, start. cbn [run_blocks repeat].
    do 9 vstep ltac:(side). cbn [run obind].
    match goal with |- context [loop_nz _ _ _ _ _ ?x] => replace x with (vstate s so ss d (o) pitch h ([Vb []; Vb []; Vb []; Vb []; Vb []; Vb []; T k24; T k13] ++ others 16) m) end.
    + rewrite E. reflexivity.
    + unfold vstate. apply machine_eq; [cbn [app repeat]; repeat (f_equal; try lia)|reflexivity|reflexivity].
Qed.
