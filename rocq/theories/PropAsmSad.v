(** C78: the assembled sum of absolute differences against the portable one. *)
From Verif Require Import Base MVModel FrameModel RasterModel VarianceModel PropVariance SimdModel SimdProofs AsmSadModel.
From Verif Require AsmLoopFilterProofs.
Import AsmLoopFilterProofs.

(** ** Statements *)

(** A 16x16 block in memory. *)
Definition block_at (m : nat -> Z -> Z) (s : nat) (o st : Z) (b : list (list Z)) : Prop :=
  forall i j, (i < 16)%nat -> (j < 16)%nat -> nth i (nth j b []) 0 = m s (o + st * Z.of_nat j + Z.of_nat i).
Definition block_inside (L : layout) (s : nat) (o st : Z) : Prop :=
  forall j, 0 <= j < 16 -> 0 <= o + st * j /\ o + st * j + 16 <= extent L s.

(** ** Proof *)

Definition half (f g : nat -> Z) (k : nat) : Z := fold_right Z.add 0 (map (fun i => Z.abs (f i - g i)) (seq (8 * k) 8)).

Lemma psad_B : forall f g, psadbw (B f) (B g) = Vd [half f g 0; 0; half f g 1; 0].
Proof. reflexivity. Qed.
Lemma paddd_D : forall a b c d, paddd (Vd [a; 0; b; 0]) (Vd [c; 0; d; 0]) = Vd [s32 (a + c); 0; s32 (b + d); 0].
Proof. reflexivity. Qed.
Lemma s32_small : forall z, 0 <= z < 2147483648 -> s32 z = z.
Proof. intros; unfold s32; lia. Qed.

Lemma add5 : forall a b c d e, 0 <= a < 1000000 -> 0 <= b <= 2040 -> 0 <= c <= 2040 -> 0 <= d <= 2040 -> 0 <= e <= 2040 ->
  s32 (s32 (a + s32 (b + c)) + s32 (d + e)) = a + b + c + d + e.
Proof. intros. rewrite (s32_small (b + c)), (s32_small (d + e)), (s32_small (a + (b + c))) by lia. rewrite s32_small by lia. lia. Qed.

(** Row n of the two blocks, from column 8 k. *)
Definition hrow (m : nat -> Z -> Z) (r : nat) (q rs : Z) (s : nat) (p ss : Z) (n : Z) (k : nat) : Z :=
  half (fun i => m r (q + rs * n + Z.of_nat i)) (fun i => m s (p + ss * n + Z.of_nat i)) k.

Lemma half_is : forall m r q rs s p ss n k x y,
  (forall i, x i = m r (q + rs * n + Z.of_nat i)) -> (forall i, y i = m s (p + ss * n + Z.of_nat i)) ->
  half x y k = hrow m r q rs s p ss n k.
Proof. intros * X Y. unfold hrow, half. f_equal. apply map_ext. intros i. rewrite X, Y. reflexivity. Qed.

Lemma half_range : forall f g k, (forall i, 0 <= f i <= 255) -> (forall i, 0 <= g i <= 255) -> 0 <= half f g k <= 2040.
Proof.
  intros f g k F G. unfold half. cbn [seq map fold_right].
  assert (A : forall i, 0 <= Z.abs (f i - g i) <= 255) by (intros i; specialize (F i); specialize (G i); lia).
  clear F G. generalize (8 * k)%nat as z; intros z.
  pose proof (A z); pose proof (A (S z)); pose proof (A (S (S z))); pose proof (A (S (S (S z)))); pose proof (A (S (S (S (S z)))));
  pose proof (A (S (S (S (S (S z)))))); pose proof (A (S (S (S (S (S (S z))))))); pose proof (A (S (S (S (S (S (S (S z)))))))). clear A. lia.
Qed.

Lemma hrow_shift : forall m r q rs s p ss n n' k, 
  hrow m r (q + rs * n) rs s (p + ss * n) ss n' k = hrow m r q rs s p ss (n + n') k.
Proof. intros. unfold hrow, half. f_equal. apply map_ext. intros i. do 2 f_equal; f_equal; ring. Qed.

Ltac se_eval t :=
  eval cbv [exec source eval reg set_v set_g set_m vreg gp vr mem nth set_nth obind val_add val_mul as_int
            rax rcx rdx rbx rsp rsi rdi r8 r9] in t.
Ltac sstep side :=
  match goal with
  | |- context [run ?L ?a (?i :: ?l) ?s] =>
      rewrite (run_cons L a i l s);
      let r := fresh "rest" in set (r := run L a l);
      let x := se_eval (exec L a i s) in change (exec L a i s) with x;
      rewrite ?load_ok by side;
      cbv beta iota;
      rewrite ?mem_B; rewrite ?mov_id; name_it; rewrite ?psad_B, ?paddd_D;
      match goal with |- context [obind (Some ?s') r] => change (obind (Some s') r) with (r s') end; subst r
  end.

Definition quad (m : nat -> Z -> Z) r q rs s p ss k : Z :=
  hrow m r q rs s p ss 0 k + hrow m r q rs s p ss 1 k + hrow m r q rs s p ss 2 k + hrow m r q rs s p ss 3 k.

Section rows.
  Variables (L : layout) (args : list val) (m : nat -> Z -> Z) (r s : nat) (rs ss : Z).
  Hypothesis bytes_m : forall k a, 0 <= m k a <= 255.

  Lemma hrow_range q p n k : 0 <= hrow m r q rs s p ss n k <= 2040.
  Proof. apply half_range; intros; apply bytes_m. Qed.

  Lemma rows_ok : forall q p n a b g3 g4 g7 g v1 v2 v3 v4 v,
    (forall j, 0 <= j < 4 -> 0 <= q + rs * j /\ q + rs * j + 16 <= extent L r) ->
    (forall j, 0 <= j < 4 -> 0 <= p + ss * j /\ p + ss * j + 16 <= extent L s) ->
    (forall j, 0 <= j < 4 -> (base L s + (p + ss * j)) mod 16 = 0) ->
    0 <= a < 1000000 -> 0 <= b < 1000000 ->
    exists v1' v2' v3' v4',
    run L args sad_rows (mkMachine (Int n :: Int rs :: Ptr r q :: g3 :: g4 :: Int ss :: Ptr s p :: g7 :: Int (3 * ss) :: Int (3 * rs) :: g)
                           (Vd [a; 0; b; 0] :: v1 :: v2 :: v3 :: v4 :: v) m) =
    Some (mkMachine (Int (n + -1) :: Int rs :: Ptr r (q + rs * 4) :: g3 :: g4 :: Int ss :: Ptr s (p + ss * 4) :: g7 :: Int (3 * ss) :: Int (3 * rs) :: g)
           (Vd [a + quad m r q rs s p ss 0; 0; b + quad m r q rs s p ss 1; 0] :: v1' :: v2' :: v3' :: v4' :: v) m).
  Proof.
    intros * IR IS AL Ha Hb.
    pose proof (IR 0 ltac:(lia)) as R0; pose proof (IR 1 ltac:(lia)) as R1; pose proof (IR 2 ltac:(lia)) as R2; pose proof (IR 3 ltac:(lia)) as R3.
    pose proof (IS 0 ltac:(lia)) as S0; pose proof (IS 1 ltac:(lia)) as S1; pose proof (IS 2 ltac:(lia)) as S2; pose proof (IS 3 ltac:(lia)) as S3.
    pose proof (AL 0 ltac:(lia)) as A0; pose proof (AL 1 ltac:(lia)) as A1; pose proof (AL 2 ltac:(lia)) as A2; pose proof (AL 3 ltac:(lia)) as A3.
    clear IR IS AL. unfold sad_rows.
    do 4 eexists.
    do 15 sstep ltac:(first [lia
      | intros _; first [rewrite <- A0; f_equal; ring | rewrite <- A1; f_equal; ring | rewrite <- A2; f_equal; ring | rewrite <- A3; f_equal; ring]
      | discriminate]).
    cbn [run].
    repeat match goal with
    | |- context [half ?x ?y ?k] =>
      match goal with
      | X : forall i, x i = _, Y : forall i, y i = _ |- _ =>
        first [ rewrite (half_is m r q rs s p ss 0 k x y) by (intros; rewrite ?X, ?Y; f_equal; ring)
              | rewrite (half_is m r q rs s p ss 1 k x y) by (intros; rewrite ?X, ?Y; f_equal; ring)
              | rewrite (half_is m r q rs s p ss 2 k x y) by (intros; rewrite ?X, ?Y; f_equal; ring)
              | rewrite (half_is m r q rs s p ss 3 k x y) by (intros; rewrite ?X, ?Y; f_equal; ring)]
      end
    end.
    pose proof (hrow_range q p 0 0); pose proof (hrow_range q p 1 0); pose proof (hrow_range q p 2 0); pose proof (hrow_range q p 3 0).
    pose proof (hrow_range q p 0 1); pose proof (hrow_range q p 1 1); pose proof (hrow_range q p 2 1); pose proof (hrow_range q p 3 1).
    match goal with |- Some (mkMachine ?G (Vd [?x; 0; ?y; 0] :: ?V) m) = Some (mkMachine ?G' (Vd [?x'; 0; ?y'; 0] :: _) m) =>
      assert (EX : x = x') by (unfold quad; rewrite add5; lia);
      assert (EY : y = y') by (unfold quad; rewrite add5; lia);
      assert (EG : G = G') by (repeat (f_equal; try ring)) end.
    rewrite EX, EY, EG. reflexivity.
  Qed.
End rows.

(** The rows of a block, as lists. *)
Definition row_at (m : nat -> Z -> Z) (s : nat) (o st : Z) (j : nat) : list Z :=
  map (fun i => m s (o + st * Z.of_nat j + Z.of_nat i)) (seq 0 16).

Lemma block_rows : forall m s o st b, block_of 16 b -> block_at m s o st b -> b = map (row_at m s o st) (seq 0 16).
Proof.
  intros m s o st b [Lb Fb] At. apply (nth_ext _ _ [] []).
  - rewrite map_length, seq_length. exact Lb.
  - intros j Hj. rewrite Lb in Hj.
    rewrite (nth_indep (map (row_at m s o st) (seq 0 16)) [] (row_at m s o st 0)) by (rewrite map_length, seq_length; exact Hj).
    rewrite map_nth, seq_nth by exact Hj. cbn [Nat.add].
    assert (Lr : length (nth j b []) = 16%nat) by (rewrite Forall_forall in Fb; apply Fb, nth_In; lia).
    unfold row_at. apply (nth_ext _ _ 0 0); [rewrite map_length, seq_length; exact Lr|].
    intros i Hi. rewrite Lr in Hi. rewrite At by assumption.
    rewrite (nth_indep _ 0 ((fun i => m s (o + st * Z.of_nat j + Z.of_nat i)) 0%nat)) by (rewrite map_length, seq_length; exact Hi).
    rewrite (map_nth (fun i => m s (o + st * Z.of_nat j + Z.of_nat i))), seq_nth by exact Hi. reflexivity.
Qed.

Lemma row_total : forall f g : nat -> Z,
  total (map Z.abs (map (fun '(u, v) => u - v) (combine (map f (seq 0 16)) (map g (seq 0 16))))) = half g f 0 + half g f 1.
Proof.
  intros f g. unfold half, total. cbn [seq map combine fold_right Nat.mul Nat.add].
  assert (A : forall i, Z.abs (f i - g i) = Z.abs (g i - f i)) by (intros; lia).
  rewrite !A. ring.
Qed.

(** The sum of the sixteen rows. *)
Lemma sum_rows : forall m r q rs s p ss,
  total (map Z.abs (differences (map (row_at m s p ss) (seq 0 16)) (map (row_at m r q rs) (seq 0 16)))) =
  fold_right Z.add 0 (map (fun j => hrow m r q rs s p ss (Z.of_nat j) 0 + hrow m r q rs s p ss (Z.of_nat j) 1) (seq 0 16)).
Proof.
  intros. unfold differences. induction (seq 0 16) as [|j l IH]; [reflexivity|].
  cbn [map combine flat_map fold_right]. rewrite map_app, total_app, IH. f_equal. apply row_total.
Qed.

Lemma loop_S : forall n L args c l s, loop (S n) L args c l s =
  obind (run L args l s) (fun s => obind (as_int (reg s c)) (fun z => if 0 <? z then loop n L args c l s else Some s)).
Proof. reflexivity. Qed.

Lemma exit_ok : forall L args g0 g a b v1 v m,
  obind (obind (run L args sad_exit (mkMachine (g0 :: g) (Vd [a; 0; b; 0] :: v1 :: v) m)) (fun s => Some s)) (fun s => as_int (reg s rax)) =
  Some (s32 (a + b) mod 4294967296).
Proof. reflexivity. Qed.

Theorem C78_sad : forall L m s p ss r q rs b pr,
  (forall k a, 0 <= m k a <= 255) ->
  block_of 16 b -> block_of 16 pr ->
  block_inside L s p ss -> block_at m s p ss b -> (base L s + p) mod 16 = 0 -> ss mod 16 = 0 ->
  block_inside L r q rs -> block_at m r q rs pr ->
  sad_sse2 L m (Ptr s p) ss (Ptr r q) rs = Some (sad 16 b pr).
Proof.
  intros * BM Hb Hp IS AS AL SS IR AR.
  destruct (C66_portable 16 b pr) as (-> & _); [unfold size_ok; lia|assumption..|].
  rewrite (block_rows _ _ _ _ _ Hb AS), (block_rows _ _ _ _ _ Hp AR), sum_rows. clear Hb Hp AS AR b pr.
  assert (AJ : forall j, (base L s + (p + ss * j)) mod 16 = 0).
  { intros j. replace (base L s + (p + ss * j)) with ((base L s + p) + (ss * j)) by ring.
    rewrite Z.add_mod, AL, Z.mul_mod, SS by lia. reflexivity. }
  pose proof (hrow_range m r s rs ss BM) as HR.
  assert (QR : forall q p k, 0 <= quad m r q rs s p ss k <= 8160).
  { intros q' p' k. unfold quad. pose proof (HR q' p' 0 k). pose proof (HR q' p' 1 k). pose proof (HR q' p' 2 k). pose proof (HR q' p' 3 k). lia. }
  unfold sad_sse2, run_blocks, sad16x16, start. cbn [repeat].
  set (args := [_; _; _; _]).
  match goal with |- context [run L args sad_entry ?st] =>
    let x := eval cbv [sad_entry run exec source eval reg set_v set_g vreg gp vr mem nth set_nth obind val_add val_mul as_int mov args
      rax rcx rdx rbx rsp rsi rdi r8 r9] in (run L args sad_entry st) in
    change (run L args sad_entry st) with x end.
  cbn [obind].
  replace (ss + 2 * ss + 0) with (3 * ss) by ring. replace (rs + 2 * rs + 0) with (3 * rs) by ring.
  Ltac iter L m r s rs ss BM IS IR AJ QR args k :=
    rewrite loop_S;
    match goal with |- context [run L args sad_rows (mkMachine (Int ?n :: _ :: Ptr _ ?q :: ?g3 :: ?g4 :: _ :: Ptr _ ?p :: ?g7 :: _ :: _ :: ?g)
        (Vd [?a; 0; ?b; 0] :: ?v1 :: ?v2 :: ?v3 :: ?v4 :: ?v) _)] =>
      let E := fresh "E" in
      destruct (rows_ok L args m r s rs ss BM q p n a b g3 g4 g7 g v1 v2 v3 v4 v) as (? & ? & ? & ? & E);
      [ intros j Hj; specialize (IR (k + j) ltac:(lia)); lia
      | intros j Hj; specialize (IS (k + j) ltac:(lia)); lia
      | intros j Hj; rewrite <- (AJ (k + j)); f_equal; ring
      | repeat match goal with |- context [quad m r ?q rs s ?p ss ?z] => pose proof (QR q p z); generalize dependent (quad m r q rs s p ss z); intros end; lia
      | repeat match goal with |- context [quad m r ?q rs s ?p ss ?z] => pose proof (QR q p z); generalize dependent (quad m r q rs s p ss z); intros end; lia
      | rewrite E; clear E; cbn [obind as_int reg gp nth rax] ]
    end.
  iter L m r s rs ss BM IS IR AJ QR args 0. change (0 <? 4 + -1) with true. cbv iota.
  iter L m r s rs ss BM IS IR AJ QR args 4. change (0 <? 4 + -1 + -1) with true. cbv iota.
  iter L m r s rs ss BM IS IR AJ QR args 8. change (0 <? 4 + -1 + -1 + -1) with true. cbv iota.
  iter L m r s rs ss BM IS IR AJ QR args 12. change (0 <? 4 + -1 + -1 + -1 + -1) with false. cbv iota. cbn [obind].
  rewrite exit_ok. f_equal.
  assert (Q4 : forall n k, quad m r (q + rs * n) rs s (p + ss * n) ss k =
    hrow m r q rs s p ss n k + hrow m r q rs s p ss (n + 1) k + hrow m r q rs s p ss (n + 2) k + hrow m r q rs s p ss (n + 3) k).
  { intros n k. unfold quad. rewrite !hrow_shift, Z.add_0_r. reflexivity. }
  replace (q + rs * 4 + rs * 4 + rs * 4) with (q + rs * 12) by ring. replace (p + ss * 4 + ss * 4 + ss * 4) with (p + ss * 12) by ring.
  replace (q + rs * 4 + rs * 4) with (q + rs * 8) by ring. replace (p + ss * 4 + ss * 4) with (p + ss * 8) by ring.
  match goal with |- s32 ?z mod _ = ?t => assert (RZ : 0 <= z <= 65280); [|rewrite (s32_small z), Z.mod_small by (clear - RZ; lia)] end.
  { pose proof (QR q p 0%nat); pose proof (QR (q + rs * 4) (p + ss * 4) 0%nat); pose proof (QR (q + rs * 8) (p + ss * 8) 0%nat); pose proof (QR (q + rs * 12) (p + ss * 12) 0%nat).
    pose proof (QR q p 1%nat); pose proof (QR (q + rs * 4) (p + ss * 4) 1%nat); pose proof (QR (q + rs * 8) (p + ss * 8) 1%nat); pose proof (QR (q + rs * 12) (p + ss * 12) 1%nat).
    clear - H H0 H1 H2 H3 H4 H5 H6; lia. }
  rewrite !Q4. unfold quad. cbn [seq map fold_right].
  change (Z.of_nat 0) with 0. change (Z.of_nat 1) with 1. change (Z.of_nat 2) with 2. change (Z.of_nat 3) with 3.
  change (Z.of_nat 4) with 4. change (Z.of_nat 5) with 5. change (Z.of_nat 6) with 6. change (Z.of_nat 7) with 7.
  change (Z.of_nat 8) with 8. change (Z.of_nat 9) with 9. change (Z.of_nat 10) with 10. change (Z.of_nat 11) with 11.
  change (Z.of_nat 12) with 12. change (Z.of_nat 13) with 13. change (Z.of_nat 14) with 14. change (Z.of_nat 15) with 15.
  change (4 + 1) with 5. change (4 + 2) with 6. change (4 + 3) with 7. change (8 + 1) with 9. change (8 + 2) with 10. change (8 + 3) with 11.
  change (12 + 1) with 13. change (12 + 2) with 14. change (12 + 3) with 15.
  ring.
Qed.

(** The demand of psadbw for alignment: a source block that does not start at a
    multiple of 16 makes the call fault at the first row. *)
Theorem C78_any_address_refuted :
  ~ (forall L m s p ss r q rs, (forall k a, 0 <= m k a <= 255) -> block_inside L s p ss -> block_inside L r q rs ->
       sad_sse2 L m (Ptr s p) ss (Ptr r q) rs <> None).
Proof.
  intros H. apply (H (mkLayout (fun _ => 1024) (fun _ => 0)) (fun _ _ => 0) 0%nat 8 32 1%nat 0 32); [intros; lia| | |vm_compute; reflexivity];
    intros j Hj; cbn [extent]; lia.
Qed.

(** A frame 48 wide with a gradient against one shifted by 3 columns, and the
    motion vector takes the reference to an odd address. *)
Definition c78_mem (k : nat) (a : Z) : Z := match k with O => (a * 7) mod 256 | _ => (a * a) mod 251 end.
Definition c78_layout : layout := mkLayout (fun _ => 48 * 20) (fun _ => 4096).
Definition c78_block (k : nat) (o : Z) : list (list Z) := map (row_at c78_mem k o 48) (seq 0 16).
Example c78_hypotheses :
  (forall k a, 0 <= c78_mem k a <= 255) /\ block_of 16 (c78_block 0 16) /\ block_of 16 (c78_block 1 51) /\
  block_inside c78_layout 0 16 48 /\ block_at c78_mem 0 16 48 (c78_block 0 16) /\ (base c78_layout 0%nat + 16) mod 16 = 0 /\ 48 mod 16 = 0 /\
  block_inside c78_layout 1 51 48 /\ block_at c78_mem 1 51 48 (c78_block 1 51).
Proof.
  assert (BM : forall k a, 0 <= c78_mem k a <= 255) by (intros [|k] a; unfold c78_mem; [pose proof (Z.mod_pos_bound (a * 7) 256)|pose proof (Z.mod_pos_bound (a * a) 251)]; lia).
  assert (BO : forall k o, block_of 16 (c78_block k o)).
  { intros k o. split; [reflexivity|]. unfold c78_block. apply Forall_forall. intros x I. apply in_map_iff in I. destruct I as (j & <- & _).
    split; [reflexivity|]. apply Forall_forall. intros y J. apply in_map_iff in J. destruct J as (i & <- & _).
    pose proof (BM k (o + 48 * Z.of_nat j + Z.of_nat i)). unfold byte_ok. lia. }
  assert (BA : forall k o, block_at c78_mem k o 48 (c78_block k o)).
  { intros k o i j Hi Hj. unfold c78_block. do 16 (destruct j as [|j]; [do 16 (destruct i as [|i]; [reflexivity|]); lia|]). lia. }
  repeat split; try apply BM; try apply BO; try apply BA; unfold block_inside in *; cbn [extent c78_layout] in *; lia.
Qed.
Example c78_value : sad_sse2 c78_layout c78_mem (Ptr 0 16) 48 (Ptr 1 51) 48 = Some (sad 16 (c78_block 0 16) (c78_block 1 51)) /\
  sad_sse2 c78_layout c78_mem (Ptr 0 16) 48 (Ptr 1 51) 48 <> Some 0.
Proof. split; [vm_compute; reflexivity|]. vm_compute. discriminate. Qed.

Print Assumptions C78_sad.
Print Assumptions C78_any_address_refuted.
