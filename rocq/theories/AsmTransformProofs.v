(** Symbolic execution of the assembled transforms. *)
From Verif Require Import Base MVModel FrameModel RasterModel TransformModel ResidueModel VarianceModel SimdModel AsmTransformModel.
From Verif Require Import SimdProofs ChunkProofs PropTransform.

(** * Words in memory *)

Lemma peek16_in : forall m seg off a x, a = off -> peek16 (poke m seg off [lo8 x; hi8 x]) seg a = s16 x.
Proof.
  intros m seg off a x ->. unfold peek16. rewrite !poke_in by (unfold zlen; cbn [length]; lia).
  rewrite Z.sub_diag. replace (off + 1 - off) with 1 by lia. apply word_split.
Qed.
Lemma peek16_out : forall m seg off l s a, s <> seg \/ a + 2 <= off \/ off + zlen l <= a -> peek16 (poke m seg off l) s a = peek16 m s a.
Proof. intros. unfold peek16. rewrite !poke_out by lia. reflexivity. Qed.

Lemma s16_s16 : forall x, s16 (s16 x) = s16 x.
Proof. intros. unfold s16. lia. Qed.
Lemma s16_add_l : forall x y, s16 (s16 x + y) = s16 (x + y).
Proof. intros. unfold s16. lia. Qed.
Lemma s16_add_r : forall x y, s16 (x + s16 y) = s16 (x + y).
Proof. intros. unfold s16. lia. Qed.
Lemma s16_sub_l : forall x y, s16 (s16 x - y) = s16 (x - y).
Proof. intros. unfold s16. lia. Qed.
Lemma s16_sub_r : forall x y, s16 (x - s16 y) = s16 (x - y).
Proof. intros. unfold s16. lia. Qed.

Ltac side := first [lia | intros _; lia | unfold zlen; cbn [length firstn skipn]; lia | intros _; unfold zlen; cbn [length firstn skipn]; lia].

(** * The inverse Walsh-Hadamard transform *)

(** Truncation to 13 bits. *)
Definition s13 (x : Z) : Z := (x + 4096) mod 8192 - 4096.

Lemma s13_div : forall x y, s16 x = s16 y -> s16 x / 8 = s13 (s16 (y / 8)).
Proof. intros x y. unfold s16, s13. lia. Qed.
Lemma s16_div8 : forall x, s16 (s16 x / 8) = s16 x / 8.
Proof. intros x. unfold s16. lia. Qed.

Definition iwalsh_stores : list instr :=
  [Movd rax 5; Movd rcx 4] ++ iwalsh_next ++ iwalsh_out 0 2 4 6 ++
  [Movd rax 5; Movd rcx 4] ++ iwalsh_next ++ iwalsh_out 8 10 12 14 ++
  [Movd rax 5; Movd rcx 4] ++ iwalsh_next ++ iwalsh_out 1 3 5 7 ++
  [Movd rax 5; Movd rcx 4] ++ iwalsh_out 9 11 13 15.

Definition put16 (o : nat) (m : nat -> Z -> Z) (p : Z * Z) : nat -> Z -> Z := poke m o (fst p) [lo8 (snd p); hi8 (snd p)].

Lemma iwalsh_stores_run : forall L args g0 g1 g3 gs v0 v1 v2 v3 vs m o oo x0 x1 x2 x3 x4 x5 x6 x7 y0 y1 y2 y3 y4 y5 y6 y7,
  0 <= oo -> oo + 482 <= extent L o ->
  exists s, run L args iwalsh_stores (mkMachine (g0 :: g1 :: Ptr o oo :: g3 :: gs)
    (v0 :: v1 :: v2 :: v3 :: Vw [y0; y1; y2; y3; y4; y5; y6; y7] :: Vw [x0; x1; x2; x3; x4; x5; x6; x7] :: vs) m) = Some s /\
  mem s = fold_left (put16 o)
    [(oo + 0, x0); (oo + 64, y0); (oo + 128, x1); (oo + 192, y1);
     (oo + 256, x2); (oo + 320, y2); (oo + 384, x3); (oo + 448, y3);
     (oo + 32, x4); (oo + 96, y4); (oo + 160, x5); (oo + 224, y5);
     (oo + 288, x6); (oo + 352, y6); (oo + 416, x7); (oo + 480, y7)] m.
Proof.
  intros. unfold iwalsh_stores, iwalsh_next, iwalsh_out. cbn [app].
  repeat vstep ltac:(side). cbn [run obind].
  eexists. split; [reflexivity|]. cbn [mem].
  rewrite !lo8_movd, !hi8_movd, !lo8_movd_shr, !hi8_movd_shr. reflexivity.
Qed.

Lemma put16_out : forall o l m s a,
  (forall p, In p l -> s <> o \/ a < fst p \/ fst p + 2 <= a) -> fold_left (put16 o) l m s a = m s a.
Proof.
  induction l as [|p l IH]; intros m s a N; [reflexivity|]. cbn [fold_left].
  rewrite IH by (intros; apply N; right; assumption).
  unfold put16. apply poke_out. unfold zlen. cbn [length]. specialize (N p (or_introl eq_refl)). lia.
Qed.

(** The lane in row [r], column [k] of the result. *)
Definition iwalsh_lane (C : nat -> nat -> Z) (r k : nat) : Z := s16 (both_ways hadamard C r k + 3) / 8.

Lemma s16_ex : forall x, exists k, s16 x = x + 65536 * k.
Proof. intros x. exists (- ((x + 32768) / 65536)). unfold s16. lia. Qed.
Lemma s16_cong : forall x y, (x - y) mod 65536 = 0 -> s16 x = s16 y.
Proof. intros. unfold s16. lia. Qed.
(** Equality of sums that wrap around. *)
Ltac lanes16 :=
  unfold add16, sub16; apply s16_cong;
  repeat match goal with
  | |- context [s16 ?x] =>
      lazymatch x with context [s16 _] => fail | _ => let k := fresh "k" in let E := fresh "E" in destruct (s16_ex x) as [k E]; rewrite E; clear E end
  end; lia.

Lemma iwalsh_arith_run : forall L args g0 gs v2 v3 v4 v5 vs m b0 b1 b2 b3 b4 b5 b6 b7 b8 b9 b10 b11 b12 b13 b14 b15 b16 b17 b18 b19 b20 b21 b22 b23 b24 b25 b26 b27 b28 b29 b30 b31,
  let C := coef [word b0 b1; word b2 b3; word b4 b5; word b6 b7; word b8 b9; word b10 b11; word b12 b13; word b14 b15; word b16 b17; word b18 b19; word b20 b21; word b22 b23; word b24 b25; word b26 b27; word b28 b29; word b30 b31] in
  let lane := iwalsh_lane C in
  exists u0 u1 u2 u3,
  run L args iwalsh_arith (mkMachine (Int 196611 :: g0 :: gs) (Vb [b0; b1; b2; b3; b4; b5; b6; b7; b8; b9; b10; b11; b12; b13; b14; b15] :: Vb [b16; b17; b18; b19; b20; b21; b22; b23; b24; b25; b26; b27; b28; b29; b30; b31] :: v2 :: v3 :: v4 :: v5 :: vs) m) =
  Some (mkMachine (Int 196611 :: g0 :: gs)
    (u0 :: u1 :: u2 :: u3 ::
     Vw [lane 0 2; lane 1 2; lane 2 2; lane 3 2; lane 0 3; lane 1 3; lane 2 3; lane 3 3]%nat :: Vw [lane 0 0; lane 1 0; lane 2 0; lane 3 0; lane 0 1; lane 1 1; lane 2 1; lane 3 1]%nat :: vs) m).
Proof.
  intros. do 4 eexists.
  vblock. subst lane C. change (lo16 (s32 196611)) with 3. change (hi16 (s32 196611)) with 3.
  cbn [iwalsh_lane both_ways hadamard coef nth Nat.add Nat.mul]. unfold iwalsh_lane, both_ways, hadamard, coef. cbn [nth Nat.add Nat.mul].
  refine (f_equal Some _). refine (f_equal2 (fun g v => mkMachine g v m) eq_refl _).
  do 4 refine (f_equal2 cons eq_refl _).
  refine (f_equal2 cons _ (f_equal2 cons _ eq_refl)); apply f_equal;
  repeat (refine (f_equal2 cons _ _); [unfold sar; rewrite Z.shiftr_div_pow2 by lia; change (2 ^ 3) with 8; apply (f_equal (fun x => x / 8)); lanes16|]);
  reflexivity.
Qed.

(** The order in which the results are stored. *)
Definition iwalsh_order : list (nat * nat) :=
  [(0, 0); (0, 2); (1, 0); (1, 2); (2, 0); (2, 2); (3, 0); (3, 2);
   (0, 1); (0, 3); (1, 1); (1, 3); (2, 1); (2, 3); (3, 1); (3, 3)]%nat.
Definition iwalsh_puts (C : nat -> nat -> Z) (oo : Z) : list (Z * Z) :=
  map (fun '(r, k) => (oo + 32 * Z.of_nat (4 * r + k), iwalsh_lane C r k)) iwalsh_order.

Lemma iwalsh_call : forall L m i io o oo,
  0 <= io -> io + 32 <= extent L i -> (base L i + io) mod 16 = 0 ->
  0 <= oo -> oo + 482 <= extent L o ->
  call 1 L [Ptr i io; Ptr o oo] iwalsh m =
  Some (fold_left (put16 o) (iwalsh_puts (coef (array16 m i io 2 16)) oo) m).
Proof.
  intros L m i io o oo I0 I1 Al O0 O1.
  unfold call, call_from, iwalsh. cbn [run_blocks].
  rewrite (run_app _ _ [_;_;_;_;_]).
  do 5 vstep ltac:(side). cbn [run obind].
  rewrite run_app. fold iwalsh_stores.
  match goal with |- context [run L ?args iwalsh_arith (mkMachine (_ :: ?g0 :: ?gs)
    (Vb [?b0;?b1;?b2;?b3;?b4;?b5;?b6;?b7;?b8;?b9;?b10;?b11;?b12;?b13;?b14;?b15] :: Vb [?b16;?b17;?b18;?b19;?b20;?b21;?b22;?b23;?b24;?b25;?b26;?b27;?b28;?b29;?b30;?b31] :: ?v2 :: ?v3 :: ?v4 :: ?v5 :: ?vs) ?mm)] =>
    destruct (iwalsh_arith_run L args g0 gs v2 v3 v4 v5 vs mm b0 b1 b2 b3 b4 b5 b6 b7 b8 b9 b10 b11 b12 b13 b14 b15 b16 b17 b18 b19 b20 b21 b22 b23 b24 b25 b26 b27 b28 b29 b30 b31) as (u0 & u1 & u2 & u3 & E)
  end.
  rewrite E. clear E. cbn [obind].
  match goal with |- context [run L ?args iwalsh_stores (mkMachine (?g0 :: ?g1 :: _ :: ?g3 :: ?gs) (_ :: _ :: _ :: _ :: Vw [?y0; ?y1; ?y2; ?y3; ?y4; ?y5; ?y6; ?y7] :: Vw [?x0; ?x1; ?x2; ?x3; ?x4; ?x5; ?x6; ?x7] :: ?vs) ?mm)] =>
    destruct (iwalsh_stores_run L args g0 g1 g3 gs u0 u1 u2 u3 vs mm o oo x0 x1 x2 x3 x4 x5 x6 x7 y0 y1 y2 y3 y4 y5 y6 y7 O0 O1) as (s & E & F)
  end.
  rewrite E. cbn [obind]. rewrite F. clear E F.
  unfold array16. cbn [seq map]. unfold peek16.
  replace (io + 0) with io by lia.
  rewrite <- !Z.add_assoc. reflexivity.
Qed.

Lemma puts_get : forall o a x l m,
  (forall p, In p l -> fst p = a /\ snd p = x \/ fst p + 2 <= a \/ a + 2 <= fst p) ->
  In (a, x) l \/ peek16 m o a = s16 x -> peek16 (fold_left (put16 o) l m) o a = s16 x.
Proof.
  induction l as [|p l IH]; intros m D [I|E]; [destruct I|exact E|..]; cbn [fold_left]; apply IH;
    try (intros q Iq; apply D; right; exact Iq).
  - destruct I as [-> |I]; [right|left; exact I]. unfold put16. apply peek16_in. reflexivity.
  - right. unfold put16. destruct (D p (or_introl eq_refl)) as [[F G]|F].
    + rewrite peek16_in by (symmetry; exact F). rewrite G. reflexivity.
    + rewrite peek16_out by (right; unfold zlen; cbn [length]; lia). exact E.
Qed.

Lemma iwalsh_result : forall C m o oo,
  array16 (fold_left (put16 o) (iwalsh_puts C oo) m) o oo 32 16 = map (fun '(r, k) => iwalsh_lane C r k) rc16.
Proof.
  intros C m o oo.
  assert (G : forall r k, In (r, k) iwalsh_order -> peek16 (fold_left (put16 o) (iwalsh_puts C oo) m) o (oo + 32 * Z.of_nat (4 * r + k)) = iwalsh_lane C r k).
  { intros r k I. rewrite (puts_get o _ (iwalsh_lane C r k)).
    - unfold iwalsh_lane. apply s16_div8.
    - intros p Ip. unfold iwalsh_puts in Ip. apply in_map_iff in Ip as ([r' k'] & <- & I'). cbn [fst snd].
      assert (B : forall a b, In (a, b) iwalsh_order -> (a < 4 /\ b < 4)%nat).
      { intros a b J. unfold iwalsh_order in J. repeat (destruct J as [J|J]; [apply pair_equal_spec in J as [<- <-]; lia|]). destruct J. }
      pose proof (B _ _ I). pose proof (B _ _ I').
      destruct (Nat.eq_dec r r') as [<-|]; [destruct (Nat.eq_dec k k') as [<-|]|]; [left; split; reflexivity|right; lia..].
    - left. unfold iwalsh_puts. apply in_map_iff. exists (r, k). split; [reflexivity|exact I]. }
  transitivity (map (fun '(r, k) => peek16 (fold_left (put16 o) (iwalsh_puts C oo) m) o (oo + 32 * Z.of_nat (4 * r + k))) rc16); [reflexivity|].
  apply map_ext_in. intros [r k] I. apply G. unfold rc16 in I. cbn [flat_map map app] in I.
  repeat (destruct I as [I|I]; [apply pair_equal_spec in I as [<- <-]; cbn; auto 20|]). destruct I.
Qed.

(** * The inverse cosine transform *)

Definition four (a b c d : Z) (i : nat) : Z := match i with 0%nat => a | 1%nat => b | 2%nat => c | _ => d end.

(** The two products, each from the high half of a 16-bit product. *)
Lemma sin_part_asm : forall x, add16 (s16 (Z.shiftr (x * -30068) 16)) x = s16 (sin_part x).
Proof. intros. unfold add16. rewrite Z.shiftr_div_pow2 by lia. change (2 ^ 16) with 65536. rewrite s16_add_l. unfold sin_part. f_equal. lia. Qed.
Lemma cos_part_asm : forall x, add16 (s16 (Z.shiftr (x * 20091) 16)) x = s16 (cos_part x).
Proof. intros. unfold add16. rewrite Z.shiftr_div_pow2 by lia. change (2 ^ 16) with 65536. rewrite s16_add_l. unfold cos_part. f_equal. lia. Qed.

Lemma idct_pass0 : forall a b c d, add16 (add16 (add16 c c) (sub16 a c)) (add16 (s16 (sin_part d)) (s16 (cos_part b))) = s16 (cosine 0 (four a b c d)).
Proof. intros. cbn [cosine four]. lanes16. Qed.
Lemma idct_pass1 : forall a b c d, sub16 (sub16 a c) (sub16 (s16 (cos_part d)) (s16 (sin_part b))) = s16 (cosine 1 (four a b c d)).
Proof. intros. cbn [cosine four]. lanes16. Qed.
Lemma idct_pass2 : forall a b c d, add16 (sub16 a c) (sub16 (s16 (cos_part d)) (s16 (sin_part b))) = s16 (cosine 2 (four a b c d)).
Proof. intros. cbn [cosine four]. lanes16. Qed.
Lemma idct_pass3 : forall a b c d, sub16 (add16 (add16 c c) (sub16 a c)) (add16 (s16 (sin_part d)) (s16 (cos_part b))) = s16 (cosine 3 (four a b c d)).
Proof. intros. cbn [cosine four]. lanes16. Qed.
Lemma idct_last0 : forall a b c d, add16 (add16 (add16 (add16 c c) (sub16 a c)) 4) (add16 (s16 (sin_part d)) (s16 (cos_part b))) = s16 (cosine 0 (four a b c d) + 4).
Proof. intros. cbn [cosine four]. lanes16. Qed.
Lemma idct_last1 : forall a b c d, sub16 (add16 (sub16 a c) 4) (sub16 (s16 (cos_part d)) (s16 (sin_part b))) = s16 (cosine 1 (four a b c d) + 4).
Proof. intros. cbn [cosine four]. lanes16. Qed.
Lemma idct_last2 : forall a b c d, add16 (add16 (sub16 a c) 4) (sub16 (s16 (cos_part d)) (s16 (sin_part b))) = s16 (cosine 2 (four a b c d) + 4).
Proof. intros. cbn [cosine four]. lanes16. Qed.
Lemma idct_last3 : forall a b c d, sub16 (add16 (add16 (add16 c c) (sub16 a c)) 4) (add16 (s16 (sin_part d)) (s16 (cos_part b))) = s16 (cosine 3 (four a b c d) + 4).
Proof. intros. cbn [cosine four]. lanes16. Qed.

Definition idct_lane (C : nat -> nat -> Z) (r k : nat) : Z := s16 (both_ways cosine C r k + 4) / 8.

Lemma idct_arith_run : forall L args g x0 x1 x2 x3 x4 x5 x6 x7 x8 x9 x10 x11 x12 x13 x14 x15 v4 v5 v6 v7 m b0 b1 b2 b3 b4 b5 b6 b7 b8 b9 b10 b11 b12 b13 b14 b15 b16 b17 b18 b19 b20 b21 b22 b23 b24 b25 b26 b27 b28 b29 b30 b31,
  let C := coef [word b0 b1; word b2 b3; word b4 b5; word b6 b7; word b8 b9; word b10 b11; word b12 b13; word b14 b15; word b16 b17; word b18 b19; word b20 b21; word b22 b23; word b24 b25; word b26 b27; word b28 b29; word b30 b31] in
  let lane := idct_lane C in
  exists u3 u4 u6,
  run L args idct_arith (mkMachine g (x0 :: x1 :: x2 :: x3 :: x4 :: x5 :: x6 :: x7 :: x8 :: x9 :: x10 :: x11 :: x12 :: x13 :: x14 :: x15 :: 
    Vb [b0; b1; b2; b3; b4; b5; b6; b7] ::
    Vb [b8; b9; b10; b11; b12; b13; b14; b15] ::
    Vb [b16; b17; b18; b19; b20; b21; b22; b23] ::
    Vb [b24; b25; b26; b27; b28; b29; b30; b31] :: [v4; v5; v6; v7]) m) =
  Some (mkMachine g (x0 :: x1 :: x2 :: x3 :: x4 :: x5 :: x6 :: x7 :: x8 :: x9 :: x10 :: x11 :: x12 :: x13 :: x14 :: x15 ::
    Vw (map (lane 0%nat) [0; 1; 2; 3]%nat) :: Vw (map (lane 1%nat) [0; 1; 2; 3]%nat) :: Vw (map (lane 2%nat) [0; 1; 2; 3]%nat) ::
    u3 :: u4 :: Vw (map (lane 3%nat) [0; 1; 2; 3]%nat) :: u6 :: [zeros 8]) m).
Proof.
  intros. do 3 eexists.
  vblock. subst lane C.
  rewrite !sin_part_asm, !cos_part_asm, ?idct_pass0, ?idct_pass1, ?idct_pass2, ?idct_pass3.
  rewrite ?sin_part_asm, ?cos_part_asm, ?idct_last0, ?idct_last1, ?idct_last2, ?idct_last3.
  unfold sar. rewrite !Z.shiftr_div_pow2 by lia. reflexivity.
Qed.

Definition bytes_ok (m : nat -> Z -> Z) : Prop := forall s a, 0 <= m s a < 256.

Lemma add_px : forall x p, 0 <= p < 256 -> clamp255 (sat16 (x + word p 0)) = clamp255 (p + x).
Proof.
  intros x p B. replace (word p 0) with p by (unfold word, s16; lia).
  unfold clamp255, sat16. destruct (p + x <? 0) eqn:?, (255 <? p + x) eqn:?; repeat match goal with |- context [if ?c then _ else _] => destruct c eqn:? end; lia.
Qed.

Definition idct_rows : list instr :=
  idct_row 0 (At rsi 0) (At rdx 0) ++
  idct_row 1 (Ix rsi rax 1 0) (Ix rdx rdi 1 0) ++
  idct_row 2 (Ix rsi rax 2 0) (Ix rdx rdi 2 0) ++
  [AddR rdx rdi; AddR rsi rax] ++
  idct_row 5 (Ix rsi rax 2 0) (Ix rdx rdi 2 0).

Definition put_row (m0 : nat -> Z -> Z) (d : nat) (o : Z) (lane : nat -> Z) (m : nat -> Z -> Z) : nat -> Z -> Z :=
  poke m d o (map (fun k => clamp255 (m0 d (o + Z.of_nat k) + lane k)) [0; 1; 2; 3]%nat).

Lemma idct_rows_run : forall L args g1 g3 g4 gs x0 x1 x2 x3 x4 x5 x6 x7 x8 x9 x10 x11 x12 x13 x14 x15 u3 u4 u6 m d o st (lane : nat -> nat -> Z),
  bytes_ok m -> 4 <= st -> 0 <= o -> o + 3 * st + 4 <= extent L d ->
  exists s, run L args idct_rows (mkMachine (Int st :: g1 :: Ptr d o :: g3 :: g4 :: Ptr d o :: Int st :: gs)
    (x0 :: x1 :: x2 :: x3 :: x4 :: x5 :: x6 :: x7 :: x8 :: x9 :: x10 :: x11 :: x12 :: x13 :: x14 :: x15 ::
     Vw (map (lane 0%nat) [0; 1; 2; 3]%nat) :: Vw (map (lane 1%nat) [0; 1; 2; 3]%nat) :: Vw (map (lane 2%nat) [0; 1; 2; 3]%nat) ::
     u3 :: u4 :: Vw (map (lane 3%nat) [0; 1; 2; 3]%nat) :: u6 :: [zeros 8]) m) = Some s /\
  mem s = put_row m d (o + 3 * st) (lane 3%nat) (put_row m d (o + 2 * st) (lane 2%nat)
            (put_row m d (o + st) (lane 1%nat) (put_row m d o (lane 0%nat) m))).
Proof.
  intros L args g1 g3 g4 gs x0 x1 x2 x3 x4 x5 x6 x7 x8 x9 x10 x11 x12 x13 x14 x15 u3 u4 u6 m d o st lane Bm St O0 O1.
  unfold idct_rows, idct_row. cbn [app map mm Nat.add].
  repeat (vstep ltac:(side); rewrite ?poke_out by (right; unfold zlen; cbn [length]; lia)). cbn [run obind].
  eexists. split; [reflexivity|]. cbn [mem].
  rewrite !add_px by apply Bm. unfold put_row. cbn [map].
  replace (o + st + 2 * st) with (o + 3 * st) by ring. rewrite Z.mul_1_l, !Z.add_0_r. reflexivity.
Qed.

Lemma put_row_in : forall m0 d o lane m k, (k < 4)%nat ->
  put_row m0 d o lane m d (o + Z.of_nat k) = clamp255 (m0 d (o + Z.of_nat k) + lane k).
Proof.
  intros m0 d o lane m k Hk. unfold put_row. rewrite poke_in by (unfold zlen; cbn [length map]; lia).
  replace (Z.to_nat (o + Z.of_nat k - o)) with k by lia.
  destruct k as [|[|[|[|k]]]]; [reflexivity..|lia].
Qed.
Lemma put_row_out : forall m0 d o lane m s a, s <> d \/ a < o \/ o + 4 <= a -> put_row m0 d o lane m s a = m s a.
Proof. intros. unfold put_row. apply poke_out. unfold zlen. cbn [length map]. lia. Qed.

Lemma idct_call : forall L m i io d o st,
  bytes_ok m -> 0 <= io -> io + 32 <= extent L i -> 4 <= st -> 0 <= o -> o + 3 * st + 4 <= extent L d ->
  exists m', call 1 L [Ptr i io; Ptr d o; Int st; Ptr d o; Int st] idctllm m = Some m' /\
    (forall r k, (r < 4)%nat -> (k < 4)%nat ->
      let a := o + Z.of_nat r * st + Z.of_nat k in
      m' d a = clamp255 (m d a + idct_lane (coef (array16 m i io 2 16)) r k)) /\
    (forall s a, (forall r k, 0 <= r < 4 -> 0 <= k < 4 -> s = d -> a = o + r * st + k -> False) -> m' s a = m s a).
Proof.
  intros L m i io d o st Bm I0 I1 St O0 O1.
  unfold call, call_from, idctllm. cbn [run_blocks].
  rewrite (run_app _ _ [_;_;_;_;_;_;_;_;_]).
  do 9 vstep ltac:(side). cbn [run obind].
  rewrite run_app. fold idct_rows.
  match goal with |- context [run L ?args idct_arith (mkMachine ?g (?x0 :: ?x1 :: ?x2 :: ?x3 :: ?x4 :: ?x5 :: ?x6 :: ?x7 :: ?x8 :: ?x9 :: ?x10 :: ?x11 :: ?x12 :: ?x13 :: ?x14 :: ?x15 ::
    Vb [?b0; ?b1; ?b2; ?b3; ?b4; ?b5; ?b6; ?b7] :: Vb [?b8; ?b9; ?b10; ?b11; ?b12; ?b13; ?b14; ?b15] :: Vb [?b16; ?b17; ?b18; ?b19; ?b20; ?b21; ?b22; ?b23] :: Vb [?b24; ?b25; ?b26; ?b27; ?b28; ?b29; ?b30; ?b31] :: [?v4; ?v5; ?v6; ?v7]) ?mm)] =>
    destruct (idct_arith_run L args g x0 x1 x2 x3 x4 x5 x6 x7 x8 x9 x10 x11 x12 x13 x14 x15 v4 v5 v6 v7 mm b0 b1 b2 b3 b4 b5 b6 b7 b8 b9 b10 b11 b12 b13 b14 b15 b16 b17 b18 b19 b20 b21 b22 b23 b24 b25 b26 b27 b28 b29 b30 b31) as (u3 & u4 & u6 & E)
  end.
  rewrite E. clear E. cbn [obind].
  match goal with |- context [run L ?args idct_rows (mkMachine (_ :: ?g1 :: _ :: ?g3 :: ?g4 :: _ :: _ :: ?gs) (?x0 :: ?x1 :: ?x2 :: ?x3 :: ?x4 :: ?x5 :: ?x6 :: ?x7 :: ?x8 :: ?x9 :: ?x10 :: ?x11 :: ?x12 :: ?x13 :: ?x14 :: ?x15 :: Vw (map (?lane 0%nat) _) :: _) ?mm)] =>
    destruct (idct_rows_run L args g1 g3 g4 gs x0 x1 x2 x3 x4 x5 x6 x7 x8 x9 x10 x11 x12 x13 x14 x15 u3 u4 u6 mm d o st lane Bm St O0 O1) as (s & E & F)
  end.
  rewrite E. clear E. cbn [obind]. eexists. split; [reflexivity|]. rewrite F. clear F.
  match goal with |- context [put_row m d o (?lane 0%nat) m] => replace lane with (idct_lane (coef (array16 m i io 2 16))) end.
  2:{ unfold array16. cbn [seq map]. unfold peek16. rewrite <- !Z.add_assoc. reflexivity. }
  generalize (idct_lane (coef (array16 m i io 2 16))). intros lane. split.
  - intros r k Hr Hk. cbv zeta.
    destruct r as [|[|[|[|r]]]]; [| | | |lia].
    + rewrite !put_row_out by lia. replace (o + Z.of_nat 0 * st) with o by lia. apply put_row_in. exact Hk.
    + rewrite !put_row_out by lia. replace (o + Z.of_nat 1 * st) with (o + st) by lia. apply put_row_in. exact Hk.
    + rewrite !put_row_out by lia. replace (o + Z.of_nat 2 * st) with (o + 2 * st) by lia. apply put_row_in. exact Hk.
    + replace (o + Z.of_nat 3 * st) with (o + 3 * st) by lia. apply put_row_in. exact Hk.
  - intros t a N.
    assert (G : forall r, 0 <= r < 4 -> t <> d \/ a < o + r * st \/ o + r * st + 4 <= a).
    { intros r Hr. destruct (Nat.eq_dec t d) as [->|]; [right|left; assumption].
      destruct (Z_lt_dec a (o + r * st)); [left; assumption|right].
      destruct (Z_lt_dec a (o + r * st + 4)) as [Q|]; [|lia]. exfalso. apply (N r (a - (o + r * st))); lia. }
    rewrite !put_row_out; [reflexivity| | | |].
    + specialize (G 0). lia.
    + specialize (G 1). lia.
    + specialize (G 2). lia.
    + specialize (G 3). lia.
Qed.
