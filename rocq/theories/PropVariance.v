(** C66: the block differences of the encoder. *)
From Coq Require Import Permutation.
From Verif Require Import Base MVModel RasterModel VarianceModel.

(** A square block of bytes. *)
Definition block_of (n : nat) (b : list (list Z)) : Prop :=
  length b = n /\ Forall (fun r => length r = n /\ Forall byte_ok r) b.

(** Differences pixel by pixel, and sums, in unbounded integers. *)
Definition differences (b p : list (list Z)) : list Z :=
  flat_map (fun '(x, y) => map (fun '(u, v) => u - v) (combine x y)) (combine b p).
Definition total (l : list Z) : Z := fold_right Z.add 0 l.
Definition squares (l : list Z) : list Z := map (fun d => d * d) l.

Lemma total_app a b : total (a ++ b) = total a + total b.
Proof. unfold total; induction a; cbn; [reflexivity|]. rewrite IHa; lia. Qed.

Lemma total_cons a b : total (a :: b) = a + total b.
Proof. reflexivity. Qed.

(** ** The portable loops. *)

Definition sum_over (l : list nat) (f : nat -> Z) : Z := total (map f l).

Lemma sum_over_nil f : sum_over [] f = 0.
Proof. reflexivity. Qed.

Lemma sum_over_cons a l f : sum_over (a :: l) f = f a + sum_over l f.
Proof. reflexivity. Qed.

Lemma sum_over_add l f g : sum_over l (fun i => f i + g i) = sum_over l f + sum_over l g.
Proof. unfold sum_over; induction l; cbn [map]; rewrite ?total_cons; [reflexivity|]. rewrite IHl; lia. Qed.

Lemma sum_over_zero l : sum_over l (fun _ => 0) = 0.
Proof. unfold sum_over; induction l; cbn [map]; rewrite ?total_cons; [reflexivity|]. rewrite IHl; lia. Qed.

Lemma sum_over_ext l f g : (forall i, In i l -> f i = g i) -> sum_over l f = sum_over l g.
Proof. intros E; unfold sum_over; f_equal; apply map_ext_in, E. Qed.

Lemma sum_swap l m f : sum_over l (fun i => sum_over m (fun j => f i j)) = sum_over m (fun j => sum_over l (fun i => f i j)).
Proof.
  induction l as [|a l IH].
  - symmetry; apply sum_over_zero.
  - unfold sum_over at 1; cbn [map]; rewrite total_cons; fold (sum_over l (fun i => sum_over m (fun j => f i j))).
    rewrite IH, <- sum_over_add. reflexivity.
Qed.

Lemma loops_wrap size (g : nat -> nat -> Z) a :
  loops size (fun res i j => wrap 32 (res + g i j)) (wrap 32 a) =
  wrap 32 (a + sum_over (seq 0 size) (fun i => sum_over (seq 0 size) (fun j => g i j))).
Proof.
  assert (I : forall m i a, fold_left (fun res j => wrap 32 (res + g i j)) m (wrap 32 a) = wrap 32 (a + sum_over m (fun j => g i j))).
  { intros m i; induction m as [|j m IH]; intros a0; cbn [fold_left].
    - rewrite sum_over_nil; f_equal; lia.
    - replace (wrap 32 (wrap 32 a0 + g i j)) with (wrap 32 (a0 + g i j)) by (unfold wrap; rewrite Zplus_mod_idemp_l; reflexivity).
      rewrite IH, sum_over_cons; f_equal; lia. }
  assert (G : forall m l a, fold_left (fun a i => fold_left (fun res j => wrap 32 (res + g i j)) m a) l (wrap 32 a) =
              wrap 32 (a + sum_over l (fun i => sum_over m (fun j => g i j)))).
  { intros m l; induction l as [|i l IH]; intros a0; cbn [fold_left].
    - rewrite sum_over_nil; f_equal; lia.
    - rewrite I, IH, sum_over_cons; f_equal; lia. }
  apply G.
Qed.

Lemma loops_pair size (f g : nat -> nat -> Z) a b :
  loops size (fun q i j => (wrap 32 (fst q + f i j), snd q + g i j)) (a, b) =
  (loops size (fun res i j => wrap 32 (res + f i j)) a,
   b + sum_over (seq 0 size) (fun i => sum_over (seq 0 size) (fun j => g i j))).
Proof.
  assert (I : forall m i a b, fold_left (fun q j => (wrap 32 (fst q + f i j), snd q + g i j)) m (a, b) =
    (fold_left (fun res j => wrap 32 (res + f i j)) m a, b + sum_over m (fun j => g i j))).
  { intros m i; induction m as [|j m IH]; intros a0 b0; cbn [fold_left fst snd].
    - rewrite sum_over_nil; f_equal; lia.
    - rewrite IH, sum_over_cons; f_equal; lia. }
  assert (G : forall m l a b, fold_left (fun a i => fold_left (fun q j => (wrap 32 (fst q + f i j), snd q + g i j)) m a) l (a, b) =
              (fold_left (fun a i => fold_left (fun res j => wrap 32 (res + f i j)) m a) l a,
               b + sum_over l (fun i => sum_over m (fun j => g i j)))).
  { intros m l; induction l as [|i l IH]; intros a0 b0; cbn [fold_left fst snd].
    - rewrite sum_over_nil; f_equal; lia.
    - rewrite I, IH, sum_over_cons; f_equal; lia. }
  exact (G (seq 0 size) (seq 0 size) a b).
Qed.

Lemma sum_row (f : Z -> Z) x y n : length x = n -> length y = n ->
  sum_over (seq 0 n) (fun i => f (nth i x 0 - nth i y 0)) = total (map f (map (fun '(u, v) => u - v) (combine x y))).
Proof.
  intros L M; subst n; revert y M; induction x as [|a x IH]; intros [|b y] M; try discriminate M; [reflexivity|].
  cbn [length] in *. injection M as M. unfold sum_over; cbn [seq map combine]. rewrite !total_cons; f_equal.
  rewrite <- seq_shift, map_map. exact (IH y M).
Qed.

Lemma sum_block (f : Z -> Z) n b p : block_of n b -> block_of n p ->
  sum_over (seq 0 n) (fun i => sum_over (seq 0 n) (fun j => f (cell b i j - cell p i j))) = total (map f (differences b p)).
Proof.
  intros [Lb Fb] [Lp Fp]. rewrite sum_swap. unfold cell, differences.
  assert (G : forall m (b p : list (list Z)), length b = m -> length p = m ->
            Forall (fun r => length r = n /\ Forall byte_ok r) b -> Forall (fun r => length r = n /\ Forall byte_ok r) p ->
            sum_over (seq 0 m) (fun j => sum_over (seq 0 n) (fun i => f (nth i (nth j b []) 0 - nth i (nth j p []) 0))) =
            total (map f (flat_map (fun '(x, y) => map (fun '(u, v) => u - v) (combine x y)) (combine b p)))).
  { clear; induction m as [|m IH]; intros [|x b] [|y p] Lb Lp Fb Fp; try discriminate; [reflexivity|].
    cbn [length] in *; injection Lb as Lb; injection Lp as Lp. apply Forall_cons_iff in Fb as [[Lx _] Fb']; apply Forall_cons_iff in Fp as [[Ly _] Fp'].
    unfold sum_over at 1; cbn [seq map combine flat_map]. rewrite total_cons, map_app, total_app; f_equal.
    - cbn [nth]. apply sum_row; assumption.
    - rewrite <- seq_shift, map_map. exact (IH b p Lb Lp Fb' Fp'). }
  apply G; assumption.
Qed.

Lemma differences_range n b p : block_of n b -> block_of n p ->
  length (differences b p) = (n * n)%nat /\ Forall (fun d => -255 <= d <= 255) (differences b p).
Proof.
  intros [Lb Fb] [Lp Fp]. unfold differences.
  assert (G : forall m (b p : list (list Z)), length b = m -> length p = m ->
            Forall (fun r => length r = n /\ Forall byte_ok r) b -> Forall (fun r => length r = n /\ Forall byte_ok r) p ->
            let l := flat_map (fun '(x, y) => map (fun '(u, v) => u - v) (combine x y)) (combine b p) in
            length l = (m * n)%nat /\ Forall (fun d => -255 <= d <= 255) l).
  { clear; induction m as [|m IH]; intros [|x b] [|y p] Lb Lp Fb Fp; try discriminate; [cbn; split; [lia|constructor]|].
    cbn [length] in *; injection Lb as Lb; injection Lp as Lp. apply Forall_cons_iff in Fb as [[Lx Ox] Fb']; apply Forall_cons_iff in Fp as [[Ly Oy] Fp'].
    cbn [combine flat_map]. destruct (IH b p Lb Lp Fb' Fp') as [A B]. split.
    - rewrite app_length, map_length, combine_length, A, Lx, Ly. lia.
    - apply Forall_app; split; [|exact B]. apply Forall_map, Forall_forall. intros [u v] I.
      rewrite Forall_forall in Ox, Oy. apply in_combine_l in I as U. apply in_combine_r in I as V. apply Ox in U; apply Oy in V. unfold byte_ok in *; lia. }
  apply G; assumption.
Qed.

Lemma squares_le l : Forall (fun d => -255 <= d <= 255) l -> 0 <= total (squares l) <= 65025 * zlen l.
Proof.
  unfold squares, zlen; induction 1 as [|d l B F IH]; cbn [map length]; [cbn; lia|]. rewrite total_cons. nia.
Qed.

Lemma abs_le l : Forall (fun d => -255 <= d <= 255) l -> 0 <= total (map Z.abs l) <= 255 * zlen l.
Proof.
  unfold zlen; induction 1 as [|d l B F IH]; cbn [map length]; [cbn; lia|]. rewrite total_cons. lia.
Qed.

Lemma total_le l : Forall (fun d => -255 <= d <= 255) l -> - (255 * zlen l) <= total l <= 255 * zlen l.
Proof.
  unfold zlen; induction 1 as [|d l B F IH]; cbn [length]; [cbn; lia|]. rewrite total_cons. lia.
Qed.

(** Cauchy and Schwarz. *)
Lemma cross l a : 2 * a * total l <= zlen l * (a * a) + total (squares l).
Proof.
  unfold squares, zlen; induction l as [|d l IH]; cbn [map length]; [cbn; lia|]. rewrite !total_cons.
  pose proof (Z.square_nonneg (a - d)). nia.
Qed.

Lemma cauchy l : total l * total l <= zlen l * total (squares l).
Proof.
  unfold squares, zlen; induction l as [|d l IH]; cbn [map length]; [cbn; lia|]. rewrite !total_cons.
  pose proof (cross l d) as C. unfold squares, zlen in C. nia.
Qed.

Lemma cross_eq l a : 2 * a * total l = zlen l * (a * a) + total (squares l) -> Forall (fun d => d = a) l.
Proof.
  unfold squares, zlen; induction l as [|d l IH]; cbn [map length]; [constructor|]. rewrite !total_cons. intros E.
  pose proof (cross l a) as C. unfold squares, zlen in C. pose proof (Z.square_nonneg (a - d)) as Q.
  assert (Q0 : (a - d) * (a - d) = 0) by nia.
  constructor; [nia|]. apply IH. nia.
Qed.

Lemma all_equal_total l a : Forall (fun d => d = a) l -> total l = a * zlen l /\ total (squares l) = a * a * zlen l.
Proof.
  unfold squares, zlen; induction 1 as [|d l E F [A B]]; cbn [map length]; [cbn; lia|]. rewrite !total_cons. subst. lia.
Qed.

Definition size_ok (n : nat) : Prop := (0 < n <= 16)%nat.

Lemma s16_small d : -32768 <= d <= 32767 -> s16 d = d.
Proof. unfold s16; intros; lia. Qed.

Lemma cell_diff n b p i j : block_of n b -> block_of n p -> -255 <= cell b i j - cell p i j <= 255.
Proof.
  intros [Lb Fb] [Lp Fp]. unfold cell.
  assert (G : forall b i j, Forall (fun r => length r = n /\ Forall byte_ok r) b -> byte_ok (nth i (nth j b []) 0)).
  { clear; intros b i j F. destruct (nth_in_or_default j b []) as [I|E].
    - rewrite Forall_forall in F; destruct (F _ I) as [_ G]. destruct (nth_in_or_default i (nth j b []) 0) as [I2|E2].
      + rewrite Forall_forall in G; exact (G _ I2).
      + rewrite E2; unfold byte_ok; lia.
    - rewrite E. destruct i; unfold byte_ok; cbn; lia. }
  pose proof (G b i j Fb); pose proof (G p i j Fp). unfold byte_ok in *; lia.
Qed.

Lemma sizes n (l : list Z) : size_ok n -> length l = (n * n)%nat -> 0 < zlen l <= 256.
Proof. unfold size_ok, zlen; intros; nia. Qed.

Lemma loops_ext {A} size (f g : A -> nat -> nat -> A) a :
  (forall a i j, f a i j = g a i j) -> loops size f a = loops size g a.
Proof.
  intros E.
  assert (G : forall m l a, fold_left (fun a i => fold_left (fun a j => f a i j) m a) l a = fold_left (fun a i => fold_left (fun a j => g a i j) m a) l a).
  { intros m l; induction l as [|i l IH]; intros a0; cbn [fold_left]; [reflexivity|]. rewrite IH; f_equal.
    clear IH; revert a0; induction m as [|j m IHm]; intros a0; cbn [fold_left]; [reflexivity|]. now rewrite E, IHm. }
  apply G.
Qed.

(** C66 (portable code): the three measures are the exact sums over the
    pixels; nothing wraps around. *)
Theorem C66_portable : forall n b p, size_ok n -> block_of n b -> block_of n p ->
  let d := differences b p in
  sad n b p = total (map Z.abs d) /\
  sse n b p = total (squares d) /\
  variance n b p = total (squares d) - total d * total d / (Z.of_nat n * Z.of_nat n).
Proof.
  intros n b p S B P d.
  destruct (differences_range n b p B P) as [L R]. fold d in L, R.
  pose proof (squares_le d R) as Q. pose proof (abs_le d R) as A. pose proof (sizes n d S L) as W. pose proof (cauchy d) as K.
  assert (Zn : zlen d = Z.of_nat n * Z.of_nat n) by (unfold zlen; rewrite L; lia).
  assert (E : sse n b p = total (squares d)).
  { unfold sse. cbv zeta. change 0 with (wrap 32 0) at 1.
    rewrite (loops_ext n _ (fun res i j => wrap 32 (res + (fun x => x * x) (cell b i j - cell p i j)))).
    2:{ intros a i j. pose proof (cell_diff n b p i j B P). rewrite s16_small by lia. reflexivity. }
    rewrite (loops_wrap n (fun i j => (fun x => x * x) (cell b i j - cell p i j)) 0).
    rewrite (sum_block (fun x => x * x) n b p B P). fold d. fold (squares d). unfold wrap; lia. }
  split; [|split].
  - unfold sad. change 0 with (wrap 32 0) at 1.
    rewrite (loops_wrap n (fun i j => Z.abs (cell b i j - cell p i j)) 0), (sum_block Z.abs n b p B P). fold d. unfold wrap; lia.
  - exact E.
  - unfold variance.
    rewrite (loops_ext n _ (fun q i j => (wrap 32 (fst q + (fun x => x * x) (cell b i j - cell p i j)), snd q + (fun x => x) (cell b i j - cell p i j)))).
    2:{ intros [a s] i j. pose proof (cell_diff n b p i j B P). rewrite s16_small by lia. reflexivity. }
    rewrite (loops_pair n (fun i j => (fun x => x * x) (cell b i j - cell p i j)) (fun i j => (fun x => x) (cell b i j - cell p i j))).
    rewrite (sum_block (fun x => x) n b p B P), map_id. fold d.
    change 0 with (wrap 32 0) at 1.
    rewrite (loops_wrap n (fun i j => (fun x => x * x) (cell b i j - cell p i j)) 0), (sum_block (fun x => x * x) n b p B P). fold d; fold (squares d).
    rewrite !Z.add_0_l, Nat2Z.inj_mul, <- Zn.
    assert (V : wrap 32 (total (squares d)) = total (squares d)) by (unfold wrap; lia). rewrite V.
    assert (D : 0 <= total d * total d / zlen d <= total (squares d)).
    { split; [apply Z.div_pos; [apply Z.square_nonneg|lia]|]. apply Z.div_le_upper_bound; lia. }
    unfold wrap; rewrite Z.mod_small; [reflexivity|lia].
Qed.


Lemma total_perm a b : Permutation a b -> total a = total b.
Proof. induction 1; rewrite ?total_cons in *; lia. Qed.

Lemma zlen_cons2 (x : Z) l : zlen (x :: l) = 1 + zlen l.
Proof. unfold zlen; cbn [length]; lia. Qed.

(** Two pixels whose differences are far apart show. *)
Lemma pair_bound l x y :
  (zlen l + 2) * ((x - y) * (x - y)) <= 2 * ((zlen l + 2) * (x * x + (y * y + total (squares l))) - (x + (y + total l)) * (x + (y + total l))).
Proof.
  pose proof (cauchy l) as C.
  assert (G : 2 * (zlen l * (x * x) - 2 * x * total l + total (squares l)) + 2 * (zlen l * (y * y) - 2 * y * total l + total (squares l)) >= zlen l * ((x - y) * (x - y))).
  { clear C. unfold squares, zlen. induction l as [|d l IH]; cbn [map length]; [change (Z.of_nat 0) with 0; unfold total; cbn [fold_right]; lia|]. rewrite !total_cons.
    pose proof (Z.square_nonneg (x + y - 2 * d)). nia. }
  nia.
Qed.

Lemma spread_bound l x y : In x l -> In y l -> x <> y ->
  zlen l * ((x - y) * (x - y)) <= 2 * (zlen l * total (squares l) - total l * total l).
Proof.
  intros I J N. destruct (in_split _ _ I) as (a & b & E).
  assert (P1 : Permutation l (x :: a ++ b)) by (rewrite E; symmetry; apply Permutation_middle).
  assert (J1 : In y (x :: a ++ b)) by (eapply Permutation_in; eassumption).
  destruct J1 as [J1|J1]; [congruence|]. destruct (in_split _ _ J1) as (c & d & E2).
  assert (P : Permutation l (x :: y :: c ++ d)).
  { rewrite P1; constructor. rewrite E2; symmetry; apply Permutation_middle. }
  assert (Lz : zlen l = zlen (c ++ d) + 2).
  { unfold zlen; rewrite (Permutation_length P); cbn [length]; lia. }
  rewrite Lz, (total_perm _ _ P), (total_perm (squares l) (squares (x :: y :: c ++ d))) by (apply Permutation_map, P).
  unfold squares; cbn [map]. rewrite !total_cons. exact (pair_bound (c ++ d) x y).
Qed.

Lemma squares_zero l : total (squares l) = 0 <-> Forall (fun d => d = 0) l.
Proof.
  split.
  - intros E. apply cross_eq. lia.
  - intros F. destruct (all_equal_total l 0 F). lia.
Qed.

Lemma rows_equal n b p : block_of n b -> block_of n p -> Forall (fun d => d = 0) (differences b p) -> b = p.
Proof.
  intros [Lb Fb] [Lp Fp] D. rewrite <- Lb in Lp. clear Lb. unfold differences in D.
  revert p Lp Fp D; induction b as [|x b IH]; intros [|y p] Lp Fp D; try discriminate; [reflexivity|].
  cbn [length combine flat_map] in *. injection Lp as Lp. apply Forall_app in D as [D1 D2].
  apply Forall_cons_iff in Fb as [[Lx _] Fb]. apply Forall_cons_iff in Fp as [[Ly _] Fp].
  f_equal; [|exact (IH Fb p Lp Fp D2)].
  clear IH D2 Fb Fp Lp. rewrite <- Ly in Lx; clear Ly. revert y Lx D1; induction x as [|u x IH]; intros [|v y] L D; try discriminate; [reflexivity|].
  cbn [length combine map] in *. injection L as L. apply Forall_cons_iff in D as [D1 D2]. f_equal; [lia|exact (IH y L D2)].
Qed.

(** C66: the variance is between zero and the squared error; the squared
    error is zero exactly for equal blocks, the variance exactly for blocks
    that differ by a constant. *)
Theorem C66_meaning : forall n b p, size_ok n -> block_of n b -> block_of n p ->
  0 <= variance n b p <= sse n b p /\
  (sse n b p = 0 <-> b = p) /\
  (variance n b p = 0 <-> exists a, Forall (fun d => d = a) (differences b p)).
Proof.
  intros n b p S B P. destruct (C66_portable n b p S B P) as (_ & E & V). rewrite E, V.
  destruct (differences_range n b p B P) as [L R]. remember (differences b p) as d eqn:Ed.
  pose proof (sizes n d S L) as W. pose proof (cauchy d) as K.
  assert (Zn : zlen d = Z.of_nat n * Z.of_nat n) by (unfold zlen; rewrite L; lia). rewrite <- Zn.
  assert (D : 0 <= total d * total d / zlen d <= total (squares d)).
  { split; [apply Z.div_pos; [apply Z.square_nonneg|lia]|]. apply Z.div_le_upper_bound; lia. }
  split; [lia|]. split; [|split].
  - rewrite squares_zero. split; [intros F; apply (rows_equal n); [assumption..|rewrite <- Ed; exact F]|].
    intros Eq; subst p. rewrite Ed. clear. unfold differences. apply Forall_flat_map, Forall_forall. intros [x y] I.
    assert (x = y) by (clear -I; induction b as [|z b IH]; cbn in I; [tauto|destruct I as [I|I]; [injection I; congruence|exact (IH I)]]). subst y.
    clear I. induction x; cbn [combine map]; constructor; [lia|assumption].
  - intros V0. destruct d as [|a d]; [exists 0; constructor|]. exists a. apply Forall_forall. intros x I.
    destruct (Z.eq_dec x a) as [->|N]; [reflexivity|exfalso].
    pose proof (spread_bound (a :: d) x a I (or_introl eq_refl) N) as G. remember (a :: d) as l.
    assert (U : zlen l * total (squares l) <= total l * total l).
    { assert (Q : total (squares l) = total l * total l / zlen l) by lia. rewrite Q. apply Z.mul_div_le; lia. }
    assert (1 <= (x - a) * (x - a)) by nia. nia.
  - intros [a F]. destruct (all_equal_total d a F) as [-> ->]. replace (a * zlen d * (a * zlen d)) with (a * a * zlen d * zlen d) by ring. rewrite Z.div_mul by lia. lia.
Qed.

(** ** The SSE2 code. *)

Definition below (m : Z) (v : list Z) : Prop := Forall (fun x => - m <= x <= m) v.

Lemma lanes2_len f a b : length (lanes2 f a b) = Nat.min (length a) (length b).
Proof. unfold lanes2; rewrite map_length, combine_length; reflexivity. Qed.

Lemma add16_total a b m k : length a = length b -> below m a -> below k b -> m + k <= 32767 ->
  length (add_epi16 a b) = length a /\ below (m + k) (add_epi16 a b) /\ total (add_epi16 a b) = total a + total b.
Proof.
  intros L A B M. split; [unfold add_epi16; rewrite lanes2_len; lia|].
  revert b L B; induction A as [|x a X A IH]; intros [|y b] L B; try discriminate; [split; [constructor|reflexivity]|].
  cbn [length] in L; injection L as L. apply Forall_cons_iff in B as [Y B]. destruct (IH b L B) as [I J].
  change (add_epi16 (x :: a) (y :: b)) with (s16 (x + y) :: add_epi16 a b).
  rewrite s16_small by lia. split; [constructor; [lia|exact I]|]. rewrite !total_cons, J; lia.
Qed.

Lemma add32_total a b m k : length a = length b -> Forall (fun x => 0 <= x <= m) a -> Forall (fun x => 0 <= x <= k) b -> m + k <= 2147483647 ->
  length (add_epi32 a b) = length a /\ Forall (fun x => 0 <= x <= m + k) (add_epi32 a b) /\ total (add_epi32 a b) = total a + total b.
Proof.
  intros L A B M. split; [unfold add_epi32; rewrite lanes2_len; lia|].
  revert b L B; induction A as [|x a X A IH]; intros [|y b] L B; try discriminate; [split; [constructor|reflexivity]|].
  cbn [length] in L; injection L as L. apply Forall_cons_iff in B as [Y B]. destruct (IH b L B) as [I J].
  change (add_epi32 (x :: a) (y :: b)) with (s32 (x + y) :: add_epi32 a b).
  assert (E : s32 (x + y) = x + y) by (unfold s32; lia). rewrite E. split; [constructor; [lia|exact I]|]. rewrite !total_cons, J; lia.
Qed.

Ltac lanes8 v L := destruct v as [|v0 [|v1 [|v2 [|v3 [|v4 [|v5 [|v6 [|v7 [|? ?]]]]]]]]]; try discriminate L.
Ltac lanes4 v L := destruct v as [|v0 [|v1 [|v2 [|v3 [|? ?]]]]]; try discriminate L.
Ltac bounds F := repeat match type of F with Forall _ (_ :: _) => let G := fresh "G" in apply Forall_cons_iff in F as [G F] end.

Lemma fold16_total v : length v = 8%nat -> below 4095 v -> fold16 v = total v.
Proof.
  intros L B. lanes8 v L. unfold below in B; bounds B. unfold fold16. cbn [srli skipn repeat app add_epi16 lanes2 combine map nth total fold_right].
  repeat match goal with |- context [s16 ?x] => lazymatch x with context [s16 _] => fail | _ => rewrite (s16_small x) by lia end end. lia.
Qed.

Lemma fold32_total v m : length v = 4%nat -> Forall (fun x => 0 <= x <= m) v -> 4 * m <= 2147483647 -> fold32 v = total v.
Proof.
  intros L B M. lanes4 v L. bounds B. unfold fold32. cbn [srli skipn repeat app add_epi32 lanes2 combine map nth total fold_right].
  assert (E : forall x, 0 <= x <= 2147483647 -> s32 x = x) by (unfold s32; lia).
  repeat match goal with |- context [s32 ?x] => lazymatch x with context [s32 _] => fail | _ => rewrite (E x) by lia end end. unfold wrap; lia.
Qed.

Lemma madd_total v m : length v = 8%nat -> below m v -> m <= 255 ->
  length (madd_self v) = 4%nat /\ Forall (fun x => 0 <= x <= 130050) (madd_self v) /\ total (madd_self v) = total (squares v).
Proof.
  intros L B M. lanes8 v L. unfold below in B; bounds B. cbn [madd_self squares map total fold_right].
  assert (E : forall x y, - m <= x <= m -> - m <= y <= m -> s32 (x * x + y * y) = x * x + y * y /\ 0 <= x * x + y * y <= 130050).
  { intros x y X Y. assert (0 <= x * x <= 65025) by nia. assert (0 <= y * y <= 65025) by nia. unfold s32; lia. }
  destruct (E v0 v1), (E v2 v3), (E v4 v5), (E v6 v7); try assumption.
  rewrite H, H1, H3, H5. split; [reflexivity|]. split; [repeat constructor; lia|lia].
Qed.

Lemma sub16 a b : length a = length b -> Forall byte_ok a -> Forall byte_ok b ->
  sub_epi16 a b = map (fun '(u, v) => u - v) (combine a b) /\ length (sub_epi16 a b) = length a /\ below 255 (sub_epi16 a b).
Proof.
  intros L A B. split; [|split].
  - unfold sub_epi16, lanes2. apply map_ext_in. intros [u v] I. rewrite Forall_forall in A, B.
    apply in_combine_l in I as U; apply in_combine_r in I as V. apply A in U; apply B in V. unfold byte_ok in *. apply s16_small; lia.
  - unfold sub_epi16; rewrite lanes2_len; lia.
  - unfold sub_epi16, lanes2, below. apply Forall_map, Forall_forall. intros [u v] I. rewrite Forall_forall in A, B.
    apply in_combine_l in I as U; apply in_combine_r in I as V. apply A in U; apply B in V. unfold byte_ok in *. rewrite s16_small; lia.
Qed.

(** What the two accumulators hold after k steps. *)
Definition held (k : Z) (d : list Z) (acc : list Z * list Z) : Prop :=
  length (fst acc) = 8%nat /\ below (510 * k) (fst acc) /\ total (fst acc) = total d /\
  length (snd acc) = 4%nat /\ Forall (fun x => 0 <= x <= 260100 * k) (snd acc) /\ total (snd acc) = total (squares d).

Lemma held_start : held 0 [] (zero16, zero32).
Proof. unfold held, below, zero16, zero32; cbn. repeat split; repeat constructor; lia. Qed.

Lemma held_step k d acc d0 d1 : held k d acc -> 0 <= k <= 15 ->
  length d0 = 8%nat -> length d1 = 8%nat -> below 255 d0 -> below 255 d1 ->
  held (k + 1) (d ++ d0 ++ d1) (accumulate d0 d1 acc).
Proof.
  destruct acc as [vsum vsse]. unfold held, accumulate; cbn [fst snd].
  intros (L1 & B1 & T1 & L2 & B2 & T2) K M0 M1 W0 W1.
  destruct (add16_total vsum d0 (510 * k) 255) as (X1 & X2 & X3); [congruence|assumption..|lia|].
  destruct (add16_total (add_epi16 vsum d0) d1 (510 * k + 255) 255) as (Y1 & Y2 & Y3); [congruence|assumption..|lia|].
  destruct (madd_total d0 255 M0 W0) as (A1 & A2 & A3); [lia|]. destruct (madd_total d1 255 M1 W1) as (C1 & C2 & C3); [lia|].
  destruct (add32_total vsse (madd_self d0) (260100 * k) 130050) as (U1 & U2 & U3); [congruence|assumption..|lia|].
  destruct (add32_total (add_epi32 vsse (madd_self d0)) (madd_self d1) (260100 * k + 130050) 130050) as (V1 & V2 & V3); [congruence|assumption..|lia|].
  split; [congruence|]. split; [replace (510 * (k + 1)) with (510 * k + 255 + 255) by lia; exact Y2|].
  split; [rewrite Y3, X3, T1, !total_app; lia|]. split; [congruence|].
  split; [replace (260100 * (k + 1)) with (260100 * k + 130050 + 130050) by lia; exact V2|].
  rewrite V3, U3, T2, A3, C3. unfold squares. rewrite !map_app, !total_app. lia.
Qed.

Lemma row_ok n b i : block_of n b -> (i < n)%nat -> length (row b i) = n /\ Forall byte_ok (row b i).
Proof.
  intros [L F] I. unfold row. rewrite Forall_forall in F. apply F, nth_In. lia.
Qed.

Lemma differences_rows n b p : block_of n b -> block_of n p ->
  differences b p = flat_map (fun i => sub_epi16 (row b i) (row p i)) (seq 0 n).
Proof.
  intros B P.
  rewrite (flat_map_concat_map _ (seq 0 n)).
  rewrite (map_ext_in _ (fun i => map (fun '(u, v) => u - v) (combine (row b i) (row p i)))).
  2:{ intros i I. apply in_seq in I. destruct (row_ok n b i B), (row_ok n p i P); try lia. apply sub16; [congruence|assumption..]. }
  rewrite <- flat_map_concat_map. destruct B as [Lb _], P as [Lp _]. unfold differences, row. rewrite <- Lb in *. clear Lb n.
  revert p Lp; induction b as [|x b IH]; intros [|y p] L; try discriminate; [reflexivity|].
  cbn [length combine flat_map seq nth] in *. injection L as L. f_equal. rewrite <- seq_shift, (flat_map_concat_map _ (map S _)), map_map, <- flat_map_concat_map. exact (IH p L).
Qed.

Lemma sub_rows n b p i : block_of n b -> block_of n p -> (i < n)%nat ->
  length (sub_epi16 (row b i) (row p i)) = n /\ below 255 (sub_epi16 (row b i) (row p i)).
Proof.
  intros B P I. destruct (row_ok n b i B I), (row_ok n p i P I).
  destruct (sub16 (row b i) (row p i)) as (_ & X & Y); [congruence|assumption..|]. split; [congruence|exact Y].
Qed.

Lemma lanes2_split f n a b : length a = length b ->
  lanes2 f (firstn n a) (firstn n b) ++ lanes2 f (skipn n a) (skipn n b) = lanes2 f a b.
Proof.
  revert a b; induction n as [|n IH]; intros a b L; [reflexivity|].
  destruct a as [|x a], b as [|y b]; try discriminate; [reflexivity|]. injection L as L.
  cbn [firstn skipn]. unfold lanes2 in *; cbn [combine map app]. f_equal. exact (IH a b L).
Qed.

Lemma get8x8 b p : block_of 8 b -> block_of 8 p -> get8x8var b p = (total (squares (differences b p)), total (differences b p)).
Proof.
  intros B P. unfold get8x8var. rewrite (differences_rows 8 b p B P).
  assert (R := fun i => sub_rows 8 b p i B P). cbn [fold_left seq flat_map Nat.add].
  remember (fun i => sub_epi16 (row b i) (row p i)) as d eqn:Ed.
  assert (E : forall i, sub_epi16 (row b i) (row p i) = d i) by (intros; subst d; reflexivity).
  rewrite !E. setoid_rewrite E in R. clear E Ed.
  pose proof held_start as T.
  assert (N : forall k e acc i j, held k e acc -> 0 <= k <= 15 -> (i < 8)%nat -> (j < 8)%nat -> held (k + 1) (e ++ d i ++ d j) (accumulate (d i) (d j) acc)).
  { intros k e acc i j Hk K I J. destruct (R i I), (R j J). apply held_step; assumption. }
  pose proof (N _ _ _ 0%nat 1%nat T ltac:(lia) ltac:(lia) ltac:(lia)) as T1.
  pose proof (N _ _ _ 2%nat 3%nat T1 ltac:(lia) ltac:(lia) ltac:(lia)) as T2.
  pose proof (N _ _ _ 4%nat 5%nat T2 ltac:(lia) ltac:(lia) ltac:(lia)) as T3.
  pose proof (N _ _ _ 6%nat 7%nat T3 ltac:(lia) ltac:(lia) ltac:(lia)) as T4.
  destruct (accumulate (d 6%nat) (d 7%nat) _) as [vsum vsse]. clear T T1 T2 T3.
  destruct T4 as (L1 & B1 & T1 & L2 & B2 & T2). cbn [fst snd] in *.
  rewrite (fold32_total vsse _ L2 B2) by lia. rewrite (fold16_total vsum L1).
  2:{ eapply Forall_impl; [|exact B1]. intros z; cbn beta; lia. }
  rewrite T1, T2, !app_nil_r, !app_nil_l, <- !app_assoc. reflexivity.
Qed.

Lemma get16x16 b p : block_of 16 b -> block_of 16 p -> get16x16var b p = (total (squares (differences b p)), total (differences b p)).
Proof.
  intros B P. unfold get16x16var. rewrite (differences_rows 16 b p B P).
  assert (G : forall k, (k <= 16)%nat -> held (Z.of_nat k) (flat_map (fun i => sub_epi16 (row b i) (row p i)) (seq 0 k))
             (fold_left (fun acc i => accumulate (sub_epi16 (firstn 8 (row b i)) (firstn 8 (row p i)))
                                       (sub_epi16 (skipn 8 (row b i)) (skipn 8 (row p i))) acc) (seq 0 k) (zero16, zero32))).
  { induction k as [|k IH]; intros K; [exact held_start|].
    rewrite seq_S, fold_left_app, flat_map_app. cbn [fold_left flat_map Nat.add]. rewrite app_nil_r.
    destruct (row_ok 16 b k B) as [X1 X2]; [lia|]. destruct (row_ok 16 p k P) as [Y1 Y2]; [lia|].
    unfold sub_epi16 at 2. rewrite <- (lanes2_split _ 8 (row b k) (row p k)) by congruence.
    replace (Z.of_nat (S k)) with (Z.of_nat k + 1) by lia.
    rewrite <- (firstn_skipn 8 (row b k)) in X2. rewrite <- (firstn_skipn 8 (row p k)) in Y2. apply Forall_app in X2 as [X2 X3]. apply Forall_app in Y2 as [Y2 Y3].
    destruct (sub16 (firstn 8 (row b k)) (firstn 8 (row p k))) as (_ & U1 & U2); [rewrite !firstn_length; congruence|assumption..|].
    destruct (sub16 (skipn 8 (row b k)) (skipn 8 (row p k))) as (_ & V1 & V2); [rewrite !skipn_length; congruence|assumption..|].
    rewrite firstn_length in U1. rewrite skipn_length in V1.
    apply held_step; [apply IH; lia|lia| | |exact U2|exact V2]; lia. }
  specialize (G 16%nat (Nat.le_refl _)).
  destruct (fold_left _ (seq 0 16) _) as [vsum vsse]. destruct G as (L1 & B1 & T1 & L2 & B2 & T2). cbn [fst snd] in *.
  rewrite (fold32_total vsse _ L2 B2) by lia. rewrite T2; f_equal. rewrite <- T1.
  clear T1 T2 B2 L2 vsse. lanes8 vsum L1. unfold below in B1; bounds B1.
  cbn [srli skipn repeat app add_epi16 lanes2 combine map nth total fold_right].
  repeat match goal with |- context [s16 ?x] => lazymatch x with context [s16 _] => fail | _ => rewrite (s16_small x) by lia end end. lia.
Qed.

Lemma get4x4 b p : block_of 4 b -> block_of 4 p -> get4x4var b p = (total (squares (differences b p)), total (differences b p)).
Proof.
  intros B P. unfold get4x4var.
  assert (D : forall i j, (i < 4)%nat -> (j < 4)%nat ->
    let v := sub_epi16 (interleave (row b i) (row b j)) (interleave (row p i) (row p j)) in
    length v = 8%nat /\ below 255 v /\
    total v = total (sub_epi16 (row b i) (row p i)) + total (sub_epi16 (row b j) (row p j)) /\
    total (squares v) = total (squares (sub_epi16 (row b i) (row p i))) + total (squares (sub_epi16 (row b j) (row p j)))).
  { intros i j I J. destruct (row_ok 4 b i B I) as [A1 A2], (row_ok 4 b j B J) as [C1 C2], (row_ok 4 p i P I) as [E1 E2], (row_ok 4 p j P J) as [F1 F2].
    remember (row b i) as bi. remember (row b j) as bj. remember (row p i) as pi. remember (row p j) as pj. clear Heqbi Heqbj Heqpi Heqpj.
    destruct bi as [|a0 [|a1 [|a2 [|a3 [|? ?]]]]]; try discriminate A1. destruct bj as [|c0 [|c1 [|c2 [|c3 [|? ?]]]]]; try discriminate C1.
    destruct pi as [|e0 [|e1 [|e2 [|e3 [|? ?]]]]]; try discriminate E1. destruct pj as [|f0 [|f1 [|f2 [|f3 [|? ?]]]]]; try discriminate F1.
    bounds A2; bounds C2; bounds E2; bounds F2. unfold byte_ok in *. clear A1 C1 E1 F1 A2 C2 E2 F2.
    cbn [interleave sub_epi16 lanes2 combine map squares total fold_right length].
    rewrite !s16_small by lia.
    split; [reflexivity|]. split; [unfold below; repeat constructor; lia|]. split; lia. }
  destruct (D 0%nat 1%nat) as (L1 & W1 & T1 & Q1); [lia..|]. destruct (D 2%nat 3%nat) as (L2 & W2 & T2 & Q2); [lia..|]. clear D.
  rewrite (differences_rows 4 b p B P). cbn [seq flat_map]. unfold squares at 1. rewrite !map_app, !total_app. fold (squares (sub_epi16 (row b 0) (row p 0))) (squares (sub_epi16 (row b 1) (row p 1))) (squares (sub_epi16 (row b 2) (row p 2))) (squares (sub_epi16 (row b 3) (row p 3))).
  remember (sub_epi16 (interleave (row b 0) (row b 1)) (interleave (row p 0) (row p 1))) as d0. remember (sub_epi16 (interleave (row b 2) (row b 3)) (interleave (row p 2) (row p 3))) as d1.
  destruct (madd_total d0 255 L1 W1) as (A1 & A2 & A3); [lia|]. destruct (madd_total d1 255 L2 W2) as (C1 & C2 & C3); [lia|].
  destruct (add32_total (madd_self d0) (madd_self d1) 130050 130050) as (U1 & U2 & U3); [congruence|assumption..|lia|].
  destruct (add16_total d0 d1 255 255) as (X1 & X2 & X3); [congruence|assumption..|lia|].
  rewrite (fold32_total _ _ (eq_trans U1 A1) U2) by lia. rewrite (fold16_total _ (eq_trans X1 L1)).
  2:{ eapply Forall_impl; [|exact X2]. intros z; cbn beta; lia. }
  rewrite U3, X3, A3, C3, T1, T2, Q1, Q2. cbn [map total fold_right]. f_equal; lia.
Qed.

(** C66 (SSE2 code): for every two blocks of bytes the SSE2 code computes
    what the portable code computes: no 16 bit lane overflows, no square of
    an int overflows, and the three shifts divide by the number of pixels. *)
Theorem C66_sse2 :
  (forall b p, block_of 4 b -> block_of 4 p -> fst (get4x4var b p) = sse 4 b p /\ variance4x4 b p = Some (variance 4 b p)) /\
  (forall b p, block_of 8 b -> block_of 8 p -> fst (get8x8var b p) = sse 8 b p /\ variance8x8 b p = Some (variance 8 b p)) /\
  (forall b p, block_of 16 b -> block_of 16 p -> fst (get16x16var b p) = sse 16 b p /\ variance16x16 b p = variance 16 b p).
Proof.
  split; [|split]; intros b p B P.
  - destruct (C66_portable 4 b p) as (_ & E & V); [unfold size_ok; lia|assumption..|].
    destruct (C66_meaning 4 b p) as (M & _); [unfold size_ok; lia|assumption..|]. rewrite E, V in *.
    unfold variance4x4. rewrite (get4x4 b p B P). cbn [fst]. split; [reflexivity|].
    destruct (differences_range 4 b p B P) as [L R]. pose proof (total_le _ R) as T. pose proof (squares_le _ R) as Q. unfold zlen in T, Q. rewrite L in T, Q. change (Z.of_nat (4 * 4)) with 16 in *.
    unfold int_sq. replace (_ <=? _) with true by nia. cbn [obind]. f_equal. change (Z.of_nat 4 * Z.of_nat 4) with 16 in *. change (2 ^ 4) with 16. unfold wrap; apply Z.mod_small. lia.
  - destruct (C66_portable 8 b p) as (_ & E & V); [unfold size_ok; lia|assumption..|].
    destruct (C66_meaning 8 b p) as (M & _); [unfold size_ok; lia|assumption..|]. rewrite E, V in *.
    unfold variance8x8. rewrite (get8x8 b p B P). cbn [fst]. split; [reflexivity|].
    destruct (differences_range 8 b p B P) as [L R]. pose proof (total_le _ R) as T. pose proof (squares_le _ R) as Q. unfold zlen in T, Q. rewrite L in T, Q. change (Z.of_nat (8 * 8)) with 64 in *.
    unfold int_sq. replace (_ <=? _) with true by nia. cbn [obind]. f_equal. change (Z.of_nat 8 * Z.of_nat 8) with 64 in *. change (2 ^ 6) with 64. unfold wrap; apply Z.mod_small. lia.
  - destruct (C66_portable 16 b p) as (_ & E & V); [unfold size_ok; lia|assumption..|].
    destruct (C66_meaning 16 b p) as (M & _); [unfold size_ok; lia|assumption..|]. rewrite E, V in *.
    unfold variance16x16. rewrite (get16x16 b p B P). cbn [fst]. split; [reflexivity|].
    destruct (differences_range 16 b p B P) as [L R]. pose proof (total_le _ R) as T. pose proof (squares_le _ R) as Q. unfold zlen in T, Q. rewrite L in T, Q. change (Z.of_nat (16 * 16)) with 256 in *.
    change (Z.of_nat 16 * Z.of_nat 16) with 256 in *. change (2 ^ 8) with 256.
    assert (W : wrap 32 (total (differences b p) * total (differences b p)) = total (differences b p) * total (differences b p)) by (unfold wrap; apply Z.mod_small; nia).
    rewrite W. unfold wrap; apply Z.mod_small. lia.
Qed.

(** Blocks with the largest possible difference: the lanes of the 16 by 16
    code come within 127 of the largest int16_t. *)
Definition flat (n : nat) (v : Z) : list (list Z) := repeat (repeat v n) n.
Example C66_largest : block_of 16 (flat 16 255) /\ block_of 16 (flat 16 0) /\
  get16x16var (flat 16 255) (flat 16 0) = (16646400, 65280) /\ variance16x16 (flat 16 255) (flat 16 0) = 0.
Proof. split; [|split; [|split; vm_compute; reflexivity]]; (split; [reflexivity|]); unfold flat; repeat constructor; unfold byte_ok; cbn; lia. Qed.

(** One pixel off by one. *)
Example C66_one_pixel :
  let b := [[7;7;7;7];[7;7;7;7];[7;7;8;7];[7;7;7;7]] in
  block_of 4 b /\ variance4x4 b (flat 4 3) = Some 1 /\ fst (get4x4var b (flat 4 3)) = 265 /\ sad 4 b (flat 4 3) = 65.
Proof. split; [split; [reflexivity|repeat constructor; unfold byte_ok; lia]|]. repeat split; vm_compute; reflexivity. Qed.

Print Assumptions C66_portable.
Print Assumptions C66_meaning.
Print Assumptions C66_sse2.
