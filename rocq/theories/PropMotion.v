(** C63: the encoder's search for motion vectors. *)
From Verif Require Import Base TreeModel MVModel MVProofs FrameModel MBModel MBProofs RasterModel RasterProofs PredictModel PredictProofs
  SafeRasterModel PropInter PropSafeRaster MotionModel.

(** ** Independent description *)

(** Offsets that the format can carry as a coded difference: even, within the
    bounds of the search. *)
Definition offset_ok (v : mv) : Prop :=
  (-1022 <= fst v <= 1022 /\ fst v mod 2 = 0) /\ (-1022 <= snd v <= 1022 /\ snd v mod 2 = 0).

(** The four neighbours at a distance, and the offset itself. *)
Definition neighbour_of (o v : mv) (step : Z) : Prop :=
  v = o \/ v = (fst o - step, snd o) \/ v = (fst o + step, snd o) \/ v = (fst o, snd o - step) \/ v = (fst o, snd o + step).

(** ** Proof: one round *)
Lemma s16_small z : -32768 <= z <= 32767 -> s16 z = z.
Proof. intros H. unfold s16. rewrite Z.mod_small by lia. lia. Qed.

Lemma site_exact o step d : offset_ok o -> 0 <= step <= 512 -> -1 <= fst d <= 1 -> -1 <= snd d <= 1 ->
  site o step d = (fst o + step * fst d, snd o + step * snd d).
Proof.
  intros [[H1 _] [H2 _]] Hs Hx Hy. unfold site, mv_add, mv_zero. cbn [fst snd].
  rewrite (s16_small (step * fst d)), (s16_small (step * snd d)) by nia.
  rewrite (s16_small (fst o + _)), (s16_small (snd o + _)) by nia. rewrite !Z.add_0_l, !s16_small by nia. reflexivity.
Qed.
Lemma out_of_bounds_false v : out_of_bounds v = false <-> -1023 <= fst v <= 1023 /\ -1023 <= snd v <= 1023.
Proof. unfold out_of_bounds. lia. Qed.
Lemma in_bounds_ok v : out_of_bounds v = false -> fst v mod 2 = 0 -> snd v mod 2 = 0 -> offset_ok v.
Proof. intros H A B. apply out_of_bounds_false in H. unfold offset_ok. lia. Qed.

Section Search.
  Context (score : mv -> option Z) (f : mv -> Z) (Hf : forall v, offset_ok v -> score v = Some (f v)).

  Definition kept (b : mv * Z) : Prop := offset_ok (fst b) /\ (snd b = f (fst b) \/ b = (mv_zero, UINT32_MAX)).

  Lemma round_sites o step l : offset_ok o -> 0 <= step <= 512 -> step mod 2 = 0 ->
    (forall d, In d l -> -1 <= fst d <= 1 /\ -1 <= snd d <= 1) ->
    forall b, kept b -> exists b',
    ofold (fun best d => let v := site o step d in if out_of_bounds v then Some best
       else let? c := score v in Some (if c <? snd best then (v, c) else best)) l b = Some b' /\
    kept b' /\ snd b' <= snd b /\
    (b' = b \/ exists d, In d l /\ fst b' = (fst o + step * fst d, snd o + step * snd d)) /\
    forall d, In d l -> out_of_bounds (fst o + step * fst d, snd o + step * snd d) = false ->
      snd b' <= f (fst o + step * fst d, snd o + step * snd d).
  Proof.
    intros Ho Hs He. induction l as [|d l IH]; intros Hl b Hb.
    - exists b. split; [reflexivity|]. split; [exact Hb|]. split; [lia|]. split; [left; reflexivity|]. intros d [].
    - cbn [ofold]. assert (Hd := Hl d (or_introl eq_refl)). rewrite (site_exact o step d Ho) by tauto.
      set (v := (fst o + step * fst d, snd o + step * snd d)).
      destruct (out_of_bounds v) eqn:B; cbv zeta.
      + cbn [obind]. destruct (IH (fun d' h => Hl d' (or_intror h)) b Hb) as (b' & E & K & L & F & M).
        exists b'. split; [exact E|]. split; [exact K|]. split; [exact L|]. split.
        * destruct F as [F|(d' & I & F)]; [left; exact F|right; exists d'; split; [right; exact I|exact F]].
        * intros d' [->|I] Hb'; [fold v in Hb'; congruence|apply M; assumption].
      + assert (Ov : offset_ok v).
        { destruct Ho as [[_ A1] [_ A2]]. assert (X : step = 2 * (step / 2)) by lia. generalize dependent (step / 2). intros q X.
          apply in_bounds_ok; [exact B| |]; subst v; cbn [fst snd]; rewrite X, <- Z.mul_assoc; lia. }
        rewrite (Hf v Ov). cbn [obind]. set (b1 := if f v <? snd b then (v, f v) else b).
        assert (Kb : kept b1). { subst b1. destruct (f v <? snd b); [|exact Hb]. split; [exact Ov|left; reflexivity]. }
        destruct (IH (fun d' h => Hl d' (or_intror h)) b1 Kb) as (b' & E & K & L & F & M).
        assert (L1 : snd b1 <= snd b /\ snd b1 <= f v) by (unfold b1; destruct (Z.ltb_spec (f v) (snd b)); cbn [snd]; split; solve [apply Z.le_refl|apply Z.lt_le_incl; assumption|assumption]).
        exists b'. split; [exact E|]. split; [exact K|]. split; [etransitivity; [exact L|apply L1]|]. split.
        * destruct F as [F|(d' & I & F)]; [|right; exists d'; split; [right; exact I|exact F]].
          subst b1. destruct (f v <? snd b); [right; exists d; split; [left; reflexivity|rewrite F; reflexivity]|left; exact F].
        * intros d' [->|I] Hb'; [fold v; etransitivity; [exact L|apply L1]|apply M; assumption].
  Qed.

  Lemma zero_ok : offset_ok mv_zero.
  Proof. unfold offset_ok, mv_zero. cbn. lia. Qed.

  Lemma round_spec o step : offset_ok o -> 0 <= step <= 512 -> step mod 2 = 0 ->
    exists b, search_round score o step = Some b /\ kept b /\
      (b = (mv_zero, UINT32_MAX) \/ neighbour_of o (fst b) step) /\
      forall v, neighbour_of o v step -> out_of_bounds v = false -> snd b <= f v.
  Proof.
    intros Ho Hs He. unfold search_round.
    destruct (round_sites o step check_sites Ho Hs He) with (b := (mv_zero, UINT32_MAX)) as (b & E & K & L & F & M).
    - intros d [<-|[<-|[<-|[<-|[<-|[]]]]]]; cbn; lia.
    - split; [apply zero_ok|right; reflexivity].
    - exists b. split; [exact E|]. split; [exact K|]. split.
      + destruct F as [F|(d & D & F)]; [left; exact F|right]. rewrite F. destruct o as [ox oy]. unfold neighbour_of. cbn [fst snd]. cbn in D.
        destruct D as [<-|[<-|[<-|[<-|[<-|[]]]]]]; cbn [fst snd];
          [right; left|right; right; right; left|left|right; right; right; right|right; right; left]; f_equal; lia.
      + intros v N Bv. destruct o as [ox oy]. unfold neighbour_of in N. cbn [fst snd] in *.
        assert (Q : forall d, In d check_sites -> v = (ox + step * fst d, oy + step * snd d) -> snd b <= f v).
        { intros d D ->. apply M; assumption. }
        destruct N as [->|[->|[->|[->| ->]]]].
        * apply (Q (0, 0)); [cbn; tauto|]. cbn [fst snd]. f_equal; lia.
        * apply (Q (-1, 0)); [cbn; tauto|]. cbn [fst snd]. f_equal; lia.
        * apply (Q (1, 0)); [cbn; tauto|]. cbn [fst snd]. f_equal; lia.
        * apply (Q (0, -1)); [cbn; tauto|]. cbn [fst snd]. f_equal; lia.
        * apply (Q (0, 1)); [cbn; tauto|]. cbn [fst snd]. f_equal; lia.
  Qed.

  (** If no cost is the greatest uint32_t, the cost does not grow. *)
  Definition below : Prop := forall v, offset_ok v -> f v < UINT32_MAX.

  Lemma round_down o step b : offset_ok o -> 0 <= step <= 512 -> step mod 2 = 0 -> search_round score o step = Some b ->
    offset_ok (fst b) /\ (below -> f (fst b) <= f o).
  Proof.
    intros Ho Hs He E. destruct (round_spec o step Ho Hs He) as (b' & E' & [K1 K2] & F & M). rewrite E in E'. injection E' as <-.
    split; [exact K1|]. intros Hb.
    assert (B : snd b <= f o). { apply M; [left; reflexivity|]. apply out_of_bounds_false. destruct Ho as [[? _] [? _]]. lia. }
    destruct K2 as [K2|K2]; [lia|]. rewrite K2 in B. cbn [snd] in B. specialize (Hb o Ho). lia.
  Qed.

  Lemma even_step k : (0 < k <= 9)%nat -> 0 <= 2 ^ Z.of_nat k <= 512 /\ 2 ^ Z.of_nat k mod 2 = 0 /\ 2 ^ Z.of_nat k / 2 = 2 ^ Z.of_nat (k - 1) /\ 1 < 2 ^ Z.of_nat k.
  Proof.
    intros H. assert (A : 2 ^ Z.of_nat k = 2 * 2 ^ Z.of_nat (k - 1)).
    { replace (Z.of_nat k) with (Z.succ (Z.of_nat (k - 1))) by lia. rewrite Z.pow_succ_r by lia. reflexivity. }
    assert (P : 0 < 2 ^ Z.of_nat (k - 1)) by (apply Z.pow_pos_nonneg; lia).
    assert (2 ^ Z.of_nat k <= 2 ^ 9) by (apply Z.pow_le_mono_r; lia). change (2 ^ 9) with 512 in *. lia.
  Qed.

  Lemma diamond_spec K : forall k fuel o j, (k <= fuel)%nat -> (k <= 9)%nat -> (k <= K)%nat -> (j < K)%nat -> offset_ok o ->
    exists v j', diamond_loop fuel score o (2 ^ Z.of_nat k) (2 ^ Z.of_nat j) = Some (v, 2 ^ Z.of_nat j') /\
      offset_ok v /\ (j' < K)%nat /\ (below -> f v <= f o).
  Proof.
    induction k as [|k IH]; intros fuel o j Hk H9 HK Hj Ho.
    - exists o, j. split; [destruct fuel; reflexivity|]. split; [exact Ho|]. split; [exact Hj|]. lia.
    - destruct fuel as [|fuel]; [lia|]. destruct (even_step (S k)) as (S1 & S2 & S3 & S4); [lia|]. replace (S k - 1)%nat with k in S3 by lia.
      cbn [diamond_loop]. replace (2 ^ Z.of_nat (S k) <=? 1) with false by lia.
      destruct (round_spec o _ Ho S1 S2) as (b & E & _). rewrite E. cbn [obind].
      destruct (round_down o _ b Ho S1 S2 E) as [Ob Db]. rewrite S3.
      assert (X : exists j1, (if mv_eqb (fst b) o then 2 ^ Z.of_nat k else 2 ^ Z.of_nat j) = 2 ^ Z.of_nat j1 /\ (j1 < K)%nat).
      { destruct (mv_eqb (fst b) o); eexists; (split; [reflexivity|lia]). }
      destruct X as (j1 & X1 & X2). rewrite X1.
      destruct (IH fuel (fst b) j1) as (v & j' & A & B & C & D); try lia; [exact Ob|].
      exists v, j'. split; [exact A|]. split; [exact B|]. split; [exact C|]. intros Hb. specialize (D Hb). specialize (Db Hb). lia.
  Qed.

  Lemma new_loop_spec : forall k fuel o, (k <= fuel)%nat -> (k <= 9)%nat -> offset_ok o ->
    exists v, new_loop fuel score o (2 ^ Z.of_nat k) = Some v /\ offset_ok v /\ (below -> f v <= f o).
  Proof.
    induction k as [k IH] using lt_wf_ind. intros fuel o Hk H9 Ho. destruct k as [|k].
    - exists o. split; [destruct fuel; reflexivity|]. split; [exact Ho|]. lia.
    - destruct fuel as [|fuel]; [lia|]. destruct (even_step (S k)) as (S1 & S2 & S3 & S4); [lia|]. replace (S k - 1)%nat with k in S3 by lia.
      cbn [new_loop]. replace (2 ^ Z.of_nat (S k) <=? 1) with false by lia. unfold diamond_search. rewrite S3.
      destruct (diamond_spec (S k) (S k) 10 o k) as (v & j & A & B & C & D); try lia; [exact Ho|].
      rewrite A. cbn [obind fst snd]. destruct (mv_eqb v o) eqn:E.
      + exists o. split; [reflexivity|]. split; [exact Ho|]. lia.
      + destruct (IH j C fuel v) as (w & A' & B' & D'); try lia; [exact B|].
        exists w. split; [exact A'|]. split; [exact B'|]. intros Hb. specialize (D Hb). specialize (D' Hb). lia.
  Qed.
End Search.

(** ** Theorems: the search *)

(** Whatever the costs are, the search ends with an even offset within the
    bounds, and has not asked for the cost of any other. *)
Theorem C63_search :
  forall score f, (forall v, offset_ok v -> score v = Some (f v)) ->
  exists v, new_offset score = Some v /\ offset_ok v.
Proof.
  intros score f H. destruct (new_loop_spec score f H 9 10 mv_zero) as (v & A & B & _); [lia|lia|apply zero_ok|].
  exists v. split; [exact A|exact B].
Qed.

(** The offset that is found is not worse than none. *)
Theorem C63_never_worse :
  forall score f v, (forall v, offset_ok v -> score v = Some (f v)) -> (forall v, offset_ok v -> f v < UINT32_MAX) ->
  new_offset score = Some v -> f v <= f mv_zero.
Proof.
  intros score f v H Hb E. destruct (new_loop_spec score f H 9 10 mv_zero) as (w & A & _ & D); [lia|lia|apply zero_ok|].
  unfold new_offset in E. change 512 with (2 ^ Z.of_nat 9) in E. rewrite A in E. injection E as <-. apply D. exact Hb.
Qed.

(** Every round moves to a neighbour with the least cost. *)
Theorem C63_round :
  forall score f o step b,
  (forall v, offset_ok v -> score v = Some (f v)) -> (forall v, offset_ok v -> f v < UINT32_MAX) ->
  offset_ok o -> 0 <= step <= 512 -> step mod 2 = 0 -> search_round score o step = Some b ->
  neighbour_of o (fst b) step /\ offset_ok (fst b) /\ snd b = f (fst b) /\
  forall v, neighbour_of o v step -> offset_ok v -> f (fst b) <= f v.
Proof.
  intros score f o step b H Hb Ho Hs He E. destruct (round_spec score f H o step Ho Hs He) as (b' & E' & [K1 K2] & F & M).
  rewrite E in E'. injection E' as <-.
  assert (I : forall v, offset_ok v -> out_of_bounds v = false) by (intros v [[? _] [? _]]; apply out_of_bounds_false; lia).
  assert (B : snd b <= f o) by (apply M; [left; reflexivity|apply I, Ho]).
  assert (N : b <> (mv_zero, UINT32_MAX)). { intros ->. cbn [snd] in B. specialize (Hb o Ho). lia. }
  destruct F as [F|F]; [contradiction|]. destruct K2 as [K2|K2]; [|contradiction].
  split; [exact F|]. split; [exact K1|]. split; [exact K2|]. intros v Nv Ov. rewrite <- K2. apply M; [exact Nv|apply I, Ov].
Qed.

(** ** Proof: the pictures and tables *)

(** A macroblock of a frame of W by H macroblocks, the copy of the reference
    picture [r] with margins, and tables of the sizes of the code. *)
Definition table_of (n : nat) (l : list Z) : Prop := length l = n.
Definition mb_ok (s : mb_search) (r : raster) : Prop :=
  (raster_dims r /\ plane_ok (ra_y r) /\ pl_w (ra_y r) = 16 * ms_w s /\ pl_h (ra_y r) = 16 * ms_h s /\ ms_w s <= 1024 /\ ms_h s <= 1024) /\
  (0 <= ms_col s < ms_w s /\ 0 <= ms_row s < ms_h s) /\
  (pl_w (ms_safe s) = ra_dw r + 512 /\ pl_h (ms_safe s) = ra_dh r + 512 /\ shows MARGIN_WIDTH (ra_dw r) (ra_dh r) (ra_y r) (ms_safe s)) /\
  (plane_ok (ms_temp s) /\ same_dims (ra_y r) (ms_temp s)) /\
  (table_of 256 (ms_sads s) /\ table_of 10 (ms_mode_costs s) /\
   length (ms_mv_costs s) = 2%nat /\ Forall (fun t => length t = 2%nat /\ Forall (table_of 1024) t) (ms_mv_costs s)).

Lemma clamp_x col w x : 0 <= col < w -> w <= 1024 ->
  let to_left := Z.max (- Z.shiftl (col * 16) 3 - 128) (-32768) in
  let to_right := Z.min (wrap 32 (wrap 32 (Z.shiftl (wrap 32 (wrap 32 (w - 1 - col) * 16)) 3) + 128)) 32767 in
  -128 * col - 128 <= Z.min (Z.max x to_left) to_right <= 128 * (w - 1 - col) + 128 /\
  -32768 <= Z.min (Z.max x to_left) to_right <= 32767.
Proof.
  intros Hc Hw. cbv zeta. rewrite !Z.shiftl_mul_pow2 by lia. change (2 ^ 3) with 8.
  unfold wrap. change (2 ^ 32) with 4294967296. rewrite (Z.mod_small (w - 1 - col)) by lia.
  rewrite (Z.mod_small ((w - 1 - col) * 16)) by lia. rewrite (Z.mod_small ((w - 1 - col) * 16 * 8)) by lia. rewrite Z.mod_small by lia. lia.
Qed.
Lemma clamp_range s r v : mb_ok s r ->
  (-128 * ms_col s - 128 <= fst (clamp_in s v) <= 128 * (ms_w s - 1 - ms_col s) + 128 /\
   -128 * ms_row s - 128 <= snd (clamp_in s v) <= 128 * (ms_h s - 1 - ms_row s) + 128) /\ mv_int16 (clamp_in s v).
Proof.
  intros ((_ & _ & _ & _ & Hw & Hh) & (Hc & Hr) & _). unfold clamp_in, mv_clamp, mv_int16. cbv zeta. cbn [fst snd].
  pose proof (clamp_x (ms_col s) (ms_w s) (fst v) Hc Hw) as [A1 A2]. pose proof (clamp_x (ms_row s) (ms_h s) (snd v) Hr Hh) as [B1 B2].
  cbv zeta in A1, A2, B1, B2. split; split; assumption.
Qed.

(** Vectors that reach at most 1100 eighths beyond the limits. *)
Definition reach (s : mb_search) (v : mv) : Prop :=
  (-128 * ms_col s - 1200 <= fst v <= 128 * (ms_w s - 1 - ms_col s) + 1200 /\
   -128 * ms_row s - 1200 <= snd v <= 128 * (ms_h s - 1 - ms_row s) + 1200) /\ mv_int16 v.

Lemma predict_some s r v : mb_ok s r -> reach s v ->
  exists p, predict_in s v = Some p /\ inter_predict 16 (ms_col s) (ms_row s) v (ra_y r) (ms_temp s) = Some p.
Proof.
  intros ((Hd & Hp & Ew & Eh & Hw & Hh) & (Hc & Hr) & (S1 & S2 & S3) & (T1 & T2) & _) [[R1 R2] R3].
  assert (Hd' := Hd). destruct Hd' as (_ & D1 & D2 & D3 & D4). assert (T2' := T2). destruct T2' as [T3 T4].
  apply (C62_predict r); try assumption; try lia.
Qed.

Lemma sad_index_range c : 0 <= sad_index c <= 255.
Proof. unfold sad_index. lia. Qed.
Lemma nth_table n l i : table_of n l -> 0 <= i < Z.of_nat n -> exists c, nth_error l (Z.to_nat i) = Some c.
Proof.
  unfold table_of. intros H Hi. destruct (nth_error l (Z.to_nat i)) as [c|] eqn:E; [exists c; reflexivity|].
  apply nth_error_None in E. lia.
Qed.
Lemma sad_cost_some s r v : mb_ok s r -> exists c, sad_mv_cost (ms_sads s) v (ms_weight s) = Some c.
Proof.
  intros (_ & _ & _ & _ & (T & _)). unfold sad_mv_cost.
  destruct (nth_table 256 _ (sad_index (snd v)) T) as (a & ->); [pose proof (sad_index_range (snd v)); lia|].
  destruct (nth_table 256 _ (sad_index (fst v)) T) as (b & ->); [pose proof (sad_index_range (fst v)); lia|].
  eexists. reflexivity.
Qed.

Lemma score_some s r base v : mb_ok s r -> exists c, score_in s base v = Some c.
Proof.
  intros H. unfold score_in. destruct (clamp_range s r (mv_add v (clamp_in s base)) H) as [[A B] C].
  destruct (predict_some s r (clamp_in s (mv_add v (clamp_in s base))) H) as (p & E & _); [unfold reach; split; [lia|exact C]|].
  rewrite E. cbn [obind]. destruct (sad_cost_some s r v H) as (c & ->). cbn [obind]. eexists. reflexivity.
Qed.

Lemma new_offset_some s r base : mb_ok s r -> exists v, new_offset (score_in s base) = Some v /\ offset_ok v.
Proof.
  intros H. apply (C63_search _ (fun v => match score_in s base v with Some c => c | None => 0 end)).
  intros v _. destruct (score_some s r base v H) as (c & ->). reflexivity.
Qed.

Lemma offset_codable v : offset_ok v -> mv_codable v.
Proof.
  intros [[A1 A2] [B1 B2]]. unfold mv_codable, comp_codable.
  split; (split; [|lia]); [exists (fst v / 2)|exists (snd v / 2)]; lia.
Qed.

Lemma mv_add_int16 a b : mv_int16 (mv_add a b).
Proof. unfold mv_int16, mv_add, s16. cbn [fst snd]. lia. Qed.

(** The sum of the reference vector and the offset does not wrap in frames of
    at most 248 macroblocks in each direction. *)
Definition narrow (s : mb_search) : Prop := ms_w s <= 248 /\ ms_h s <= 248.
Lemma sum_exact s r best v : mb_ok s r -> narrow s -> offset_ok v ->
  let b := clamp_in s best in mv_add v b = (fst v + fst b, snd v + snd b) /\ reach s (mv_add v b).
Proof.
  intros H [Nw Nh] [[A1 _] [B1 _]] b. pose proof (mv_add_int16 v b) as I.
  destruct (clamp_range s r best H) as [[C1 C2] [C3 C4]]. fold b in C1, C2, C3, C4.
  destruct H as (_ & (Hc & Hr) & _).
  assert (E : mv_add v b = (fst v + fst b, snd v + snd b)) by (unfold mv_add; rewrite !s16_small by lia; reflexivity).
  split; [exact E|]. unfold reach. split; [|exact I]. rewrite E. cbn [fst snd]. lia.
Qed.

Lemma mv_cost_some s r v : mb_ok s r -> offset_ok v -> exists c, motion_vector_cost (ms_mv_costs s) v 96 = Some c.
Proof.
  intros (_ & _ & _ & _ & (_ & _ & L & F)) [[A _] [B _]].
  assert (T : forall axis c, (axis < 2)%nat -> -1022 <= c <= 1022 -> exists x, mv_table (ms_mv_costs s) axis c = Some x).
  { intros axis c Ha Hc. unfold mv_table. destruct (nth_error (ms_mv_costs s) axis) as [t|] eqn:E; [|apply nth_error_None in E; lia].
    cbn [obind]. apply nth_error_In in E. rewrite Forall_forall in F. destruct (F t E) as [Lt Ft].
    destruct (nth_error t (if c <? 0 then 1%nat else 0%nat)) as [u|] eqn:E2; [|apply nth_error_None in E2; destruct (c <? 0); lia].
    cbn [obind]. apply nth_error_In in E2. rewrite Forall_forall in Ft. apply (nth_table 1024); [apply Ft, E2|lia]. }
  unfold motion_vector_cost. destruct (T 0%nat (snd v)) as (y & ->); [lia|exact B|]. destruct (T 1%nat (fst v)) as (x & ->); [lia|exact A|].
  cbn [obind]. eexists. reflexivity.
Qed.

(** ** Theorems: the macroblock *)

(** All predictions of the search read inside of the margins, for every
    reference vector, and are those of the decoder. *)
Theorem C63_search_reads :
  forall s r base v, mb_ok s r ->
  let tried := clamp_in s (mv_add v (clamp_in s base)) in
  exists p, predict_in s tried = Some p /\
            inter_predict 16 (ms_col s) (ms_row s) tried (ra_y r) (ms_temp s) = Some p /\
            score_in s base v <> None.
Proof.
  intros s r base v H tried. destruct (clamp_range s r (mv_add v (clamp_in s base)) H) as [[A B] C].
  destruct (predict_some s r tried H) as (p & E & E'); [unfold reach, tried; split; [lia|exact C]|].
  exists p. split; [exact E|]. split; [exact E'|]. destruct (score_some s r base v H) as (c & ->). discriminate.
Qed.

(** The new vector: what is written is the offset, from which the decoder gets
    the vector back. In frames of at most 248 by 248 macroblocks its prediction
    reads inside of the margins and is that of the decoder. *)
Theorem C63_new_vector :
  forall s r best, mb_ok s r ->
  let b := clamp_in s best in
  exists off, new_offset (score_in s b) = Some off /\ offset_ok off /\
    let v := mv_add off b in
    new_mv_ok b v /\ mv_sub v b = off /\
    (ms_w s <= 248 -> ms_h s <= 248 ->
     v = (fst off + fst b, snd off + snd b) /\
     exists p, predict_in s v = Some p /\ inter_predict 16 (ms_col s) (ms_row s) v (ra_y r) (ms_temp s) = Some p).
Proof.
  intros s r best H b. destruct (new_offset_some s r b H) as (off & E & O). exists off. split; [exact E|]. split; [exact O|].
  cbv zeta. assert (X : mv_sub (mv_add off b) b = off) by (apply mv_add_sub, codable_ok, offset_codable, O).
  split; [|split; [exact X|]].
  - split; [apply mv_add_int16|]. rewrite X. apply offset_codable, O.
  - intros Hw Hh. destruct (sum_exact s r best off H (conj Hw Hh) O) as [A B]. split; [exact A|]. apply predict_some; assumption.
Qed.

(** The choice of a mode does not fail, and ends with the given intra mode or
    with a vector that the mode stands for (so that the macroblock can be
    written), with a cost that is not greater. *)
Theorem C63_choice :
  forall s r realtime census intra cost, mb_ok s r -> ms_w s <= 248 -> ms_h s <= 248 ->
  exists mode v c, choose_mode s realtime census intra cost = Some (mode, v, c) /\ c <= cost /\
    ((mode, v) = (intra, mv_zero) \/
     mode = ZEROMV /\ v = mv_zero \/
     mode = NEARESTMV /\ v = clamp_in s (sc_nearest census) \/
     mode = NEARMV /\ v = clamp_in s (sc_near census) \/
     mode = NEWMV /\ new_mv_ok (clamp_in s (sc_best census)) v) /\
    exists p, predict_in s v = Some p /\ inter_predict 16 (ms_col s) (ms_row s) v (ra_y r) (ms_temp s) = Some p.
Proof.
  intros s r realtime census intra cost H Hw Hh.
  set (good := fun mode v => ((mode, v) = (intra, mv_zero) \/
     mode = ZEROMV /\ v = mv_zero \/
     mode = NEARESTMV /\ v = clamp_in s (sc_nearest census) \/
     mode = NEARMV /\ v = clamp_in s (sc_near census) \/
     mode = NEWMV /\ new_mv_ok (clamp_in s (sc_best census)) v)).
  assert (R0 : reach s mv_zero).
  { unfold reach, mv_int16, mv_zero. cbn [fst snd]. destruct H as (_ & (? & ?) & _). lia. }
  assert (RC : forall v, reach s (clamp_in s v)) by (intros v; destruct (clamp_range s r v H) as [[A B] C]; split; [lia|exact C]).
  assert (Step : forall mode best, In mode inter_modes -> good (fst (fst best)) (snd (fst best)) -> reach s (snd (fst best)) ->
    exists best', (let? o := mode_vector s realtime census mode in
      match o with None => Some best | Some v => let? c := mode_cost s census mode v in Some (if c <? snd best then (mode, v, c) else best) end) = Some best' /\
      good (fst (fst best')) (snd (fst best')) /\ reach s (snd (fst best')) /\ snd best' <= snd best).
  { intros mode best Hm G R.
    assert (V : exists o, mode_vector s realtime census mode = Some o /\ forall v, o = Some v ->
        good mode v /\ reach s v /\ (mode = NEWMV -> offset_ok (mv_sub v (clamp_in s (sc_best census))))).
    { cbn in Hm. destruct Hm as [<-|[<-|[<-|[<-|[]]]]]; unfold mode_vector.
      - eexists. split; [reflexivity|]. intros v Ev. injection Ev as <-. split; [right; left; split; reflexivity|]. split; [exact R0|discriminate].
      - change (NEARESTMV =? NEWMV) with false. change (NEARESTMV =? NEARMV) with false. change (NEARESTMV =? NEARESTMV) with true. cbv iota.
        eexists. split; [reflexivity|]. intros v Ev. destruct (mv_empty _); [discriminate|]. injection Ev as <-.
        split; [right; right; left; split; reflexivity|]. split; [apply RC|discriminate].
      - change (NEARMV =? NEWMV) with false. change (NEARMV =? NEARMV) with true. cbv iota.
        eexists. split; [reflexivity|]. intros v Ev. destruct (mv_empty _); [discriminate|]. injection Ev as <-.
        split; [right; right; right; left; split; reflexivity|]. split; [apply RC|discriminate].
      - change (NEWMV =? NEWMV) with true. cbv iota.
        destruct (realtime && _); [eexists; split; [reflexivity|discriminate]|].
        destruct (C63_new_vector s r (sc_best census) H) as (off & E & O & N & X & P).
        rewrite E. cbn [obind]. eexists. split; [reflexivity|]. intros v Ev. destruct (mv_empty _); [discriminate|]. injection Ev as <-.
        split; [right; right; right; right; split; [reflexivity|exact N]|]. split; [|intros _; rewrite X; exact O].
        apply (sum_exact s r (sc_best census) off H (conj Hw Hh) O). }
    destruct V as (o & -> & V). cbn [obind]. destruct o as [v|]; [|exists best; split; [reflexivity|]; split; [exact G|]; split; [exact R|lia]].
    destruct (V v eq_refl) as (Gv & Rv & Ov). unfold mode_cost.
    destruct (predict_some s r v H Rv) as (p & -> & _). cbn [obind].
    assert (Tm := H). destruct Tm as (_ & _ & _ & _ & (_ & Tm & _)).
    destruct (nth_table 10 _ mode Tm) as (rate & ->); [cbn in Hm; destruct Hm as [<-|[<-|[<-|[<-|[]]]]]; unfold ZEROMV, NEARESTMV, NEARMV, NEWMV; lia|]. cbn [obind].
    assert (X : exists extra, (if mode =? NEWMV then motion_vector_cost (ms_mv_costs s) (mv_sub v (clamp_in s (sc_best census))) 96 else Some 0) = Some extra).
    { destruct (mode =? NEWMV) eqn:En; [|eexists; reflexivity]. apply (mv_cost_some s r); [exact H|]. apply Ov. lia. }
    destruct X as (extra & ->). cbn [obind]. set (c := rdcost _ _ _ _).
    destruct (c <? snd best) eqn:C; eexists; (split; [reflexivity|]); cbn [fst snd]; (split; [assumption|]); (split; [assumption|lia]). }
  assert (Fold : forall l best, incl l inter_modes -> good (fst (fst best)) (snd (fst best)) -> reach s (snd (fst best)) ->
    exists best', ofold (fun best mode => let? o := mode_vector s realtime census mode in
      match o with None => Some best | Some v => let? c := mode_cost s census mode v in Some (if c <? snd best then (mode, v, c) else best) end) l best = Some best' /\
      good (fst (fst best')) (snd (fst best')) /\ reach s (snd (fst best')) /\ snd best' <= snd best).
  { induction l as [|mode l IH]; intros best I G R.
    - exists best. split; [reflexivity|]. split; [exact G|]. split; [exact R|lia].
    - cbn [ofold]. destruct (Step mode best (I mode (or_introl eq_refl)) G R) as (b1 & -> & G1 & R1 & L1). cbn [obind].
      destruct (IH b1 (fun x h => I x (or_intror h)) G1 R1) as (b2 & E2 & G2 & R2 & L2). exists b2. split; [exact E2|]. split; [exact G2|]. split; [exact R2|lia]. }
  destruct (Fold inter_modes (intra, mv_zero, cost) (incl_refl _)) as (((mode & v) & c) & E & G & R & L); [left; reflexivity|exact R0|].
  cbn [fst snd] in *. exists mode, v, c. split; [exact E|]. split; [exact L|]. split; [exact G|]. apply predict_some; assumption.
Qed.

(** ** Wider frames *)

Definition wide_raster : raster := mkRaster 3984 16 (blank_plane 3984 16) (blank_plane 1992 8) (blank_plane 1992 8).
Definition wide_search (safe : plane) : mb_search :=
  mkSearch 248 0 249 1 safe (blank_plane 3984 16) (fun _ => 0) (fun _ => 0) (repeat 0 256) (repeat 0 10)
    (repeat (repeat (repeat 0 1024) 2) 2) 1 1 1.

Lemma blank_ok w h : 0 < w -> 0 < h -> plane_ok (blank_plane w h).
Proof.
  intros Hw Hh. split; [apply shaped_blank; assumption|]. apply Forall_forall. intros x I. apply repeat_spec in I. subst x. unfold byte_ok. lia.
Qed.

(** With 249 macroblocks the sum of a reference vector and an offset within the
    bounds may wrap, and its prediction then leaves the margins. *)
Theorem C63_every_width_refuted :
  ~ (forall s r best off, mb_ok s r -> offset_ok off -> exists p, predict_in s (mv_add off (clamp_in s best)) = Some p).
Proof.
  intros H. assert (D : raster_dims wide_raster).
  { unfold raster_dims, wide_raster. cbn [ra_y ra_dw ra_dh blank_plane pl_w pl_h]. split; [apply shaped_blank; lia|lia]. }
  destruct (C62_load wide_raster (repeat 0 (Z.to_nat (4496 * 528))) D eq_refl) as (safe & _ & Sh & W1 & W2 & W3).
  { unfold zlen. rewrite repeat_length. cbn [wide_raster ra_dw ra_dh]. lia. }
  assert (M : mb_ok (wide_search safe) wide_raster).
  { unfold mb_ok. cbn [wide_search wide_raster ms_col ms_row ms_w ms_h ms_safe ms_temp ms_sads ms_mode_costs ms_mv_costs ra_y ra_dw ra_dh].
    split; [|split; [lia|split; [|split; [|split; [|split; [|split]]]]]].
    - split; [exact D|]. split; [apply blank_ok; lia|]. cbn [blank_plane pl_w pl_h]. lia.
    - split; [exact W1|]. split; [exact W2|exact W3].
    - split; [apply blank_ok; lia|split; reflexivity].
    - apply repeat_length.
    - apply repeat_length.
    - apply repeat_length.
    - apply Forall_forall. intros t I. apply repeat_spec in I. subst t. split; [apply repeat_length|].
      apply Forall_forall. intros t I. apply repeat_spec in I. subst t. apply repeat_length. }
  destruct (H (wide_search safe) wide_raster (-31872, 0) (-1022, 0) M) as (p & E); [unfold offset_ok; cbn; lia|].
  replace (mv_add (-1022, 0) (clamp_in (wide_search safe) (-31872, 0))) with (32642, 0) in E by reflexivity.
  unfold predict_in, safe_predict, safe_at, pget, inside in E. cbn [wide_search ms_col ms_row ms_safe fst snd] in E.
  rewrite W1, W2 in E. cbn [wide_raster ra_dw ra_dh] in E. change (MARGIN_WIDTH + (248 * 16 + Z.shiftr 32642 3)) with 8304 in E.
  change ((8304 <? 0)) with false in E. change (MARGIN_WIDTH + (0 * 16 + Z.shiftr 0 3)) with 256 in E. discriminate E.
Qed.

(** ** Examples *)

(** A cost with one minimum is followed to it; a cost that falls to the right
    leads to the last offset within the bounds. *)
Example C63_search_example :
  new_offset (fun v => Some (Z.abs (fst v - 14) + Z.abs (snd v + 6))) = Some (14, -6) /\
  new_offset (fun v => Some (2000 - fst v + Z.abs (snd v))) = Some (1022, 0) /\ offset_ok (1022, 0) /\ offset_ok (14, -6).
Proof. unfold offset_ok. cbn [fst snd]. split; [vm_compute; reflexivity|]. split; [vm_compute; reflexivity|]. lia. Qed.

(** A macroblock that meets the hypotheses. *)
Example C63_macroblock_example : exists s r, mb_ok s r /\ ms_w s = 2 /\ ms_h s = 1.
Proof.
  set (r := mkRaster 32 16 (blank_plane 32 16) (blank_plane 16 8) (blank_plane 16 8)).
  assert (D : raster_dims r).
  { unfold raster_dims, r. cbn [ra_y ra_dw ra_dh blank_plane pl_w pl_h]. split; [apply shaped_blank; lia|lia]. }
  destruct (C62_load r (repeat 0 (Z.to_nat (544 * 528))) D eq_refl) as (safe & _ & _ & W1 & W2 & Shows).
  { unfold zlen. rewrite repeat_length. cbn [r ra_dw ra_dh]. lia. }
  exists (mkSearch 1 0 2 1 safe (blank_plane 32 16) (fun _ => 0) (fun _ => 0) (repeat 0 256) (repeat 0 10)
    (repeat (repeat (repeat 0 1024) 2) 2) 1 1 1), r. split; [|split; reflexivity].
  unfold mb_ok. cbn [ms_col ms_row ms_w ms_h ms_safe ms_temp ms_sads ms_mode_costs ms_mv_costs r ra_y ra_dw ra_dh pl_w pl_h].
  split; [|split; [lia|split; [|split; [|split; [|split; [|split]]]]]].
  - split; [exact D|]. split; [apply blank_ok; lia|]. cbn [blank_plane pl_w pl_h]. lia.
  - split; [exact W1|]. split; [exact W2|exact Shows].
  - split; [apply blank_ok; lia|split; reflexivity].
  - apply repeat_length.
  - apply repeat_length.
  - apply repeat_length.
  - apply Forall_forall. intros t I. apply repeat_spec in I. subst t. split; [apply repeat_length|].
    apply Forall_forall. intros t I. apply repeat_spec in I. subst t. apply repeat_length.
Qed.

Print Assumptions C63_search.
Print Assumptions C63_never_worse.
Print Assumptions C63_round.
Print Assumptions C63_search_reads.
Print Assumptions C63_new_vector.
Print Assumptions C63_choice.
Print Assumptions C63_every_width_refuted.
