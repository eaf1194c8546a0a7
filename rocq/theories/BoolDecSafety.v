(** Totality and memory safety of the boolean decoder on arbitrary input. *)
From Verif Require Import Base BoolCoderModel BoolEncProofs BoolCoderProofs.

Record dsafe (d : bdec) : Prop := {
  ds_range : 128 <= bd_range d <= 255;
  ds_value : 0 <= bd_value d < 2 ^ 32;
  ds_bc : 0 <= bd_bc d <= 7;
  ds_chunk : bytes_ok (bd_chunk d)
}.

(** Same, but before renormalisation. *)
Record dpre (d : bdec) : Prop := {
  dp_range : 1 <= bd_range d <= 255;
  dp_value : 0 <= bd_value d < 2 ^ 32;
  dp_bc : 0 <= bd_bc d <= 7;
  dp_chunk : bytes_ok (bd_chunk d)
}.

Lemma lor_bound32 a b : 0 <= a < 2 ^ 32 -> byte_ok b -> 0 <= Z.lor a b < 2 ^ 32.
Proof.
  intros Ha Hb. unfold byte_ok in Hb. split; [apply Z.lor_nonneg; lia|].
  destruct (Z.eq_dec (Z.lor a b) 0) as [->|N]; [lia|].
  apply Z.log2_lt_pow2; [assert (0 <= Z.lor a b) by (apply Z.lor_nonneg; lia); lia|].
  rewrite Z.log2_lor by lia. apply Z.max_lub_lt.
  - destruct (Z.eq_dec a 0) as [->|]; [cbn; lia|apply Z.log2_lt_pow2; lia].
  - destruct (Z.eq_dec b 0) as [->|]; [cbn; lia|apply Z.log2_lt_pow2; lia].
Qed.

Lemma load_octet_safe d : 0 <= bd_value d < 2 ^ 32 -> bytes_ok (bd_chunk d) ->
  0 <= bd_value (load_octet d) < 2 ^ 32 /\ bytes_ok (bd_chunk (load_octet d)) /\
  (exists pre, bd_chunk d = pre ++ bd_chunk (load_octet d) /\ (length pre <= 1)%nat).
Proof.
  intros Hv Hc. unfold load_octet. destruct (bd_chunk d) as [|b r] eqn:E.
  - destruct (bd_complete d); cbd; repeat split; try lia; rewrite ?E; try assumption; try (exists []; split; [reflexivity|cbn; lia]).
  - cbd. inversion_clear Hc. split; [apply lor_bound32; assumption|]. split; [assumption|].
    exists [b]. split; [reflexivity|cbn; lia].
Qed.

Lemma dshift_safe d : dpre d -> bd_range d < 128 ->
  dpre (dshift d) /\ bd_range (dshift d) = 2 * bd_range d /\
  exists pre, bd_chunk d = pre ++ bd_chunk (dshift d).
Proof.
  intros [Hr Hv Hb Hc] H. unfold dshift.
  assert (ER : wrap 32 (Z.shiftl (bd_range d) 1) = 2 * bd_range d).
  { rewrite shl_mul by lia. rewrite wrap_small; pows; lia. }
  assert (HV : 0 <= wrap 32 (Z.shiftl (bd_value d) 1) < 2 ^ 32) by (apply Z.mod_pos_bound; lia).
  rewrite ER. destruct (bd_bc d + 1 =? 8) eqn:E8.
  - set (d1 := mkBdec _ _ _ _ _ _).
    destruct (load_octet_safe d1 HV Hc) as (A & B & (pre & C & _)).
    destruct (load_octet_fields d1) as [F1 F2].
    split; [|split; [exact F1|exists pre; exact C]].
    constructor; try assumption; rewrite ?F1, ?F2; subst d1; cbd; lia.
  - cbd. split; [|split; [reflexivity|exists []; reflexivity]].
    constructor; cbd; try assumption; lia.
Qed.

Lemma bnorm_safe f : forall d, dpre d -> vp8_norm (bd_range d) < Z.of_nat f ->
  dsafe (bnorm f d) /\ exists pre, bd_chunk d = pre ++ bd_chunk (bnorm f d).
Proof.
  induction f as [|f IH]; intros d Hd Hf.
  - destruct (norm_bounds _ (dp_range _ Hd)). lia.
  - rewrite bnorm_unfold. destruct (bd_range d <? 128) eqn:E.
    + destruct (dshift_safe d Hd ltac:(lia)) as (A & B & (pre & C)).
      pose proof (dp_range _ Hd).
      pose proof (norm_double (bd_range d) ltac:(lia)) as ND.
      destruct (IH (dshift d) A) as (S1 & (pre2 & S2)); [rewrite B; lia|].
      split; [exact S1|]. exists (pre ++ pre2). rewrite C, S2 at 1. rewrite <- app_assoc. reflexivity.
    + destruct Hd. split; [constructor; try assumption; lia|]. exists []. reflexivity.
Qed.

Lemma bget_safe p d : dsafe d -> prob_ok p ->
  dsafe (snd (bget p d)) /\ exists pre, bd_chunk d = pre ++ bd_chunk (snd (bget p d)).
Proof.
  intros [Hr Hv Hb Hc] Hp. unfold bget. rewrite (split_model _ _ Hr Hp).
  pose proof (split_bounds _ _ Hr Hp) as Hs. set (sp := split_of (bd_range d) p) in *. clearbody sp.
  destruct (wrap 32 (Z.shiftl sp 8) <=? bd_value d) eqn:E; cbn [snd].
  - set (d1 := mkBdec _ _ _ _ _ _).
    assert (R1 : bd_range d1 = bd_range d - sp).
    { subst d1. cbd. apply wrap_small. pows. lia. }
    destruct (norm_bounds (bd_range d - sp) ltac:(lia)) as [N _].
    apply (bnorm_safe 8 d1).
    + constructor; rewrite ?R1; subst d1; cbd; try assumption; try lia. apply Z.mod_pos_bound. lia.
    + rewrite R1. lia.
  - set (d1 := mkBdec _ _ _ _ _ _).
    destruct (norm_bounds sp ltac:(lia)) as [N _].
    apply (bnorm_safe 8 d1).
    + constructor; subst d1; cbd; try assumption; lia.
    + subst d1. cbd. lia.
Qed.

Lemma bdec_init_safe complete bs : bytes_ok bs ->
  dsafe (bdec_init complete bs) /\ exists pre, bs = pre ++ bd_chunk (bdec_init complete bs).
Proof.
  intros Hb. unfold bdec_init.
  set (d0 := mkBdec bs 255 0 0 true complete).
  destruct (load_octet_safe d0 ltac:(subst d0; cbd; lia) Hb) as (A & B & (pre & C & _)).
  destruct (load_octet_fields d0) as [F1 F2].
  set (d1 := load_octet d0) in *.
  set (d2 := mkBdec _ _ _ _ _ _).
  assert (HV : 0 <= bd_value d2 < 2 ^ 32) by (apply Z.mod_pos_bound; lia).
  destruct (load_octet_safe d2 HV B) as (A2 & B2 & (pre2 & C2 & _)).
  destruct (load_octet_fields d2) as [F3 F4].
  split.
  - constructor; try assumption; rewrite ?F3, ?F4; subst d2; cbd; rewrite ?F1, ?F2; subst d0; cbd; lia.
  - exists (pre ++ pre2). rewrite <- app_assoc, <- C2. exact C.
Qed.

(** ** Running off the end is the same as reading zero bytes *)

Definition padded (k : nat) (d d' : bdec) : Prop :=
  bd_range d = bd_range d' /\ bd_value d = bd_value d' /\ bd_bc d = bd_bc d' /\
  bd_complete d = bd_complete d' /\
  exists j, (j <= k)%nat /\ bd_chunk d' = bd_chunk d ++ repeat 0 j.

Lemma load_octet_padded k d d' : padded k d d' -> padded k (load_octet d) (load_octet d').
Proof.
  intros (R & V & B & C & (j & Hj & E)). unfold load_octet. rewrite E. destruct (bd_chunk d) as [|b r] eqn:EC.
  - cbn [app]. destruct j as [|j]; cbn [repeat].
    + rewrite <- C. destruct (bd_complete d) eqn:EB;
      repeat split; cbd; try assumption; try congruence; try (exists 0%nat; split; [lia|]); rewrite ?E, ?EC; reflexivity.
    + destruct (bd_complete d) eqn:EB;
      (repeat split; cbd; rewrite ?Z.lor_0_r; try assumption; try congruence; exists j; split; [lia|]; rewrite ?EC; reflexivity).
  - cbn [app]. repeat split; cbd; try assumption; try congruence. exists j. split; [exact Hj|reflexivity].
Qed.

Lemma dshift_padded k d d' : padded k d d' -> padded k (dshift d) (dshift d').
Proof.
  intros (R & V & B & C & (j & Hj & E)). unfold dshift. rewrite R, V, B.
  destruct (bd_bc d' + 1 =? 8).
  - apply load_octet_padded. repeat split; cbd; try assumption. exists j. auto.
  - repeat split; cbd; try assumption. exists j. auto.
Qed.

Lemma bnorm_padded k f : forall d d', padded k d d' -> padded k (bnorm f d) (bnorm f d').
Proof.
  induction f as [|f IH]; intros d d' H; [exact H|].
  rewrite !bnorm_unfold. destruct H as (R & H). rewrite R.
  destruct (bd_range d' <? 128).
  - apply IH. apply dshift_padded. split; assumption.
  - split; assumption.
Qed.

Lemma bget_padded k p d d' : padded k d d' ->
  fst (bget p d) = fst (bget p d') /\ padded k (snd (bget p d)) (snd (bget p d')).
Proof.
  intros (R & V & B & C & (j & Hj & E)). unfold bget. rewrite R, V, B.
  match goal with |- context [?x <=? bd_value d'] => destruct (x <=? bd_value d') end; cbn [fst snd];
  (split; [reflexivity|]; apply bnorm_padded; repeat split; cbd; try assumption; exists j; auto).
Qed.

Lemma bgets_padded k ps : forall d d', padded k d d' -> fst (bgets ps d) = fst (bgets ps d').
Proof.
  induction ps as [|p ps IH]; intros d d' H; cbn [bgets]; [reflexivity|].
  destruct (bget_padded k p d d' H) as [A B].
  destruct (bget p d) as [b1 d1], (bget p d') as [b2 d2]. cbn [fst snd] in *. subst b2.
  specialize (IH d1 d2 B). destruct (bgets ps d1), (bgets ps d2). cbn [fst] in *. congruence.
Qed.

Lemma bdec_init_padded k complete bs : padded k (bdec_init complete bs) (bdec_init complete (bs ++ repeat 0 k)).
Proof.
  unfold bdec_init. apply load_octet_padded.
  destruct (load_octet_padded k (mkBdec bs 255 0 0 true complete) (mkBdec (bs ++ repeat 0 k) 255 0 0 true complete))
    as (R & V & B & C & (j & Hj & E)).
  { repeat split; cbd. exists k. split; [lia|reflexivity]. }
  repeat split; cbd; try assumption; try congruence. exists j. auto.
Qed.

Lemma bgets_safe ps : forall d, dsafe d -> Forall prob_ok ps ->
  dsafe (snd (bgets ps d)) /\ length (fst (bgets ps d)) = length ps /\
  exists pre, bd_chunk d = pre ++ bd_chunk (snd (bgets ps d)).
Proof.
  induction ps as [|p ps IH]; intros d Hd Hp; cbn [bgets].
  - split; [exact Hd|]. split; [reflexivity|]. exists []. reflexivity.
  - inversion_clear Hp as [|? ? H1 H2]. destruct (bget_safe p d Hd H1) as (A & (pre & B)).
    destruct (bget p d) as [b1 d1]. cbn [snd] in *.
    destruct (IH d1 A H2) as (C & D & (pre2 & E)). destruct (bgets ps d1) as [bs d2]. cbn [fst snd length] in *.
    split; [exact C|]. split; [lia|]. exists (pre ++ pre2). rewrite <- app_assoc, <- E. exact B.
Qed.
