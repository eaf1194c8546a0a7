(** Proofs about the boolean entropy coder model: flushing, decoder, round trip. *)
From Verif Require Import Base BoolCoderModel BoolEncProofs.

(** ** Flushing *)

Ltac cbd := cbn [bd_chunk bd_range bd_value bd_bc bd_valid bd_complete].

Lemma pair3_inj {A B C} (a a' : A) (b b' : B) (c c' : C) :
  (a, b, c) = (a', b', c') -> a = a' /\ b = b' /\ c = c'.
Proof. intros H. inversion H. auto. Qed.

Definition settled (e : benc) : Prop := be_bottom e < 2 ^ (32 + be_bc e).

Lemma bput_false_settled e p e' : binv e -> prob_ok p -> bput e (false, p) = Some e' ->
  (settled e' \/ be_out e' = be_out e) /\ (settled e -> settled e').
Proof.
  intros [Hout Hr Hc Hb0 Ht Ha] Hp E. unfold bput in E. rewrite (split_model _ _ Hr Hp) in E.
  pose proof (split_bounds _ _ Hr Hp) as Hs.
  destruct (norm_bounds (split_of (be_range e) p) ltac:(lia)) as [Hsh _].
  set (sp := split_of (be_range e) p) in *. set (sh := vp8_norm sp) in *.
  clearbody sp. clearbody sh. unfold settled.
  destruct (0 <=? be_bc e + sh) eqn:EC.
  - match type of E with match ?x with _ => _ end = _ => destruct x; [|discriminate] end.
    injection E as <-. cbn [be_bottom be_bc be_out].
    assert (H : wrap 32 (Z.shiftl (Z.land (wrap 32 (Z.shiftl (be_bottom e) (sh - (be_bc e + sh)))) 16777215)
                 (be_bc e + sh)) < 2 ^ (32 + (be_bc e + sh - 8))).
    { rewrite land_mask24 by (unfold wrap; apply Z.mod_pos_bound; lia).
      set (y := wrap 32 (Z.shiftl (be_bottom e) (sh - (be_bc e + sh)))).
      pose proof (Z.mod_pos_bound y 16777216 ltac:(lia)) as Hy. clearbody y.
      rewrite shl_mul by lia.
      replace (32 + (be_bc e + sh - 8)) with (24 + (be_bc e + sh)) by lia.
      rewrite (Z.pow_add_r 2 24) by lia. change (2^24) with 16777216.
      assert (0 < 2 ^ (be_bc e + sh)) by (apply Z.pow_pos_nonneg; lia).
      unfold wrap. eapply Z.le_lt_trans; [apply Z.mod_le; [apply Z.mul_nonneg_nonneg; lia|lia]|].
      apply Z.mul_lt_mono_pos_r; lia. }
    split; [left; exact H|intros _; exact H].
  - injection E as <-. cbn [be_bottom be_bc be_out]. split; [right; reflexivity|].
    intros HS. rewrite shl_mul by lia. unfold wrap.
    assert (0 < 2 ^ sh) by (apply Z.pow_pos_nonneg; lia).
    eapply Z.le_lt_trans; [apply Z.mod_le; [apply Z.mul_nonneg_nonneg; lia|lia]|].
    replace (32 + (be_bc e + sh)) with (32 + be_bc e + sh) by lia.
    rewrite (Z.pow_add_r 2 (32 + be_bc e)) by lia. apply Z.mul_lt_mono_pos_r; lia.
Qed.

Definition is_false_ev (ev : event) : Prop := fst ev = false.

Lemma bputs_false_settled evs : forall e e', binv e -> Forall event_ok evs -> Forall is_false_ev evs ->
  bputs e evs = Some e' -> (settled e' \/ be_out e' = be_out e) /\ (settled e -> settled e').
Proof.
  induction evs as [|[b p] evs IH]; intros e e' Hi Hok Hf E; cbn [bputs] in E.
  - injection E as <-. split; [right; reflexivity|auto].
  - inversion_clear Hok as [|? ? H1 H2]. inversion_clear Hf as [|? ? F1 F2].
    unfold is_false_ev in F1; cbn [fst] in F1. subst b.
    destruct (bput_ok e (false,p) Hi H1) as (e1 & E1 & I1 & _). rewrite E1 in E.
    destruct (bput_false_settled e p e1 Hi H1 E1) as [A B].
    destruct (IH e1 e' I1 H2 F2 E) as [C D].
    split; [|auto].
    destruct C as [C|C]; [left; exact C|]. rewrite C.
    destruct A as [A|A]; [left; auto|right; congruence].
Qed.

(** Range and total shift of a run, independent of the interval's low end. *)
Lemma istep_shape V r T ev : exists V',
  istep (V, r, T) ev = (V', snd (fst (istep (0, r, 0) ev)), T + snd (istep (0, r, 0) ev)) .
Proof. destruct ev as [b p]. cbn. eexists. f_equal. Qed.

Lemma irun_shape evs : forall V r T, exists V',
  irun (V, r, T) evs = (V', snd (fst (irun (0, r, 0) evs)), T + snd (irun (0, r, 0) evs)).
Proof.
  induction evs as [|ev evs IH]; intros V r T.
  - exists V. cbn. f_equal. lia.
  - cbn [irun fold_left]. 
    destruct (istep_shape V r T ev) as (V1 & E1). destruct (istep_shape 0 r 0 ev) as (V2 & E2).
    fold (irun (istep (V,r,T) ev) evs). fold (irun (istep (0,r,0) ev) evs).
    rewrite E1.
    set (r1 := snd (fst (istep (0, r, 0) ev))) in *.
    set (t1 := snd (istep (0, r, 0) ev)) in *.
    assert (E3 : istep (0, r, 0) ev = (V2, r1, t1)) by (rewrite E2; f_equal).
    rewrite E3.
    destruct (IH V1 r1 (T + t1)) as (V3 & E4). destruct (IH V2 r1 t1) as (V4 & E5).
    rewrite E4, E5. exists V3. cbn [fst snd]. f_equal. lia.
Qed.

Lemma irun_false evs : forall V r T, Forall is_false_ev evs ->
  128 <= r <= 255 -> Forall event_ok evs ->
  fst (fst (irun (V, r, T) evs)) = V * 2 ^ (snd (irun (V, r, T) evs) - T) /\ T <= snd (irun (V, r, T) evs).
Proof.
  induction evs as [|[b p] evs IH]; intros V r T Hf Hr Hok.
  - cbn. rewrite Z.sub_diag. cbn. lia.
  - inversion_clear Hok as [|? ? H1 H2]. inversion_clear Hf as [|? ? F1 F2]. unfold is_false_ev in F1; cbn [fst] in F1. subst b.
    cbn [irun fold_left istep].
    pose proof (split_bounds r p Hr H1) as Hs.
    destruct (norm_bounds (split_of r p) ltac:(lia)) as [Hsh Hn].
    set (sp := split_of r p) in *. set (sh := vp8_norm sp) in *. clearbody sp sh.
    fold (irun (V * 2 ^ sh, sp * 2 ^ sh, T + sh) evs).
    destruct (IH (V * 2 ^ sh) (sp * 2 ^ sh) (T + sh) F2 Hn H2) as [A B].
    rewrite A. split; [|lia].
    rewrite <- Z.mul_assoc, <- Z.pow_add_r by lia. do 2 f_equal. lia.
Qed.

Lemma flush_shift r : 128 <= r <= 255 -> 31 <= snd (irun (0, r, 0) flush_events).
Proof.
  intros H.
  assert (A : forallb (fun n => 31 <=? snd (irun (0, Z.of_nat n, 0) flush_events)) (seq 128 128) = true)
    by (vm_compute; reflexivity).
  rewrite forallb_forall in A. specialize (A (Z.to_nat r)).
  rewrite Z2Nat.id in A by lia. apply Z.leb_le. apply A. apply in_seq. lia.
Qed.

Lemma flush_events_ok : Forall event_ok flush_events.
Proof. apply Forall_forall. intros x Hx. apply repeat_spec in Hx. subst x. unfold event_ok, prob_ok. cbn. lia. Qed.
Lemma flush_events_false : Forall is_false_ev flush_events.
Proof. apply Forall_forall. intros x Hx. apply repeat_spec in Hx. subst x. reflexivity. Qed.

Lemma bputs_app evs1 : forall evs2 e, bputs e (evs1 ++ evs2) =
  match bputs e evs1 with Some e1 => bputs e1 evs2 | None => None end.
Proof.
  induction evs1 as [|ev evs1 IH]; intros; cbn; [reflexivity|]. destruct (bput e ev); [apply IH|reflexivity].
Qed.

Lemma irun_app s evs1 evs2 : irun s (evs1 ++ evs2) = irun (irun s evs1) evs2.
Proof. apply fold_left_app. Qed.

(** What the emitted bytes mean: exactly the low end of the final interval.
    Stated for any flush sequence [fl] of zero bits that shifts by at least 31. *)
Lemma encode_value_gen fl evs :
  Forall event_ok fl -> Forall is_false_ev fl ->
  (forall r, 128 <= r <= 255 -> 31 <= snd (irun (0, r, 0) fl)) ->
  Forall event_ok evs ->
  exists e2 V r T, bputs benc_init (evs ++ fl) = Some e2 /\ bytes_ok (be_out e2) /\
    irun (0, 255, 0) evs = (V, r, T) /\ 128 <= r <= 255 /\ 0 <= T /\
    forall K, 8 * zlen (be_out e2) <= K ->
    numr (be_out e2) * 2 ^ (K + 16 - 8 * zlen (be_out e2)) * 2 ^ T = V * 2 ^ (K + 8).
Proof.
  intros Hfok Hff Hfs Hok. rewrite bputs_app.
  destruct (bputs_ok evs benc_init binv_init Hok) as (e1 & E1 & I1 & S1). rewrite E1.
  destruct (bputs_ok fl e1 I1 Hfok) as (e2 & E2 & I2 & S2).
  change (istate_of benc_init) with (0, 255, 0) in S1.
  exists e2, (ival e1), (be_range e1), (8 * zlen (be_out e1) + 24 + be_bc e1).
  split; [exact E2|]. split; [apply I2|].
  split; [rewrite <- S1; reflexivity|]. split; [apply I1|].
  assert (T0 : 0 <= 8 * zlen (be_out e1) + 24 + be_bc e1).
  { destruct I1. unfold zlen. lia. }
  split; [exact T0|].
  intros K HK.
  unfold istate_of in S2 at 2.
  remember (8 * zlen (be_out e1) + 24 + be_bc e1) as T eqn:ET.
  destruct (irun_false fl (ival e1) (be_range e1) T Hff (bi_range _ I1) Hfok) as [FV FT].
  destruct (irun_shape fl (ival e1) (be_range e1) T) as (V' & ES).
  pose proof (Hfs _ (bi_range _ I1)) as HS.
  rewrite ES in FV, FT, S2. cbn [fst snd] in FV, FT.
  remember (snd (irun (0, be_range e1, 0) fl)) as s eqn:Es. clear Es.
  unfold istate_of in S2. destruct (pair3_inj _ _ _ _ _ _ S2) as (SV & SR & ST). clear S2.
  replace (T + s - T) with s in FV by lia.
  destruct (bputs_false_settled _ e1 e2 I1 Hfok Hff E2) as [[HSt|HSt] _].
  2:{ exfalso. rewrite HSt in ST. destruct I1, I2. lia. }
  unfold settled in HSt. destruct I2 as [Hout2 Hr2 Hc2 Hb2 Ht2 Ha2].
  assert (HB : be_bottom e2 = 0).
  { assert (DV : ival e2 mod 2 ^ (32 + be_bc e2) = 0).
    { rewrite SV, FV. replace s with ((s - (32 + be_bc e2)) + (32 + be_bc e2)) by lia.
      rewrite Z.pow_add_r by lia. rewrite Z.mul_assoc. apply Z.mod_mul.
      apply Z.pow_nonzero; lia. }
    unfold ival in DV. rewrite Z.add_comm, Z.mod_add in DV by (apply Z.pow_nonzero; lia).
    rewrite Z.mod_small in DV by lia. exact DV. }
  unfold ival in SV at 1. rewrite HB, Z.add_0_r in SV. rewrite FV in SV.
  apply (Z.mul_cancel_r _ _ (2 ^ s)); [apply Z.pow_nonzero; lia|].
  assert (HN : 0 <= zlen (be_out e2)) by (unfold zlen; lia).
  transitivity (numr (be_out e2) * 2 ^ (32 + be_bc e2) * 2 ^ (K + 8)).
  - rewrite <- !Z.mul_assoc. rewrite <- !Z.pow_add_r by lia. do 2 f_equal. lia.
  - rewrite SV. ring.
Qed.

Lemma bool_encode_value evs : Forall event_ok evs ->
  exists bs V r T, bool_encode evs = Some bs /\ bytes_ok bs /\
    irun (0, 255, 0) evs = (V, r, T) /\ 128 <= r <= 255 /\ 0 <= T /\
    forall K, 8 * zlen bs <= K ->
    numr (rev bs) * 2 ^ (K + 16 - 8 * zlen bs) * 2 ^ T = V * 2 ^ (K + 8).
Proof.
  intros Hok.
  destruct (encode_value_gen _ evs flush_events_ok flush_events_false flush_shift Hok)
    as (e2 & V & r & T & E & Hb & R & Hr & HT & HX).
  exists (rev (be_out e2)), V, r, T. unfold bool_encode. rewrite E.
  assert (HL : zlen (rev (be_out e2)) = zlen (be_out e2)) by (unfold zlen; rewrite rev_length; reflexivity).
  split; [reflexivity|]. split; [apply Forall_rev; exact Hb|]. split; [exact R|]. split; [exact Hr|].
  split; [exact HT|]. intros K HK. rewrite rev_involutive, HL in *. apply HX. exact HK.
Qed.

(** ** Decoder *)

Fixpoint numf (l : list Z) : Z :=
  match l with
  | [] => 0
  | b :: r => b * 256 ^ zlen r + numf r
  end.

Lemma numr_app l b : numr (l ++ [b]) = numr l + b * 256 ^ zlen l.
Proof.
  induction l as [|c l IH]; cbn [app numr].
  - cbn. lia.
  - rewrite IH. unfold zlen. cbn [length]. rewrite Nat2Z.inj_succ, Z.pow_succ_r by lia. ring.
Qed.

Lemma numf_numr l : numf l = numr (rev l).
Proof.
  induction l as [|b l IH]; cbn [numf rev]; [reflexivity|].
  rewrite numr_app, IH. unfold zlen. rewrite rev_length. lia.
Qed.

Lemma numf_bounds l : bytes_ok l -> 0 <= numf l < 256 ^ zlen l.
Proof.
  intros H. rewrite numf_numr. replace (zlen l) with (zlen (rev l)) by (unfold zlen; rewrite rev_length; reflexivity).
  apply numr_bounds. apply Forall_rev. exact H.
Qed.

Definition W (K : Z) (d : bdec) : Z :=
  bd_value d * 2 ^ K + numf (bd_chunk d) * 2 ^ (bd_bc d + K - 8 * zlen (bd_chunk d)).

Record dinv (K : Z) (d : bdec) : Prop := {
  di_chunk : bytes_ok (bd_chunk d);
  di_K : 8 * zlen (bd_chunk d) <= K;
  di_bc : 0 <= bd_bc d <= 7;
  di_val : 0 <= bd_value d;
  di_low : bd_value d mod 2 ^ bd_bc d = 0
}.

Lemma lor_add x b : 0 <= x -> x mod 256 = 0 -> byte_ok b -> Z.lor x b = x + b.
Proof.
  intros Hx Hm Hb.
  assert (HL : Z.land x b = 0); [|rewrite Z.add_nocarry_lxor, Z.lxor_lor by exact HL; reflexivity].
  apply Z.bits_inj'. intros n Hn. rewrite Z.land_spec, Z.testbit_0_l.
  unfold byte_ok in Hb.
  destruct (Z_lt_le_dec n 8).
  - assert (Z.testbit x n = false) as ->; [|reflexivity].
    rewrite <- (Z.mod_pow2_bits_low x 8 n) by lia. change (2^8) with 256. rewrite Hm. apply Z.testbit_0_l.
  - assert (Z.testbit b n = false) as ->; [|apply andb_false_r].
    destruct (Z.eq_dec b 0) as [->|]; [apply Z.testbit_0_l|].
    apply Z.bits_above_log2; [lia|]. apply Z.lt_le_trans with 8; [|lia].
    apply Z.log2_lt_pow2; lia.
Qed.

(** One doubling step of the decoder. *)
Definition dshift (d : bdec) : bdec :=
  let v := wrap 32 (Z.shiftl (bd_value d) 1) in
  let r := wrap 32 (Z.shiftl (bd_range d) 1) in
  let bc := bd_bc d + 1 in
  if bc =? 8 then
    load_octet (mkBdec (bd_chunk d) r v 0 (bd_valid d) (bd_complete d))
  else
    mkBdec (bd_chunk d) r v bc (bd_valid d) (bd_complete d).

Lemma bnorm_unfold f d : bnorm (S f) d = if bd_range d <? 128 then bnorm f (dshift d) else d.
Proof. cbn [bnorm]. unfold dshift. destruct (bd_range d <? 128); [|reflexivity]. destruct (bd_bc d + 1 =? 8); reflexivity. Qed.

Lemma load_octet_fields d : bd_range (load_octet d) = bd_range d /\ bd_bc (load_octet d) = bd_bc d.
Proof. unfold load_octet. destruct (bd_chunk d); [destruct (bd_complete d)|]; cbn; auto. Qed.

Lemma dshift_ok K d : dinv K d -> 0 <= bd_range d < 128 -> bd_value d < 65536 ->
  dinv K (dshift d) /\ W K (dshift d) = 2 * W K d /\ bd_range (dshift d) = 2 * bd_range d.
Proof.
  intros [Hch HK Hbc Hv Hlow] Hr Hv2.
  assert (EV : wrap 32 (Z.shiftl (bd_value d) 1) = 2 * bd_value d).
  { rewrite shl_mul by lia. rewrite wrap_small; pows; lia. }
  assert (ER : wrap 32 (Z.shiftl (bd_range d) 1) = 2 * bd_range d).
  { rewrite shl_mul by lia. rewrite wrap_small; pows; lia. }
  assert (HL2 : (2 * bd_value d) mod 2 ^ (bd_bc d + 1) = 0).
  { rewrite Z.pow_add_r by lia. change (2^1) with 2. rewrite (Z.mul_comm (2 ^ bd_bc d) 2).
    rewrite Z.mul_mod_distr_l; [rewrite Hlow; reflexivity| |lia]. apply Z.pow_nonzero; lia. }
  unfold dshift. rewrite EV, ER.
  destruct (bd_bc d + 1 =? 8) eqn:E8.
  - assert (Ebc : bd_bc d = 7) by lia. rewrite Ebc in *. change (2 ^ (7 + 1)) with 256 in HL2.
    unfold load_octet. cbn [bd_chunk]. destruct (bd_chunk d) as [|b r] eqn:EC.
    + assert (HW : 2 * bd_value d * 2 ^ K = 2 * W K d).
      { unfold W. rewrite EC. cbn [numf]. lia. }
      cbd; destruct (bd_complete d);
      (split; [constructor; cbd; try assumption; try lia|
               split; [unfold W at 1; cbn [bd_chunk bd_range bd_value bd_bc numf]; rewrite <- HW; rewrite Z.mul_0_l; lia | reflexivity]]).
    + inversion_clear Hch as [|? ? Hb Hr'].
      rewrite lor_add by (cbd; try assumption; lia). cbd.
      split; [constructor; cbd; try assumption; try lia|].
      * unfold zlen in *. cbn [length] in HK. lia.
      * unfold byte_ok in Hb. lia.
      * split; [|reflexivity]. unfold W. rewrite EC. cbn [bd_chunk bd_range bd_value bd_bc numf]. rewrite Ebc.
        unfold zlen in *. cbn [length] in *. rewrite Nat2Z.inj_succ in *.
        set (m := Z.of_nat (length r)) in *.
        replace (0 + K - 8 * m) with (7 + K - 8 * Z.succ m + 1) by lia.
        rewrite (Z.pow_add_r 2 _ 1) by lia. change (2^1) with 2.
        replace (2 ^ K) with (256 ^ m * (2 ^ (7 + K - 8 * Z.succ m) * 2)).
        2:{ change 256 with (2^8). rewrite <- Z.pow_mul_r by lia.
            rewrite <- (Z.pow_add_r 2 _ 1) by lia. rewrite <- Z.pow_add_r by lia. f_equal. lia. }
        ring.
  - split; [constructor; cbd; try assumption; try lia|].
    split; [|reflexivity].
    unfold W. cbd.
    replace (bd_bc d + 1 + K - 8 * zlen (bd_chunk d)) with (bd_bc d + K - 8 * zlen (bd_chunk d) + 1) by lia.
    rewrite Z.pow_add_r by lia. change (2^1) with 2. ring.
Qed.

Lemma W_value K d : dinv K d -> 0 <= K ->
  bd_value d * 2 ^ K <= W K d < (bd_value d + 2 ^ bd_bc d) * 2 ^ K.
Proof.
  intros [Hch HK Hbc Hv Hlow] HK0. unfold W.
  pose proof (numf_bounds _ Hch) as Hn.
  set (e := bd_bc d + K - 8 * zlen (bd_chunk d)).
  assert (0 <= zlen (bd_chunk d)) by (unfold zlen; lia).
  assert (He : 0 <= e) by lia.
  assert (0 < 2 ^ e) by (apply Z.pow_pos_nonneg; lia).
  split; [assert (0 <= numf (bd_chunk d) * 2 ^ e) by (apply Z.mul_nonneg_nonneg; lia); lia|].
  rewrite Z.mul_add_distr_r.
  assert (numf (bd_chunk d) * 2 ^ e < 2 ^ bd_bc d * 2 ^ K); [|lia].
  replace (2 ^ bd_bc d * 2 ^ K) with (256 ^ zlen (bd_chunk d) * 2 ^ e).
  - apply Z.mul_lt_mono_pos_r; lia.
  - change 256 with (2^8). rewrite <- Z.pow_mul_r by lia. rewrite <- !Z.pow_add_r by lia. f_equal. lia.
Qed.

Lemma norm_double r : 1 <= r < 128 -> vp8_norm (2 * r) = vp8_norm r - 1.
Proof.
  intros H. unfold vp8_norm.
  repeat match goal with |- context [if ?b then _ else _] => destruct b eqn:?; try lia end.
Qed.

Lemma norm_zero r : 128 <= r <= 255 -> vp8_norm r = 0.
Proof.
  intros H. unfold vp8_norm.
  repeat match goal with |- context [if ?b then _ else _] => destruct b eqn:?; try lia end.
Qed.

Lemma bnorm_ok K f : 0 <= K -> forall d, dinv K d -> 1 <= bd_range d <= 255 ->
  W K d < bd_range d * 256 * 2 ^ K -> vp8_norm (bd_range d) < Z.of_nat f ->
  dinv K (bnorm f d) /\ W K (bnorm f d) = W K d * 2 ^ vp8_norm (bd_range d) /\
  bd_range (bnorm f d) = bd_range d * 2 ^ vp8_norm (bd_range d).
Proof.
  intros HK. induction f as [|f IH]; intros d Hd Hr HW Hf.
  - destruct (norm_bounds _ Hr). lia.
  - rewrite bnorm_unfold. destruct (bd_range d <? 128) eqn:E.
    + assert (P : 0 < 2 ^ K) by (apply Z.pow_pos_nonneg; lia).
      pose proof (W_value K d Hd HK) as [HWv _].
      assert (Hv : bd_value d < 65536).
      { assert (bd_value d * 2 ^ K < bd_range d * 256 * 2 ^ K) as L by lia.
        apply Z.mul_lt_mono_pos_r in L; lia. }
      destruct (dshift_ok K d Hd ltac:(lia) Hv) as (D1 & D2 & D3).
      pose proof (norm_double (bd_range d) ltac:(lia)) as ND.
      destruct (norm_bounds _ Hr) as [NB _].
      destruct (norm_bounds (2 * bd_range d) ltac:(lia)) as [NB2 _].
      destruct (IH (dshift d) D1) as (A & B & C).
      * rewrite D3. lia.
      * rewrite D2, D3. lia.
      * rewrite D3. lia.
      * rewrite B, C, D2, D3, ND. split; [exact A|].
        replace (vp8_norm (bd_range d)) with (1 + (vp8_norm (bd_range d) - 1)) at 2 4 by lia.
        rewrite Z.pow_add_r by lia. change (2^1) with 2. split; ring.
    + rewrite (norm_zero (bd_range d)) by lia. rewrite Z.mul_1_r, Z.mul_1_r. auto.
Qed.

(** [ready d evs]: the decoder in state [d] answers the events [evs]. *)
Fixpoint ready (d : bdec) (evs : list event) : Prop :=
  match evs with
  | [] => True
  | (b, p) :: r => fst (bget p d) = b /\ ready (snd (bget p d)) r
  end.

(** The decoder in step with the ideal encoder. *)
Record sync (K X0 : Z) (d : bdec) (s : istate) : Prop := {
  sy_inv : dinv K d;
  sy_range : bd_range d = snd (fst s);
  sy_r : 128 <= snd (fst s) <= 255;
  sy_T : 0 <= snd s;
  sy_W : W K d + fst (fst s) * 2 ^ (K + 8) = X0 * 2 ^ snd s
}.

Lemma mod_low_shift v sp bc : 0 <= bc <= 7 -> v mod 2 ^ bc = 0 -> (v - sp * 256) mod 2 ^ bc = 0.
Proof.
  intros Hbc Hm. replace 256 with (2 ^ (8 - bc) * 2 ^ bc).
  - rewrite Z.mul_assoc. rewrite Zminus_mod, Z.mod_mul, Hm by (apply Z.pow_nonzero; lia).
    rewrite Z.sub_0_r. apply Z.mod_0_l. apply Z.pow_nonzero; lia.
  - rewrite <- Z.pow_add_r by lia. replace (8 - bc + bc) with 8 by lia. reflexivity.
Qed.

Lemma bget_sync K X0 d V r T b p : 0 <= K -> sync K X0 d (V, r, T) -> prob_ok p ->
  (let '(V1, r1, T1) := istep (V, r, T) (b, p) in
   V1 * 2 ^ (K + 8) <= X0 * 2 ^ T1 < (V1 + r1) * 2 ^ (K + 8)) ->
  fst (bget p d) = b /\ sync K X0 (snd (bget p d)) (istep (V, r, T) (b, p)).
Proof.
  intros HK [Hd Hdr Hr HT HW] Hp HI. cbn [fst snd] in *. cbn [istep] in *.
  unfold bget. rewrite Hdr. rewrite (split_model r p Hr Hp).
  pose proof (split_bounds r p Hr Hp) as Hs. set (sp := split_of r p) in *. clearbody sp.
  assert (ES : wrap 32 (Z.shiftl sp 8) = sp * 256).
  { rewrite shl_mul by lia. rewrite wrap_small; pows; lia. }
  rewrite ES.
  set (r2 := if b then r - sp else sp) in *.
  set (V2 := if b then V + sp else V) in *.
  assert (Hr2 : 1 <= r2 <= 255) by (subst r2; destruct b; lia).
  destruct (norm_bounds r2 Hr2) as [Hsh Hn].
  set (sh := vp8_norm r2) in *.
  assert (Psh : 0 < 2 ^ sh) by (apply Z.pow_pos_nonneg; lia).
  assert (PK : 0 < 2 ^ K) by (apply Z.pow_pos_nonneg; lia).
  assert (EK : 2 ^ (K + 8) = 256 * 2 ^ K) by (rewrite Z.pow_add_r by lia; pows; lia).
  assert (HI2 : V2 * 2 ^ (K + 8) <= X0 * 2 ^ T < (V2 + r2) * 2 ^ (K + 8)).
  { rewrite (Z.pow_add_r 2 T sh) in HI by lia.
    replace (V2 * 2 ^ sh * 2 ^ (K + 8)) with (V2 * 2 ^ (K + 8) * 2 ^ sh) in HI by ring.
    replace ((V2 * 2 ^ sh + r2 * 2 ^ sh) * 2 ^ (K + 8)) with ((V2 + r2) * 2 ^ (K + 8) * 2 ^ sh) in HI by ring.
    rewrite Z.mul_assoc in HI. destruct HI as [HI1 HI2].
    apply Z.mul_le_mono_pos_r in HI1; [|lia]. apply Z.mul_lt_mono_pos_r in HI2; lia. }
  clear HI.
  pose proof (W_value K d Hd HK) as [WL WU].
  destruct Hd as [Hch HK8 Hbc Hv Hlow].
  destruct b.
  - (* one *)
    assert (WS : sp * 256 * 2 ^ K <= W K d) by (subst V2; rewrite EK in *; lia).
    assert (VS : sp * 256 <= bd_value d).
    { assert (sp * 256 < bd_value d + 2 ^ bd_bc d) as L.
      { apply (Z.mul_lt_mono_pos_r (2 ^ K)); lia. }
      pose proof (mod_low_shift (bd_value d) sp (bd_bc d) Hbc Hlow) as M.
      assert (PB : 0 < 2 ^ bd_bc d) by (apply Z.pow_pos_nonneg; lia).
      apply Z.mod_divide in M; [|lia]. destruct M as [q Hq].
      set (B := 2 ^ bd_bc d) in *. clearbody B.
      destruct (Z_lt_le_dec q 0).
      - assert (q * B <= -1 * B) by (apply Z.mul_le_mono_nonneg_r; lia). lia.
      - assert (0 <= q * B) by (apply Z.mul_nonneg_nonneg; lia). lia. }
    destruct (sp * 256 <=? bd_value d) eqn:EB; [|lia]. cbn [fst snd]. split; [reflexivity|].
    assert (HV16 : bd_value d < 65536).
    { assert (W K d < r * 256 * 2 ^ K) by (subst V2 r2; rewrite EK in *; lia).
      assert (bd_value d * 2 ^ K < r * 256 * 2 ^ K) as L by lia. apply Z.mul_lt_mono_pos_r in L; lia. }
    assert (E1 : wrap 32 (r - sp) = r2) by (apply wrap_small; pows; lia).
    assert (E2 : wrap 32 (bd_value d - sp * 256) = bd_value d - sp * 256) by (apply wrap_small; pows; lia).
    rewrite E1, E2.
    set (d1 := mkBdec _ _ _ _ _ _).
    assert (D1 : dinv K d1).
    { constructor; subst d1; cbd; try assumption; try lia.
      apply mod_low_shift; assumption. }
    assert (W1 : W K d1 = W K d - sp * 256 * 2 ^ K).
    { subst d1. unfold W. cbd. ring. }
    assert (W1' : W K d1 < bd_range d1 * 256 * 2 ^ K).
    { rewrite W1. subst d1. cbn [bd_range]. subst V2. rewrite EK in *. lia. }
    destruct (bnorm_ok K 8 HK d1 D1 ltac:(subst d1; cbn [bd_range]; lia) W1' ltac:(subst d1; cbn [bd_range]; lia)) as (A & B & C).
    constructor; cbn [fst snd]; try assumption; try lia.
    + rewrite B, W1. replace (bd_range d1) with r2 by reflexivity. fold sh.
      rewrite (Z.pow_add_r 2 T sh) by lia. rewrite Z.mul_assoc. rewrite <- HW. subst V2. rewrite EK. ring.
  - (* zero *)
    assert (WS : W K d < sp * 256 * 2 ^ K) by (subst V2 r2; rewrite EK in *; lia).
    assert (VS : bd_value d < sp * 256).
    { apply (Z.mul_lt_mono_pos_r (2 ^ K)); lia. }
    destruct (sp * 256 <=? bd_value d) eqn:EB; [lia|]. cbn [fst snd]. split; [reflexivity|].
    set (d1 := mkBdec _ _ _ _ _ _).
    assert (D1 : dinv K d1).
    { constructor; subst d1; cbd; try assumption; try lia. }
    assert (W1 : W K d1 = W K d) by reflexivity.
    assert (W1' : W K d1 < bd_range d1 * 256 * 2 ^ K).
    { rewrite W1. subst d1. cbn [bd_range]. lia. }
    destruct (bnorm_ok K 8 HK d1 D1 ltac:(subst d1; cbn [bd_range]; lia) W1' ltac:(subst d1; cbn [bd_range]; fold r2; lia)) as (A & B & C).
    constructor; cbn [fst snd]; try assumption; try lia.
    + rewrite B, W1. replace (bd_range d1) with r2 by reflexivity. fold sh.
      rewrite (Z.pow_add_r 2 T sh) by lia. rewrite Z.mul_assoc. rewrite <- HW. subst V2. ring.
Qed.

(** Intervals nest. *)
Lemma irun_nest evs : forall V r T V' r' T', Forall event_ok evs -> 128 <= r <= 255 ->
  irun (V, r, T) evs = (V', r', T') ->
  T <= T' /\ 128 <= r' <= 255 /\ V * 2 ^ (T' - T) <= V' /\ V' + r' <= (V + r) * 2 ^ (T' - T).
Proof.
  induction evs as [|[b p] evs IH]; intros V r T V' r' T' Hok Hr E.
  - cbn in E. injection E as <- <- <-. rewrite Z.sub_diag. cbn. lia.
  - inversion_clear Hok as [|? ? H1 H2]. cbn [irun fold_left istep] in E.
    fold (irun) in E. change (fold_left istep evs) with (fun s => irun s evs) in E. cbn beta in E.
    pose proof (split_bounds r p Hr H1) as Hs. set (sp := split_of r p) in *. clearbody sp.
    set (V2 := if b then V + sp else V) in *. set (r2 := if b then r - sp else sp) in *.
    assert (Hr2 : 1 <= r2 <= 255 /\ V <= V2 /\ V2 + r2 <= V + r) by (subst r2 V2; destruct b; lia).
    clearbody r2 V2.
    destruct (norm_bounds r2 ltac:(lia)) as [Hsh Hn]. set (sh := vp8_norm r2) in *. clearbody sh.
    destruct (IH _ _ _ _ _ _ H2 Hn E) as (A & B & C & D).
    split; [lia|]. split; [lia|].
    replace (T' - T) with (sh + (T' - (T + sh))) by lia. rewrite Z.pow_add_r by lia.
    assert (0 < 2 ^ sh) by (apply Z.pow_pos_nonneg; lia).
    assert (0 < 2 ^ (T' - (T + sh))) by (apply Z.pow_pos_nonneg; lia).
    split.
    + eapply Z.le_trans; [|exact C]. rewrite Z.mul_assoc. apply Z.mul_le_mono_nonneg_r; [lia|].
      apply Z.mul_le_mono_nonneg_r; lia.
    + eapply Z.le_trans; [exact D|]. rewrite Z.mul_assoc. apply Z.mul_le_mono_nonneg_r; [lia|].
      rewrite <- Z.mul_add_distr_r. apply Z.mul_le_mono_nonneg_r; lia.
Qed.

Lemma ready_sync K X0 evs : 0 <= K -> forall d V r T V' r' T', sync K X0 d (V, r, T) ->
  Forall event_ok evs -> irun (V, r, T) evs = (V', r', T') ->
  V' * 2 ^ (K + 8) <= X0 * 2 ^ T' < (V' + r') * 2 ^ (K + 8) -> ready d evs.
Proof.
  intros HK. induction evs as [|[b p] evs IH]; intros d V r T V' r' T' HS Hok E HI; cbn [ready]; [exact I|].
  inversion_clear Hok as [|? ? H1 H2]. change (prob_ok p) in H1.
  change (irun (istep (V, r, T) (b, p)) evs = (V', r', T')) in E.
  pose proof (sy_r _ _ _ _ HS) as Hr. cbn [fst snd] in Hr.
  destruct (istep (V, r, T) (b, p)) as [[V1 r1] T1] eqn:E1.
  assert (N1 : 128 <= r1 <= 255 /\ T <= T1).
  { destruct (irun_nest [(b,p)] V r T V1 r1 T1) as (? & ? & _); try assumption; [|lia].
    constructor; [exact H1|constructor]. }
  assert (HT : 0 <= T1) by (pose proof (sy_T _ _ _ _ HS) as Q; cbn [snd] in Q; lia).
  destruct (irun_nest evs V1 r1 T1 V' r' T' H2 (proj1 N1) E) as (A & B & C & D).
  assert (PK : 0 < 2 ^ (K + 8)) by (apply Z.pow_pos_nonneg; lia).
  set (u := T' - T1) in *.
  assert (Pu : 0 < 2 ^ u) by (apply Z.pow_pos_nonneg; lia).
  assert (HI1 : V1 * 2 ^ (K + 8) <= X0 * 2 ^ T1 < (V1 + r1) * 2 ^ (K + 8)).
  { replace T' with (T1 + u) in HI by lia. rewrite (Z.pow_add_r 2 T1 u) in HI by lia. rewrite Z.mul_assoc in HI.
    split; apply Z.mul_le_mono_pos_r with (p := 2 ^ u) || apply Z.mul_lt_mono_pos_r with (p := 2 ^ u); try exact Pu.
    - eapply Z.le_trans; [|exact (proj1 HI)].
      replace (V1 * 2 ^ (K + 8) * 2 ^ u) with (V1 * 2 ^ u * 2 ^ (K + 8)) by ring.
      apply Z.mul_le_mono_nonneg_r; lia.
    - eapply Z.lt_le_trans; [exact (proj2 HI)|].
      replace ((V1 + r1) * 2 ^ (K + 8) * 2 ^ u) with ((V1 + r1) * 2 ^ u * 2 ^ (K + 8)) by ring.
      apply Z.mul_le_mono_nonneg_r; lia. }
  pose proof (bget_sync K X0 d V r T b p HK HS H1) as G. rewrite E1 in G. destruct (G HI1) as [G1 G2].
  split; [exact G1|]. eapply IH; eauto.
Qed.

Lemma bdec_init_W complete bs K : bytes_ok bs -> 8 * zlen bs <= K ->
  dinv K (bdec_init complete bs) /\ bd_range (bdec_init complete bs) = 255 /\
  W K (bdec_init complete bs) = numf bs * 2 ^ (K + 16 - 8 * zlen bs).
Proof.
  intros Hb HK. unfold bdec_init, load_octet.
  destruct bs as [|b0 bs]; cbd.
  - destruct complete; cbd;
    (split; [constructor; cbd; try (apply Forall_nil); try reflexivity; lia|split; reflexivity]).
  - inversion_clear Hb as [|? ? H0 H1].
    assert (L0 : Z.lor 0 b0 = b0) by reflexivity. rewrite L0.
    assert (S0 : wrap 32 (Z.shiftl b0 8) = b0 * 256).
    { unfold byte_ok in H0. rewrite shl_mul by lia. rewrite wrap_small; pows; lia. }
    rewrite S0.
    destruct bs as [|b1 bs].
    + destruct complete; cbd;
      (split; [constructor; cbd; unfold zlen, byte_ok in *; cbn [length] in *; try lia; try (apply Forall_nil)|
               split; [reflexivity|]]);
      unfold W, zlen; cbn [bd_chunk bd_range bd_value bd_bc bd_valid bd_complete numf length zlen];
      unfold zlen in *; cbn [length] in *;
      replace (K + 16 - 8 * Z.of_nat 1) with (8 + K) by lia;
      rewrite (Z.pow_add_r 2 8 K) by lia; change (256 ^ Z.of_nat 0) with 1; pows; ring.
    + inversion_clear H1 as [|? ? Hb1 Hbs]. unfold byte_ok in H0.
      rewrite lor_add by (try assumption; try lia; apply Z.mod_mul; lia).
      cbd.
      unfold zlen in HK. cbn [length] in HK.
      split; [constructor; cbd; unfold zlen, byte_ok in *; try assumption; try lia|].
      split; [reflexivity|].
      unfold W. cbn [bd_chunk bd_range bd_value bd_bc bd_valid bd_complete numf].
      unfold zlen. cbn [length]. rewrite !Nat2Z.inj_succ in *. set (m := Z.of_nat (length bs)) in *.
      replace (K + 16 - 8 * Z.succ (Z.succ m)) with (0 + K - 8 * m) by lia.
      rewrite Z.pow_succ_r by lia.
      replace (2 ^ K) with (256 ^ m * 2 ^ (0 + K - 8 * m)).
      2:{ change 256 with (2^8). rewrite <- Z.pow_mul_r by lia. rewrite <- Z.pow_add_r by lia. f_equal. lia. }
      ring.
Qed.

(** The coder theorem. *)
Theorem bool_coder_ready complete evs : Forall event_ok evs ->
  exists bs, bool_encode evs = Some bs /\ bytes_ok bs /\ ready (bdec_init complete bs) evs.
Proof.
  intros Hok. destruct (bool_encode_value evs Hok) as (bs & V & r & T & E & Hb & ER & Hr & HT & HX).
  exists bs. split; [exact E|]. split; [exact Hb|].
  set (K := 8 * zlen bs).
  assert (HK : 0 <= K) by (unfold K, zlen; lia).
  specialize (HX K (Z.le_refl _)).
  destruct (bdec_init_W complete bs K Hb (Z.le_refl _)) as (D & R & HW).
  rewrite numf_numr in HW.
  assert (PK : 0 < 2 ^ (K + 8)) by (apply Z.pow_pos_nonneg; lia).
  eapply (ready_sync K (numr (rev bs) * 2 ^ (K + 16 - 8 * zlen bs)) evs HK _ 0 255 0 V r T); eauto.
  - constructor; cbn [fst snd]; try assumption; try lia. 
  - rewrite HX. split; [lia|]. apply Z.mul_lt_mono_pos_r; lia.
Qed.

Lemma ready_bgets evs : forall d, ready d evs -> fst (bgets (map snd evs) d) = map fst evs.
Proof.
  induction evs as [|[b p] evs IH]; intros d H; cbn [map bgets snd fst] in *; [reflexivity|].
  destruct H as [H1 H2]. destruct (bget p d) as [b' d'] eqn:E. cbn [fst snd] in *. subst b'.
  specialize (IH d' H2). destruct (bgets (map snd evs) d') as [bs d2]. cbn [fst] in *. congruence.
Qed.
