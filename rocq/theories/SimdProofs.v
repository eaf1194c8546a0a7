(** Lemmas about the machine of SimdModel.v. *)
From Verif Require Import Base MVModel RasterModel VarianceModel SimdModel ChunkProofs.

(** * Lanes *)

Lemma s16_small : forall x, -32768 <= x < 32768 -> s16 x = x.
Proof. intros. unfold s16. lia. Qed.
Lemma s16_range : forall x, -32768 <= s16 x < 32768.
Proof. intros. unfold s16. lia. Qed.
Lemma s32_small : forall x, -2147483648 <= x < 2147483648 -> s32 x = x.
Proof. intros. unfold s32. lia. Qed.
Lemma lo8_range : forall x, 0 <= lo8 x < 256.
Proof. intros. unfold lo8. lia. Qed.
Lemma hi8_range : forall x, 0 <= hi8 x < 256.
Proof. intros. unfold hi8. lia. Qed.
Lemma word_range : forall a b, -32768 <= word a b < 32768.
Proof. intros. apply s16_range. Qed.

Lemma word_split : forall x, word (lo8 x) (hi8 x) = s16 x.
Proof. intros. unfold word, lo8, hi8, s16. lia. Qed.
Lemma lo8_word : forall a b, 0 <= a < 256 -> lo8 (word a b) = a.
Proof. intros. unfold word, lo8, s16. lia. Qed.
Lemma hi8_word : forall a b, 0 <= a < 256 -> 0 <= b < 256 -> hi8 (word a b) = b.
Proof. intros. unfold word, hi8, s16. lia. Qed.
Lemma dword_split : forall x, dword (lo16 x) (hi16 x) = s32 x.
Proof. intros. unfold dword, lo16, hi16, s16, s32. lia. Qed.
Lemma lo16_dword : forall a b, lo16 (dword a b) = s16 a.
Proof. intros. unfold dword, lo16, s16, s32. lia. Qed.
Lemma hi16_dword : forall a b, hi16 (dword a b) = s16 b.
Proof. intros. unfold dword, hi16, s16, s32. lia. Qed.

(** What movd puts into a register. *)
Lemma lo8_movd : forall a b, lo8 (dword a b mod 4294967296) = lo8 a.
Proof. intros. unfold dword, lo8, s32. lia. Qed.
Lemma hi8_movd : forall a b, hi8 (dword a b mod 4294967296) = hi8 a.
Proof. intros. unfold dword, hi8, s32. lia. Qed.
Lemma lo8_movd_shr : forall a b, lo8 (Z.shiftr (dword a b mod 4294967296) 16) = lo8 b.
Proof. intros. rewrite Z.shiftr_div_pow2 by lia. change (2 ^ 16) with 65536. unfold dword, lo8, s32. lia. Qed.
Lemma hi8_movd_shr : forall a b, hi8 (Z.shiftr (dword a b mod 4294967296) 16) = hi8 b.
Proof. intros. rewrite Z.shiftr_div_pow2 by lia. change (2 ^ 16) with 65536. unfold dword, hi8, s32. lia. Qed.

Lemma sar_div : forall k x, 0 <= k -> sar k x = x / 2 ^ k.
Proof. intros. unfold sar. apply Z.shiftr_div_pow2. assumption. Qed.

(** * Running *)

Lemma run_app : forall L args a b s, run L args (a ++ b) s = obind (run L args a s) (run L args b).
Proof.
  induction a as [|i a IH]; intros; [reflexivity|].
  cbn [app run]. destruct (exec L args i s); cbn [obind]; auto.
Qed.
Lemma run_cons : forall L args i l s, run L args (i :: l) s = obind (exec L args i s) (run L args l).
Proof. reflexivity. Qed.

Lemma load_ok : forall L al n m seg off,
  0 <= off -> off + Z.of_nat n <= extent L seg ->
  (al = true -> (base L seg + off) mod 16 = 0) ->
  load L al n m (Ptr seg off) = Some (map (fun i => m seg (off + Z.of_nat i)) (seq 0 n)).
Proof.
  intros L al n m seg off Lo Hi Al. unfold load, in_bounds, aligned.
  replace (0 <=? off) with true by lia. replace (off + Z.of_nat n <=? extent L seg) with true by lia.
  destruct al; [rewrite (Al eq_refl)|]; reflexivity.
Qed.
Lemma store_ok : forall L al l m seg off,
  0 <= off -> off + zlen l <= extent L seg ->
  (al = true -> (base L seg + off) mod 16 = 0) ->
  store L al l m (Ptr seg off) = Some (poke m seg off l).
Proof.
  intros L al n m seg off Lo Hi Al. unfold store, in_bounds, aligned.
  replace (0 <=? off) with true by lia. replace (off + zlen n <=? extent L seg) with true by lia.
  destruct al; [rewrite (Al eq_refl)|]; reflexivity.
Qed.
(** A misaligned access has no result. *)
Lemma load_misaligned : forall L n m seg off, (base L seg + off) mod 16 <> 0 -> load L true n m (Ptr seg off) = None.
Proof.
  intros L n m seg off N. unfold load, aligned. cbn [negb orb].
  replace ((base L seg + off) mod 16 =? 0) with false by lia. rewrite andb_false_r. reflexivity.
Qed.
Lemma store_misaligned : forall L l m seg off, (base L seg + off) mod 16 <> 0 -> store L true l m (Ptr seg off) = None.
Proof.
  intros L n m seg off N. unfold store, aligned. cbn [negb orb].
  replace ((base L seg + off) mod 16 =? 0) with false by lia. rewrite andb_false_r. reflexivity.
Qed.

(** * Memory *)

Lemma poke_in : forall m seg off l a, off <= a < off + zlen l -> poke m seg off l seg a = nth (Z.to_nat (a - off)) l 0.
Proof.
  intros. unfold poke. rewrite Nat.eqb_refl. replace (off <=? a) with true by lia.
  replace (a <? off + zlen l) with true by lia. reflexivity.
Qed.
Lemma poke_out : forall m seg off l s a, s <> seg \/ a < off \/ off + zlen l <= a -> poke m seg off l s a = m s a.
Proof.
  intros m seg off l s a O. unfold poke. destruct (Nat.eqb_spec s seg); cbn [andb]; [|reflexivity].
  destruct (off <=? a) eqn:A; cbn [andb]; [|reflexivity]. destruct (a <? off + zlen l) eqn:B; [|reflexivity]. lia.
Qed.

(** * Symbolic execution *)

(** Evaluation that leaves lane arithmetic and memory accesses alone. *)
Ltac vc_eval t :=
  eval cbv -[s8 s16 s32 lo8 hi8 word lo16 hi16 dword sat8 sat16 add16 sub16 sar clamp255
             Z.add Z.sub Z.mul Z.opp Z.modulo Z.div Z.pow Z.shiftr Z.max Z.min Z.abs
             Z.land Z.lor Z.lxor Z.lnot Z.leb Z.ltb Z.eqb
             load store poke extent base zlen] in t.
(** One instruction; [side] proves that its memory accesses are allowed. *)
Ltac vstep side :=
  match goal with
  | |- context [run ?L ?a (?i :: ?l) ?s] =>
      rewrite (run_cons L a i l s);
      let x := vc_eval (exec L a i s) in change (exec L a i s) with x;
      repeat first [rewrite load_ok by side | rewrite store_ok by side];
      match goal with
      | |- context [obind ?e (run L a l)] => let y := vc_eval e in change e with y
      end;
      cbn [obind]
  end.
(** Instructions that do not touch memory, all at once. *)
Ltac vblock :=
  match goal with
  | |- context [run ?L ?a ?l ?s] =>
      let x := vc_eval (run L a l s) in change (run L a l s) with x; cbn [obind]
  end.
