(** Round trip of coefficient tokens. *)
From Verif Require Import Base BoolCoderModel ParserModel TokenModel BoolEncProofs BoolCoderProofs ParserProofs.

(** ** Category bits *)
Lemma parses_td_bits probs : forall acc inc,
  parses (td_bits probs acc) (td_bit_events probs inc) (acc * 2 ^ zlen probs + inc mod 2 ^ zlen probs).
Proof.
  induction probs as [|p r IH]; intros acc inc; cbn [td_bits td_bit_events].
  - cbn. eapply parses_eq; [apply parses_ret|]. rewrite Z.mod_1_r. lia.
  - apply parses_bind_get. eapply parses_eq; [apply IH|].
    assert (HL : zlen (p :: r) = Z.succ (zlen r)) by (unfold zlen; cbn [length]; lia).
    assert (H0 : 0 <= zlen r) by (unfold zlen; lia).
    rewrite HL, mod_succ_bit, land_bit, Z.pow_succ_r, Z.shiftl_mul_pow2 by lia.
    destruct (Z.testbit inc (zlen r)); lia.
Qed.

Lemma td_bit_events_ok probs inc : Forall prob_ok probs -> Forall event_ok (td_bit_events probs inc).
Proof. induction 1; cbn; constructor; auto. Qed.

Lemma parses_td t v : base_value t <= v < upper_limit t -> parses (td_decode t) (td_events t v) v.
Proof.
  destruct t as [b ps]. unfold base_value, upper_limit, td_decode, td_events. cbn [fst snd]. intros H.
  rewrite Z.shiftl_mul_pow2, Z.mul_1_l in H by (unfold zlen; lia).
  eapply parses_eq; [apply (parses_bind_ret _ (fun i => b + i)), parses_td_bits|].
  cbn beta. rewrite Z.mod_small by lia. lia.
Qed.

(** ** One coefficient *)
Lemma parses_value p c : 1 <= Z.abs c <= 2114 ->
  exists ve ctx, value_events p c = Some (ve ++ [(c <? 0, 128)], ctx) /\
    parses (value_decode p) ve (Z.abs c, ctx) /\ (0 <= ctx <= 2) /\
    ((forall i, prob_ok (p i)) -> Forall event_ok ve).
Proof.
  intros H. unfold value_events.
  assert (B1 : base_value token_decoder_1 = 7) by reflexivity.
  assert (U1 : upper_limit token_decoder_1 = 11) by reflexivity.
  assert (U2 : upper_limit token_decoder_2 = 19) by reflexivity.
  assert (U3 : upper_limit token_decoder_3 = 35) by reflexivity.
  assert (U4 : upper_limit token_decoder_4 = 67) by reflexivity.
  assert (U5 : upper_limit token_decoder_5 = 2115) by reflexivity.
  assert (B2 : base_value token_decoder_2 = 11) by reflexivity.
  assert (B3 : base_value token_decoder_3 = 19) by reflexivity.
  assert (B4 : base_value token_decoder_4 = 35) by reflexivity.
  assert (B5 : base_value token_decoder_5 = 67) by reflexivity.
  rewrite B1, U1, U2, U3, U4, U5. set (v := Z.abs c) in *. clearbody v.
  destruct (Z.eqb_spec v 1) as [->|N1].
  { exists [(false, p 2)], 1. split; [reflexivity|]. split; [|split; [lia|intros Hq; repeat constructor; apply Hq]].
    unfold value_decode. apply parses_bind_get. cbn [negb]. apply parses_ret. }
  assert (G : exists e, (if v =? 2 then Some [(false, p 3); (false, p 4)]
       else if v =? 3 then Some [(false, p 3); (true, p 4); (false, p 5)]
       else if v =? 4 then Some [(false, p 3); (true, p 4); (true, p 5)]
       else
         option_map (cons (true, p 3))
         (if v <? 7 then
            Some [(false, p 6); (false, p 7); (v =? 6, 159)]
          else if v <? 11 then
            Some ([(false, p 6); (true, p 7)] ++ td_events token_decoder_1 v)
          else
            option_map (cons (true, p 6))
            (if v <? 19 then
               Some ([(false, p 8); (false, p 9)] ++ td_events token_decoder_2 v)
             else if v <? 35 then
               Some ([(false, p 8); (true, p 9)] ++ td_events token_decoder_3 v)
             else
               option_map (cons (true, p 8))
               (if v <? 67 then
                  Some ([(false, p 10)] ++ td_events token_decoder_4 v)
                else if v <? 2115 then
                  Some ([(true, p 10)] ++ td_events token_decoder_5 v)
                else None)))) = Some e /\ parses (value_decode p) ((true, p 2) :: e) (v, 2) /\
         ((forall i, prob_ok (p i)) -> Forall event_ok e)).
  { assert (S : forall e, (parses (do b3 <- bget (p 3);
       if negb b3 then
         (do b4 <- bget (p 4);
          if negb b4 then dret 2
          else (do b5 <- bget (p 5);
                if negb b5 then dret 3 else dret 4))
       else
         (do b6 <- bget (p 6);
          if negb b6 then
            (do b7 <- bget (p 7);
             if negb b7 then (do b <- bget 159; dret (5 + (if b : bool then 1 else 0)))
             else td_decode token_decoder_1)
          else
            (do b8 <- bget (p 8);
             if negb b8 then
               (do b9 <- bget (p 9);
                if negb b9 then td_decode token_decoder_2 else td_decode token_decoder_3)
             else
               (do b10 <- bget (p 10);
                if negb b10 then td_decode token_decoder_4 else td_decode token_decoder_5)))) e v ->
        parses (value_decode p) ((true, p 2) :: e) (v, 2))).
    { intros e He. unfold value_decode. apply parses_bind_get. cbn [negb].
      apply (parses_bind_ret _ (fun v => (v, 2))). exact He. }
    assert (T1 : Forall prob_ok (snd token_decoder_1)) by (repeat constructor; lia).
    assert (T2 : Forall prob_ok (snd token_decoder_2)) by (repeat constructor; lia).
    assert (T3 : Forall prob_ok (snd token_decoder_3)) by (repeat constructor; lia).
    assert (T4 : Forall prob_ok (snd token_decoder_4)) by (repeat constructor; lia).
    assert (T5 : Forall prob_ok (snd token_decoder_5)) by (repeat constructor; lia).
    destruct (Z.eqb_spec v 2) as [->|N2].
    { eexists. split; [reflexivity|]. split; [|intros Hq; repeat constructor; apply Hq]. apply S.
      apply parses_bind_get. cbn [negb]. apply parses_bind_get. apply parses_ret. }
    destruct (Z.eqb_spec v 3) as [->|N3].
    { eexists. split; [reflexivity|]. split; [|intros Hq; repeat constructor; apply Hq]. apply S.
      apply parses_bind_get. cbn [negb]. apply parses_bind_get. cbn [negb]. apply parses_bind_get. apply parses_ret. }
    destruct (Z.eqb_spec v 4) as [->|N4].
    { eexists. split; [reflexivity|]. split; [|intros Hq; repeat constructor; apply Hq]. apply S.
      apply parses_bind_get. cbn [negb]. apply parses_bind_get. cbn [negb]. apply parses_bind_get. apply parses_ret. }
    destruct (Z.ltb_spec v 7).
    { eexists. split; [reflexivity|]. split.
      - apply S. do 3 (apply parses_bind_get; cbn [negb]). apply parses_bind_get.
        eapply parses_eq; [apply parses_ret|]. destruct (Z.eqb_spec v 6); lia.
      - intros Hq. repeat constructor; try apply Hq; cbn; lia. }
    destruct (Z.ltb_spec v 11).
    { eexists. split; [reflexivity|]. split.
      - apply S. do 3 (apply parses_bind_get; cbn [negb]). apply parses_td. lia.
      - intros Hq. constructor; [apply Hq|]. constructor; [apply Hq|]. constructor; [apply Hq|]. apply td_bit_events_ok, T1. }
    destruct (Z.ltb_spec v 19).
    { eexists. split; [reflexivity|]. split.
      - apply S. do 4 (apply parses_bind_get; cbn [negb]). apply parses_td. lia.
      - intros Hq. do 4 (constructor; [apply Hq|]). apply td_bit_events_ok, T2. }
    destruct (Z.ltb_spec v 35).
    { eexists. split; [reflexivity|]. split.
      - apply S. do 4 (apply parses_bind_get; cbn [negb]). apply parses_td. lia.
      - intros Hq. do 4 (constructor; [apply Hq|]). apply td_bit_events_ok, T3. }
    destruct (Z.ltb_spec v 67).
    { eexists. split; [reflexivity|]. split.
      - apply S. do 4 (apply parses_bind_get; cbn [negb]). apply parses_td. lia.
      - intros Hq. do 4 (constructor; [apply Hq|]). apply td_bit_events_ok, T4. }
    destruct (Z.ltb_spec v 2115); [|lia].
    { eexists. split; [reflexivity|]. split.
      - apply S. do 4 (apply parses_bind_get; cbn [negb]). apply parses_td. lia.
      - intros Hq. do 4 (constructor; [apply Hq|]). apply td_bit_events_ok, T5. } }
  destruct G as (e & E & P & O). rewrite E. exists ((true, p 2) :: e), 2. split; [reflexivity|]. split; [exact P|].
  split; [lia|]. intros Hq. constructor; [apply Hq|apply O, Hq].
Qed.

(** ** Zigzag order *)
Definition upto (P : nat -> bool) (n : nat) : bool := forallb P (seq 0 n).
Lemma upto_all P n i : upto P n = true -> (i < n)%nat -> P i = true.
Proof. unfold upto. rewrite forallb_forall. intros H Hi. apply H. apply in_seq. lia. Qed.

Lemma zz_lt i : (i < 16)%nat -> (zz i < 16)%nat.
Proof. intros H. apply Nat.ltb_lt. apply (upto_all (fun i => (zz i <? 16)%nat) 16); [reflexivity|exact H]. Qed.

Lemma zz_inj i j : (i < 16)%nat -> (j < 16)%nat -> zz i = zz j -> i = j.
Proof.
  intros Hi Hj E.
  pose proof (upto_all (fun i => upto (fun j => implb (zz i =? zz j)%nat (i =? j)%nat) 16) 16 i eq_refl Hi) as H.
  cbn beta in H. pose proof (upto_all _ _ j H Hj) as H2. cbn beta in H2. rewrite E, Nat.eqb_refl in H2. cbn in H2.
  apply Nat.eqb_eq. exact H2.
Qed.

Lemma zz_surj k : (k < 16)%nat -> exists i, (i < 16)%nat /\ zz i = k.
Proof.
  intros H. pose proof (upto_all (fun k => existsb (fun i => (zz i =? k)%nat) (seq 0 16)) 16 k eq_refl H) as E.
  cbn beta in E. rewrite existsb_exists in E. destruct E as (i & Hi & Ei). exists i.
  apply in_seq in Hi. apply Nat.eqb_eq in Ei. split; [lia|exact Ei].
Qed.

Lemma list_set_length l i v : length (list_set l i v) = length l.
Proof. revert i. induction l; intros [|i]; cbn; auto. Qed.

Lemma nth_list_set l i j v : (i < length l)%nat ->
  nth j (list_set l i v) 0 = if (j =? i)%nat then v else nth j l 0.
Proof.
  revert i j. induction l as [|x l IH]; intros i j H; cbn in H; [lia|].
  destruct i as [|i], j as [|j]; cbn; auto. apply IH. lia.
Qed.

Lemma nth_ext_Z (l l' : list Z) : length l = length l' ->
  (forall k, (k < length l)%nat -> nth k l 0 = nth k l' 0) -> l = l'.
Proof. intros HL H. apply nth_ext with (d := 0) (d' := 0); auto. Qed.

(** ** coded_length *)
Lemma coded_length_from_spec coefs n : forall index acc,
  (acc <= index)%nat ->
  (forall k, (acc <= k < index)%nat -> nth (zz k) coefs 0 = 0) ->
  (acc = 0%nat \/ nth (zz (acc - 1)) coefs 0 <> 0) ->
  let r := coded_length_from n index coefs acc in
  (r <= index + n)%nat /\ (forall k, (r <= k < index + n)%nat -> nth (zz k) coefs 0 = 0) /\
  (r = 0%nat \/ nth (zz (r - 1)) coefs 0 <> 0) /\ (r = acc \/ (index < r)%nat).
Proof.
  induction n as [|n IH]; intros index acc HA HZ HN; cbn [coded_length_from].
  - cbn zeta. rewrite Nat.add_0_r. auto.
  - rewrite Nat.add_succ_r, <- Nat.add_succ_l.
    destruct (Z.eqb_spec (nth (zz index) coefs 0) 0) as [E|E].
    + edestruct (IH (S index) acc) as (A & B & C & D); [lia| |exact HN|].
      * intros k Hk. destruct (Nat.eq_dec k index) as [->|]; [exact E|apply HZ; lia].
      * cbn zeta. repeat split; auto. destruct D; [left; auto|right; lia].
    + edestruct (IH (S index) (S index)) as (A & B & C & D); [lia| | |].
      * intros k Hk. lia.
      * right. rewrite Nat.sub_succ, Nat.sub_0_r. exact E.
      * cbn zeta. repeat split; auto. right. destruct D; lia.
Qed.

(** ** The loops *)
Section Loop.
  Variable prob : Z -> Z -> Z -> Z.
  Variable coefs : list Z.
  Hypothesis Hlen : length coefs = 16%nat.
  Hypothesis Hrange : forall k, (k < 16)%nat -> Z.abs (nth k coefs 0) <= 2114.

  (** [st] holds the coefficients before position [i] in zigzag order. *)
  Definition agree (i : nat) (st : list Z) : Prop :=
    length st = 16%nat /\
    forall j, (j < 16)%nat -> nth (zz j) st 0 = if (j <? i)%nat then nth (zz j) coefs 0 else 0.

  Definition nonzero_before (s i : nat) : bool :=
    existsb (fun j => negb (nth (zz j) coefs 0 =? 0)) (seq s (i - s)).

  Lemma nonzero_before_S s i : (s <= i)%nat ->
    nonzero_before s (S i) = nonzero_before s i || negb (nth (zz i) coefs 0 =? 0).
  Proof.
    intros H. unfold nonzero_before. replace (S i - s)%nat with (S (i - s)) by lia.
    rewrite seq_S, existsb_app. cbn [existsb]. rewrite orb_false_r. replace (s + (i - s))%nat with i by lia. reflexivity.
  Qed.

  Lemma agree_step i st v : (i < 16)%nat -> agree i st -> v = nth (zz i) coefs 0 ->
    agree (S i) (list_set st (zz i) v).
  Proof.
    intros Hi [HL HA] ->. split; [rewrite list_set_length; exact HL|]. intros j Hj.
    rewrite nth_list_set by (rewrite HL; apply zz_lt; exact Hi).
    destruct (Nat.eqb_spec (zz j) (zz i)) as [E|E].
    - apply zz_inj in E; auto. subst j. destruct (Nat.ltb_spec i (S i)); [reflexivity|lia].
    - rewrite HA by exact Hj. destruct (Nat.ltb_spec j i), (Nat.ltb_spec j (S i)); try reflexivity; try lia.
      assert (j = i) by lia. subst. congruence.
  Qed.

  Lemma agree_unique i st st' : agree i st -> agree i st' -> st = st'.
  Proof.
    intros [HL HA] [HL' HA']. apply nth_ext_Z; [congruence|]. rewrite HL. intros k Hk.
    destruct (zz_surj k Hk) as (j & Hj & <-). rewrite HA, HA' by exact Hj. reflexivity.
  Qed.

  (** What the parser has stored when it reaches position [i]. *)
  Definition pre (i : nat) : list Z :=
    fold_left (fun l j => list_set l (zz j) (nth (zz j) coefs 0)) (seq 0 i) (repeat 0 16).

  Lemma pre_S i : pre (S i) = list_set (pre i) (zz i) (nth (zz i) coefs 0).
  Proof. unfold pre. rewrite seq_S, fold_left_app. reflexivity. Qed.

  Lemma pre_agree i : (i <= 16)%nat -> agree i (pre i).
  Proof.
    induction i as [|i IH]; intros H.
    - split; [reflexivity|]. intros j Hj. unfold pre. cbn [seq fold_left].
      destruct (Nat.ltb_spec j 0); [lia|]. apply nth_repeat.
    - rewrite pre_S. apply agree_step; [lia|apply IH; lia|reflexivity].
  Qed.

  Lemma pre_zero i : (i < 16)%nat -> nth (zz i) coefs 0 = 0 -> pre (S i) = pre i.
  Proof.
    intros Hi E. apply (agree_unique (S i)); [apply pre_agree; lia|].
    destruct (pre_agree i ltac:(lia)) as [HL HA]. split; [exact HL|]. intros j Hj. rewrite HA by exact Hj.
    destruct (Nat.ltb_spec j i), (Nat.ltb_spec j (S i)); try reflexivity; try lia.
    assert (j = i) by lia. subst. auto.
  Qed.

  Lemma pre_rest i : (i <= 16)%nat -> (forall k, (i <= k < 16)%nat -> nth (zz k) coefs 0 = 0) -> pre i = coefs.
  Proof.
    intros Hi H. destruct (pre_agree i Hi) as [HL HA]. apply nth_ext_Z; [congruence|]. rewrite HL. intros k Hk.
    destruct (zz_surj k Hk) as (j & Hj & <-). rewrite HA by exact Hj.
    destruct (Nat.ltb_spec j i); [reflexivity|]. symmetry. apply H. lia.
  Qed.

  Lemma loop_round_trip s n : forall index ctx lwz,
    (index + n <= 16)%nat -> (s <= index)%nat ->
    (n <> 0%nat -> nth (zz (index + n - 1)) coefs 0 <> 0) -> (n = 0%nat -> lwz = false) ->
    0 <= ctx <= 2 ->
    exists evs ctx',
      ser_loop prob coefs n index ctx lwz = Some (evs, ctx', false) /\ 0 <= ctx' <= 2 /\
      ((forall b c i, prob_ok (prob b c i)) -> Forall event_ok evs) /\
      forall eob res evs2,
        parses (parse_loop prob eob (index + n) ctx' false (pre (index + n)) (nonzero_before s (index + n))) evs2 res ->
        parses (parse_loop prob (n + eob) index ctx lwz (pre index) (nonzero_before s index)) (evs ++ evs2) res.
  Proof.
    induction n as [|n IH]; intros index ctx lwz HI HS HL HZ HC.
    - cbn [ser_loop]. rewrite HZ by reflexivity. exists [], ctx. split; [reflexivity|]. split; [exact HC|].
      split; [constructor|]. intros eob res evs2 H. rewrite Nat.add_0_r in *. exact H.
    - cbn [ser_loop].
      assert (LW : forall (e : list event) (b : bool), parses (if lwz then dret true else bget (prob (band_of index) ctx 0))
         (if lwz then [] else [(true, prob (band_of index) ctx 0)]) true).
      { intros _ _. destruct lwz; [apply parses_ret|apply parses_get]. }
      destruct (Z.eqb_spec (nth (zz index) coefs 0) 0) as [E|E].
      + assert (HN : n <> 0%nat).
        { intros ->. apply HL; [lia|]. replace (index + 1 - 1)%nat with index by lia. exact E. }
        destruct (IH (S index) 0 true) as (evs & ctx' & ES & HC' & HO & HP); try lia.
        { intros _. replace (S index + n - 1)%nat with (index + S n - 1)%nat by lia. apply HL. lia. }
        rewrite ES. eexists _, _. split; [reflexivity|]. split; [exact HC'|]. split.
        { intros Hq. apply Forall_app. split; [destruct lwz; repeat constructor; apply Hq|].
          constructor; [apply Hq|]. apply HO, Hq. }
        intros eob res evs2 H.
        replace (index + S n)%nat with (S index + n)%nat in * by lia.
        specialize (HP eob res evs2 H).
        rewrite nonzero_before_S in HP by exact HS. rewrite E, Z.eqb_refl in HP. cbn [negb] in HP.
        rewrite orb_false_r, pre_zero in HP by (lia || exact E).
        cbn [Nat.add parse_loop]. rewrite <- app_assoc.
        eapply parses_bind; [apply LW; [exact []|exact true]|]. cbn [negb app].
        apply parses_bind_get. cbn [negb]. exact HP.
      + destruct (parses_value (prob (band_of index) ctx) (nth (zz index) coefs 0)) as (ve & c1 & EV & PV & HC1 & OV).
        { split; [lia|]. apply Hrange, zz_lt. lia. }
        rewrite EV.
        destruct (IH (S index) c1 false) as (evs & ctx' & ES & HC' & HO & HP); try lia.
        { intros HN. replace (S index + n - 1)%nat with (index + S n - 1)%nat by lia. apply HL. lia. }
        rewrite ES. eexists _, _. split; [reflexivity|]. split; [exact HC'|]. split.
        { intros Hq. apply Forall_app. split; [destruct lwz; repeat constructor; apply Hq|].
          constructor; [apply Hq|]. apply Forall_app. split; [apply Forall_app; split; [apply OV; intros; apply Hq|]|apply HO, Hq].
          repeat constructor; cbn; lia. }
        intros eob res evs2 H.
        replace (index + S n)%nat with (S index + n)%nat in * by lia.
        specialize (HP eob res evs2 H).
        rewrite nonzero_before_S in HP by exact HS.
        replace (negb (nth (zz index) coefs 0 =? 0)) with true in HP by (destruct (Z.eqb_spec (nth (zz index) coefs 0) 0); [congruence|reflexivity]).
        rewrite orb_true_r, pre_S in HP.
        cbn [Nat.add parse_loop]. rewrite <- !app_assoc.
        eapply parses_bind; [apply LW; [exact []|exact true]|]. cbn [negb app].
        apply parses_bind_get. cbn [negb].
        eapply parses_bind; [exact PV|]. cbn [app fst snd]. apply parses_bind_get.
        replace (if nth (zz index) coefs 0 <? 0 then - Z.abs (nth (zz index) coefs 0) else Z.abs (nth (zz index) coefs 0))
          with (nth (zz index) coefs 0) by (destruct (Z.ltb_spec (nth (zz index) coefs 0) 0); lia).
        exact HP.
  Qed.
End Loop.

Definition any_nonzero (l : list Z) : bool := existsb (fun c => negb (c =? 0)) l.

(** The whole block. *)
Lemma parses_block prob type ctx coefs :
  length coefs = 16%nat -> Forall (fun c => Z.abs c <= 2114) coefs -> 0 <= ctx <= 2 ->
  (type = Y_after_Y2 -> nth 0 coefs 0 = 0) ->
  exists evs, serialize_tokens prob type ctx coefs = Some evs /\
    ((forall b c i, prob_ok (prob b c i)) -> Forall event_ok evs) /\
    parses (parse_tokens prob type ctx (repeat 0 16) false) evs (coefs, any_nonzero coefs).
Proof.
  intros HL HF HC HY.
  assert (HR : forall k, (k < 16)%nat -> Z.abs (nth k coefs 0) <= 2114).
  { intros k Hk. rewrite Forall_forall in HF. apply HF, nth_In. lia. }
  unfold serialize_tokens, parse_tokens. set (s := first_index type).
  assert (Hs : (s = 0 \/ s = 1)%nat) by (subst s; unfold first_index; destruct (type =? Y_after_Y2); auto).
  assert (Hs0 : (s = 1)%nat -> nth (zz 0) coefs 0 = 0).
  { subst s. unfold first_index. destruct (Z.eqb_spec type Y_after_Y2); [|discriminate]. intros _. apply HY. exact e. }
  assert (HP0 : pre coefs s = repeat 0 16).
  { destruct Hs as [E|E]; [rewrite E; reflexivity|]. rewrite E. apply pre_zero; try assumption; [lia|apply Hs0, E]. }
  set (len := coded_length type coefs).
  assert (SP : (len <= 16)%nat /\ (forall k, (len <= k < 16)%nat -> nth (zz k) coefs 0 = 0) /\
               (len = 0%nat \/ nth (zz (len - 1)) coefs 0 <> 0) /\ (len = 0%nat \/ (s < len)%nat)).
  { subst len. unfold coded_length. fold s.
    edestruct (coded_length_from_spec coefs (16 - s) s 0) as (A & B & C & D); [lia| |left; reflexivity|].
    - intros k Hk. assert (k = 0%nat) by lia. subst k. apply Hs0. lia.
    - replace (s + (16 - s))%nat with 16%nat in * by lia. auto. }
  destruct SP as (S1 & S2 & S3 & S4). clearbody len.
  destruct (loop_round_trip prob coefs HL HR s (len - s) s ctx false) as (evs & ctx' & E & HC' & HO & HP); try lia.
  { intros HN. replace (s + (len - s) - 1)%nat with (len - 1)%nat by lia. destruct S3; [lia|assumption]. }
  rewrite E.
  assert (NZ : nonzero_before coefs s (s + (len - s)) = any_nonzero coefs).
  { unfold any_nonzero. apply eq_true_iff_eq. unfold nonzero_before. rewrite !existsb_exists. split.
    - intros (j & Hj & H). apply in_seq in Hj. exists (nth (zz j) coefs 0). split; [|exact H].
      apply nth_In. rewrite HL. apply zz_lt. lia.
    - intros (x & Hx & H). apply In_nth with (d := 0) in Hx. destruct Hx as (k & Hk & <-).
      destruct (zz_surj k ltac:(lia)) as (j & Hj & <-). exists j. split; [|exact H]. apply in_seq.
      apply negb_true_iff, Z.eqb_neq in H.
      destruct (Nat.lt_ge_cases j len) as [L|L]; [|exfalso; apply H, S2; lia].
      destruct (Nat.lt_ge_cases j s) as [L2|L2]; [|lia].
      exfalso. apply H. assert (j = 0%nat) by lia. subst j. apply Hs0. lia. }
  assert (NB : nonzero_before coefs s s = false) by (unfold nonzero_before; rewrite Nat.sub_diag; reflexivity).
  rewrite NZ, NB, HP0 in HP.
  assert (PR : pre coefs (s + (len - s)) = coefs).
  { destruct S4 as [->|S4].
    - replace (s + (0 - s))%nat with s by lia. apply pre_rest; try assumption; [lia|]. intros k Hk. apply S2. lia.
    - replace (s + (len - s))%nat with len by lia. apply pre_rest; try assumption; lia. }
  rewrite PR in HP.
  assert (IX : (s + (len - s) = Nat.max len s)%nat) by lia.
  destruct (Nat.ltb_spec len 16) as [L|L].
  - eexists. split; [reflexivity|]. split.
    { intros Hq. apply Forall_app. split; [apply HO, Hq|]. constructor; [apply Hq|constructor]. }
    replace (16 - s)%nat with ((len - s) + S (15 - Nat.max len s))%nat by lia.
    apply HP. rewrite IX. cbn [parse_loop]. apply parses_bind_get. cbn [negb]. apply parses_ret.
  - exists evs. split; [reflexivity|]. split; [exact HO|].
    replace (16 - s)%nat with ((len - s) + 0)%nat by lia. rewrite <- (app_nil_r evs). apply HP.
    cbn [parse_loop]. apply parses_ret.
Qed.

(** ** What the parser can return, whatever the bits *)
Lemma td_bits_range probs : forall acc d, 0 <= acc ->
  acc * 2 ^ zlen probs <= fst (td_bits probs acc d) < (acc + 1) * 2 ^ zlen probs.
Proof.
  induction probs as [|p r IH]; intros acc d H; cbn [td_bits].
  - cbn. lia.
  - unfold dbind. destruct (bget p d) as [b d1].
    assert (HL : zlen (p :: r) = Z.succ (zlen r)) by (unfold zlen; cbn [length]; lia).
    assert (H0 : 0 <= zlen r) by (unfold zlen; lia).
    rewrite HL, Z.pow_succ_r by lia. rewrite Z.shiftl_mul_pow2 by lia.
    specialize (IH (acc * 2 ^ 1 + (if b then 1 else 0)) d1 ltac:(destruct b; lia)).
    assert (0 < 2 ^ zlen r) by (apply Z.pow_pos_nonneg; lia).
    destruct b; nia.
Qed.

Lemma td_decode_range t d : base_value t <= fst (td_decode t d) < upper_limit t.
Proof.
  destruct t as [b ps]. unfold td_decode, base_value, upper_limit, dbind, dret. cbn [fst snd].
  pose proof (td_bits_range ps 0 d ltac:(lia)) as H. destruct (td_bits ps 0 d) as [i d1]. cbn [fst] in *.
  rewrite Z.shiftl_mul_pow2 by (unfold zlen; lia). lia.
Qed.

Lemma value_decode_range p d : 1 <= fst (fst (value_decode p d)) <= 2114 /\ 0 <= snd (fst (value_decode p d)) <= 2.
Proof.
  unfold value_decode, dbind, dret.
  assert (R : forall t d, (t = token_decoder_1 \/ t = token_decoder_2 \/ t = token_decoder_3 \/ t = token_decoder_4 \/ t = token_decoder_5) ->
    1 <= fst (td_decode t d) <= 2114).
  { intros t d0 H. pose proof (td_decode_range t d0) as B.
    assert (1 <= base_value t /\ upper_limit t <= 2115); [|lia].
    clear B. destruct H as [->|[->|[->|[->| ->]]]]; vm_compute; split; discriminate. }
  repeat match goal with
  | |- context [bget ?q ?e] => destruct (bget q e) as [[|] ?]; cbn [negb]
  | |- context [let '(_, _) := td_decode ?t ?e in _] =>
      let H := fresh in pose proof (R t e ltac:(tauto)) as H; destruct (td_decode t e); cbn [fst snd] in *
  end; cbn [fst snd] in *; lia.
Qed.

Definition block_ok (type : Z) (r : list Z * bool) : Prop :=
  length (fst r) = 16%nat /\ Forall (fun c => Z.abs c <= 2114) (fst r) /\
  snd r = any_nonzero (fst r) /\ (type = Y_after_Y2 -> nth 0 (fst r) 0 = 0).

Lemma list_set_forall (P : Z -> Prop) l i v : Forall P l -> P v -> Forall P (list_set l i v).
Proof. intros H Hv. revert i. induction H; intros [|i]; cbn; constructor; auto. Qed.

Lemma list_set_nonzero l i v : (i < length l)%nat -> v <> 0 -> any_nonzero (list_set l i v) = true.
Proof.
  intros Hi Hv. unfold any_nonzero. apply existsb_exists. exists v. split; [|apply negb_true_iff, Z.eqb_neq; exact Hv].
  replace v with (nth i (list_set l i v) 0) at 1.
  - apply nth_In. rewrite list_set_length. exact Hi.
  - rewrite nth_list_set by exact Hi. rewrite Nat.eqb_refl. reflexivity.
Qed.

Lemma parse_loop_ok prob type n : forall index ctx lwz coefs nz d,
  (index + n = 16)%nat -> (first_index type <= index)%nat -> block_ok type (coefs, nz) ->
  block_ok type (fst (parse_loop prob n index ctx lwz coefs nz d)).
Proof.
  induction n as [|n IH]; intros index ctx lwz coefs nz d HI HF HB; cbn [parse_loop].
  - exact HB.
  - unfold dbind. destruct ((if lwz then dret true else bget (prob (band_of index) ctx 0)) d) as [[|] d1]; cbn [negb]; [|exact HB].
    destruct (bget (prob (band_of index) ctx 1) d1) as [[|] d2]; cbn [negb]; [|apply IH; [lia|lia|exact HB]].
    pose proof (value_decode_range (prob (band_of index) ctx) d2) as [HV _].
    destruct (value_decode (prob (band_of index) ctx) d2) as [[v c1] d3]. cbn [fst snd] in *.
    destruct (bget 128 d3) as [s d4]. apply IH; [lia|lia|].
    destruct HB as (B1 & B2 & B3 & B4). cbn [fst snd] in *.
    assert (HZ : (zz index < length coefs)%nat) by (rewrite B1; apply zz_lt; lia).
    repeat split; cbn [fst snd].
    + rewrite list_set_length. exact B1.
    + apply list_set_forall; [exact B2|]. destruct s; lia.
    + symmetry. apply list_set_nonzero; [exact HZ|]. destruct s; lia.
    + intros HT. rewrite nth_list_set by exact HZ. destruct (Nat.eqb_spec 0 (zz index)) as [E|E]; [|apply B4, HT].
      exfalso. unfold first_index in HF. rewrite HT in HF. cbn in HF.
      change 0%nat with (zz 0) in E. apply zz_inj in E; lia.
Qed.

Lemma parse_tokens_ok prob type ctx d : block_ok type (fst (parse_tokens prob type ctx (repeat 0 16) false d)).
Proof.
  unfold parse_tokens. apply parse_loop_ok.
  - unfold first_index. destruct (type =? Y_after_Y2); lia.
  - lia.
  - unfold block_ok. cbn [fst snd]. split; [reflexivity|]. split; [|split; reflexivity].
    apply Forall_forall. intros x Hx. apply repeat_spec in Hx. subst. lia.
Qed.

(** ** Too large coefficients *)
Lemma value_events_large p c : 2114 < Z.abs c -> value_events p c = None.
Proof.
  intros H. unfold value_events.
  change (base_value token_decoder_1) with 7. change (upper_limit token_decoder_1) with 11.
  change (upper_limit token_decoder_2) with 19. change (upper_limit token_decoder_3) with 35.
  change (upper_limit token_decoder_4) with 67. change (upper_limit token_decoder_5) with 2115.
  set (v := Z.abs c) in *. clearbody v.
  repeat match goal with
  | |- context [?a =? ?b] => destruct (Z.eqb_spec a b); [lia|]
  | |- context [?a <? ?b] => destruct (Z.ltb_spec a b); [lia|]
  end. reflexivity.
Qed.

Lemma ser_loop_large prob coefs n : forall index ctx lwz k,
  (index <= k < index + n)%nat -> 2114 < Z.abs (nth (zz k) coefs 0) -> ser_loop prob coefs n index ctx lwz = None.
Proof.
  induction n as [|n IH]; intros index ctx lwz k Hk HC; [lia|]. cbn [ser_loop].
  destruct (Nat.eq_dec k index) as [->|N].
  - destruct (Z.eqb_spec (nth (zz index) coefs 0) 0); [lia|]. rewrite value_events_large by exact HC. reflexivity.
  - destruct (nth (zz index) coefs 0 =? 0).
    + rewrite (IH _ _ _ k) by (lia || exact HC). reflexivity.
    + destruct (value_events _ _) as [[ve c1]|]; [|reflexivity]. rewrite (IH _ _ _ k) by (lia || exact HC). reflexivity.
Qed.

Lemma serialize_tokens_large prob type ctx coefs k : length coefs = 16%nat -> (k < 16)%nat ->
  (type = Y_after_Y2 -> k <> 0%nat) -> 2114 < Z.abs (nth k coefs 0) -> serialize_tokens prob type ctx coefs = None.
Proof.
  intros HL Hk HT HC. destruct (zz_surj k Hk) as (j & Hj & <-).
  unfold serialize_tokens. set (s := first_index type).
  assert (Hs : (s <= j)%nat).
  { subst s. unfold first_index. destruct (Z.eqb_spec type Y_after_Y2); [|lia].
    destruct j; [exfalso; apply HT; [assumption|reflexivity]|lia]. }
  rewrite (ser_loop_large _ _ _ _ _ _ j); [reflexivity| |exact HC].
  split; [exact Hs|]. unfold coded_length. fold s.
  assert (G : forall n index acc, (index <= j < index + n)%nat -> (j < coded_length_from n index coefs acc)%nat).
  { clear -HC. induction n as [|n IH]; intros index acc H; [lia|]. cbn [coded_length_from].
    destruct (Nat.eq_dec j index) as [->|N].
    - destruct (Z.eqb_spec (nth (zz index) coefs 0) 0) as [E|E]; [lia|].
      assert (M : forall n i a, (a <= coded_length_from n i coefs a \/ i < coded_length_from n i coefs a)%nat).
      { clear. induction n as [|n IH]; intros i a; cbn; [left; lia|].
        destruct (IH (S i) (if nth (zz i) coefs 0 =? 0 then a else S i)); destruct (nth (zz i) coefs 0 =? 0); lia. }
      destruct (M n (S index) (S index)); lia.
    - apply IH. lia. }
  specialize (G (16 - s)%nat s 0%nat ltac:(lia)). lia.
Qed.
