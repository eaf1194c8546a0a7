(** Proofs about the boolean entropy coder model. *)
From Verif Require Import Base BoolCoderModel.

(** Evaluate powers of two with literal exponents. *)
Ltac pows :=
  repeat match goal with
  | |- context [Z.pow 2 ?n] => let v := eval compute in (Z.pow 2 n) in change (Z.pow 2 n) with v
  | H : context [Z.pow 2 ?n] |- _ => let v := eval compute in (Z.pow 2 n) in change (Z.pow 2 n) with v in H
  end.

Definition prob_ok (p : Z) : Prop := 0 <= p < 256.
Definition event_ok (ev : event) : Prop := prob_ok (snd ev).

(** Value of a reversed byte string as a big-endian integer. *)
Fixpoint numr (l : list Z) : Z :=
  match l with
  | [] => 0
  | b :: r => b + 256 * numr r
  end.

(** ** The arithmetic of one step *)

Definition split_of (r p : Z) : Z := 1 + ((r - 1) * p) / 256.

Lemma split_bounds r p : 128 <= r <= 255 -> prob_ok p -> 1 <= split_of r p <= r - 1.
Proof. unfold split_of, prob_ok. intros. nia. Qed.

Lemma split_model r p : 128 <= r <= 255 -> prob_ok p ->
  wrap 32 (1 + Z.shiftr (wrap 32 ((r - 1) * p)) 8) = split_of r p.
Proof.
  intros Hr Hp. pose proof (split_bounds r p Hr Hp) as Hb. unfold split_of, prob_ok, wrap in *.
  rewrite Z.shiftr_div_pow2 by lia. change (2^8) with 256. change (2^32) with 4294967296.
  rewrite (Z.mod_small ((r-1)*p)) by nia. rewrite Z.mod_small; nia.
Qed.

Lemma norm_bounds r : 1 <= r <= 255 ->
  0 <= vp8_norm r <= 7 /\ 128 <= r * 2 ^ vp8_norm r <= 255.
Proof.
  intros H. unfold vp8_norm.
  repeat match goal with |- context [if ?b then _ else _] => destruct b eqn:? end; cbn; lia.
Qed.

(** Ideal encoder: exact integers, no output buffer. [V] is the low end of
    the interval, [r] its width, [T] the number of shifts so far. *)
Definition istate : Type := (Z * Z * Z)%type.
Definition istep (s : istate) (ev : event) : istate :=
  let '(V, r, T) := s in
  let '(b, p) := ev in
  let sp := split_of r p in
  let V2 := if b : bool then V + sp else V in
  let r2 := if b then r - sp else sp in
  let sh := vp8_norm r2 in
  (V2 * 2 ^ sh, r2 * 2 ^ sh, T + sh).
Definition irun (s : istate) (evs : list event) : istate := fold_left istep evs s.

Definition ival (e : benc) : Z := numr (be_out e) * 2 ^ (32 + be_bc e) + be_bottom e.
Definition istate_of (e : benc) : istate :=
  (ival e, be_range e, 8 * zlen (be_out e) + 24 + be_bc e).

Record binv (e : benc) : Prop := {
  bi_out : bytes_ok (be_out e);
  bi_range : 128 <= be_range e <= 255;
  bi_bc : -24 <= be_bc e <= -1;
  bi_bot : 0 <= be_bottom e;
  bi_top : be_bottom e + be_range e <= 2 ^ (33 + be_bc e);
  bi_all : ival e + be_range e <= 256 ^ zlen (be_out e) * 2 ^ (32 + be_bc e)
}.

Lemma binv_init : binv benc_init.
Proof. constructor; cbn; try lia. constructor. Qed.

Lemma numr_bounds l : bytes_ok l -> 0 <= numr l < 256 ^ zlen l.
Proof.
  induction 1 as [|b l Hb Hl IH]; cbn [numr]; [cbn; lia|].
  unfold zlen in *. cbn [length]. rewrite Nat2Z.inj_succ, Z.pow_succ_r by lia. unfold byte_ok in Hb. lia.
Qed.

Lemma add_one_ok l : bytes_ok l -> numr l + 1 < 256 ^ zlen l ->
  exists l', add_one l = Some l' /\ bytes_ok l' /\ length l' = length l /\ numr l' = numr l + 1.
Proof.
  induction 1 as [|b l Hb Hl IH]; intros Hn.
  - cbn in Hn. lia.
  - cbn [add_one numr] in *. destruct (b =? 255) eqn:E.
    + assert (b = 255) by lia. subst b.
      destruct l as [|c l0].
      * cbn in Hn. lia.
      * assert (Hlt : numr (c :: l0) + 1 < 256 ^ zlen (c :: l0)).
        { unfold zlen in *. change (length (255 :: c :: l0)) with (S (length (c :: l0))) in Hn.
          rewrite Nat2Z.inj_succ, Z.pow_succ_r in Hn by lia. lia. }
        destruct (IH Hlt) as (l' & E' & Hok & Hlen & Hnum). rewrite E'.
        exists (0 :: l'). split; [reflexivity|]. split; [constructor; [unfold byte_ok; lia|assumption]|].
        split; [cbn [length] in *; lia|]. cbn [numr] in *. lia.
    + exists (wrap 8 (b + 1) :: l). unfold byte_ok in Hb.
      assert (wrap 8 (b+1) = b + 1) as -> by (unfold wrap; change (2^8) with 256; apply Z.mod_small; lia).
      split; [reflexivity|]. split; [constructor; [unfold byte_ok; lia|assumption]|].
      split; [reflexivity|]. cbn [numr]. lia.
Qed.

Lemma wrap_small k x : 0 <= x < 2 ^ k -> wrap k x = x.
Proof. intros. unfold wrap. apply Z.mod_small; assumption. Qed.

Lemma land_bit31 x : 0 <= x < 2^32 ->
  negb (Z.land x 2147483648 =? 0) = (2147483648 <=? x).
Proof.
  intros Hx.
  destruct (Z.testbit x 31) eqn:T.
  - assert (Z.land x 2147483648 <> 0).
    { intro E. assert (Z.testbit (Z.land x 2147483648) 31 = false) by (rewrite E; apply Z.testbit_0_l).
      rewrite Z.land_spec, T in H. discriminate H. }
    assert (2147483648 <= x).
    { rewrite Z.testbit_eqb in T by lia. change (2^31) with 2147483648 in T. change (2^32) with 4294967296 in Hx. lia. }
    lia.
  - assert (Z.land x 2147483648 = 0).
    { apply Z.bits_inj'. intros n Hn. rewrite Z.land_spec, Z.testbit_0_l.
      change 2147483648 with (2^31). destruct (Z.eq_dec n 31) as [->|N].
      - rewrite T. reflexivity.
      - rewrite Z.pow2_bits_false by lia. apply andb_false_r. }
    assert (x < 2147483648).
    { rewrite Z.testbit_eqb in T by lia. change (2^31) with 2147483648 in T. change (2^32) with 4294967296 in Hx. lia. }
    lia.
Qed.

Lemma land_mask24 x : 0 <= x -> Z.land x 16777215 = x mod 16777216.
Proof. intros. change 16777215 with (Z.ones 24). rewrite Z.land_ones by lia. reflexivity. Qed.

Lemma shl_mul a n : 0 <= n -> Z.shiftl a n = a * 2 ^ n.
Proof. intros. apply Z.shiftl_mul_pow2. assumption. Qed.

Lemma bput_ok e ev : binv e -> event_ok ev ->
  exists e', bput e ev = Some e' /\ binv e' /\ istate_of e' = istep (istate_of e) ev.
Proof.
  intros [Hout Hr Hc Hb0 Ht Ha] Hp. destruct ev as [b p]. unfold event_ok in Hp. cbn [snd] in Hp.
  destruct e as [out r bot c]. cbn [be_out be_range be_bottom be_bc] in *.
  unfold bput. cbn [be_out be_range be_bottom be_bc].
  rewrite (split_model r p Hr Hp).
  pose proof (split_bounds r p Hr Hp) as Hs. unfold istate_of, istep. cbn [be_out be_range be_bottom be_bc].
  set (sp := split_of r p) in *. clearbody sp.
  unfold ival in *. cbn [be_out be_range be_bottom be_bc] in *.
  assert (P33 : 2 ^ (33 + c) <= 4294967296).
  { change 4294967296 with (2^32). apply Z.pow_le_mono_r; lia. }
  assert (HB2 : (if b then wrap 32 (bot + sp) else bot) = if b then bot + sp else bot).
  { destruct b; [|reflexivity]. apply wrap_small. change (2^32) with 4294967296. lia. }
  assert (HR2 : (if b then wrap 32 (r - sp) else sp) = if b then r - sp else sp).
  { destruct b; [|reflexivity]. apply wrap_small. change (2^32) with 4294967296. lia. }
  rewrite HB2, HR2. clear HB2 HR2.
  assert (HV : (if b then numr out * 2 ^ (32 + c) + bot + sp else numr out * 2 ^ (32 + c) + bot)
               = numr out * 2 ^ (32 + c) + (if b then bot + sp else bot)) by (destruct b; lia).
  rewrite HV. clear HV.
  set (bot2 := if b then bot + sp else bot).
  set (r2 := if b then r - sp else sp).
  assert (Hr2 : 1 <= r2 <= 255) by (subst r2; destruct b; lia).
  assert (Hbr : bot <= bot2 /\ bot2 + r2 <= bot + r) by (subst r2 bot2; destruct b; lia).
  clearbody bot2 r2.
  destruct (norm_bounds r2 Hr2) as [Hsh Hnr].
  set (sh := vp8_norm r2) in *. clearbody sh.
  assert (E1 : wrap 32 (Z.shiftl r2 sh) = r2 * 2 ^ sh).
  { rewrite shl_mul by lia. apply wrap_small. change (2^32) with 4294967296. lia. }
  rewrite E1.
  destruct (0 <=? c + sh) eqn:EC.
  - (* a byte is emitted *)
    pose proof (numr_bounds out Hout) as Hnum.
    assert (Hall2 : numr out * 2 ^ (32 + c) + bot2 + r2 <= 256 ^ zlen out * 2 ^ (32 + c)) by lia.
    assert (Hoff : sh - (c + sh) = - c) by lia. rewrite Hoff.
    assert (HC : c = -7 \/ c = -6 \/ c = -5 \/ c = -4 \/ c = -3 \/ c = -2 \/ c = -1) by lia.
    assert (HS : sh = 1 \/ sh = 2 \/ sh = 3 \/ sh = 4 \/ sh = 5 \/ sh = 6 \/ sh = 7) by lia.
    assert (W1 : wrap 32 (Z.shiftl bot2 (- c - 1)) = bot2 * 2 ^ (- c - 1)).
    { rewrite shl_mul by lia. apply wrap_small. split.
      - apply Z.mul_nonneg_nonneg; [lia|]. apply Z.pow_nonneg; lia.
      - clear - HC Ht Hbr Hr2. destruct HC as [->|[->|[->|[->|[->|[->| ->]]]]]]; cbn in *; lia. }
    rewrite W1. rewrite land_bit31.
    2:{ rewrite <- W1. unfold wrap. apply Z.mod_pos_bound. lia. }
    assert (CAR : (2147483648 <=? bot2 * 2 ^ (- c - 1)) = (2 ^ (32 + c) <=? bot2)).
    { clear - HC Ht Hbr Hr2. destruct HC as [->|[->|[->|[->|[->|[->| ->]]]]]]; cbn in *; lia. }
    rewrite CAR.
    assert (OUT : exists out', (if 2 ^ (32 + c) <=? bot2 then add_one out else Some out) = Some out' /\
        bytes_ok out' /\ length out' = length out /\
        numr out' = numr out + bot2 / 2 ^ (32 + c)).
    { destruct (2 ^ (32 + c) <=? bot2) eqn:EK.
      - assert (bot2 / 2 ^ (32 + c) = 1) as ->.
        { clear - HC Ht Hbr Hr2 EK. destruct HC as [->|[->|[->|[->|[->|[->| ->]]]]]]; cbn in *; lia. }
        apply add_one_ok; [assumption|].
        clear - HC Hall2 EK Hr2. destruct HC as [->|[->|[->|[->|[->|[->| ->]]]]]]; cbn in *; lia.
      - exists out. repeat split; try assumption.
        rewrite Z.div_small; lia. }
    destruct OUT as (out' & EO & Hok' & Hlen' & Hnum'). rewrite EO.
    eexists. split; [reflexivity|].
    assert (HZ : zlen (wrap 8 (Z.shiftr bot2 (24 - - c)) :: out') = zlen out + 1).
    { unfold zlen. cbn [length]. rewrite Hlen'. lia. }
    assert (Hbyte : byte_ok (wrap 8 (Z.shiftr bot2 (24 - - c)))).
    { unfold byte_ok, wrap. apply Z.mod_pos_bound. lia. }
    assert (EV : 256 ^ (zlen out + 1) = 256 * 256 ^ zlen out).
    { rewrite Z.add_1_r, Z.pow_succ_r; unfold zlen; lia. }
    assert (BOT : wrap 32 (Z.shiftl (Z.land (wrap 32 (Z.shiftl bot2 (- c))) 16777215) (c + sh))
                  = (bot2 mod 2 ^ (24 + c)) * 2 ^ sh).
    { rewrite land_mask24 by (unfold wrap; apply Z.mod_pos_bound; lia).
      rewrite shl_mul, shl_mul by lia. unfold wrap.
      clear - HC HS Hbr Hb0 EC. 
      destruct HC as [->|[->|[->|[->|[->|[->| ->]]]]]];
      destruct HS as [->|[->|[->|[->|[->|[->| ->]]]]]]; try (exfalso; lia);
      pows; lia. }
    assert (BYTE : wrap 8 (Z.shiftr bot2 (24 - - c)) = (bot2 / 2 ^ (24 + c)) mod 256).
    { rewrite Z.shiftr_div_pow2 by lia. unfold wrap. change (2^8) with 256. do 3 f_equal. lia. }
    assert (VAL : numr (wrap 8 (Z.shiftr bot2 (24 - - c)) :: out') * 2 ^ (32 + (c + sh - 8)) +
                  wrap 32 (Z.shiftl (Z.land (wrap 32 (Z.shiftl bot2 (- c))) 16777215) (c + sh))
                  = (numr out * 2 ^ (32 + c) + bot2) * 2 ^ sh).
    { rewrite BOT, BYTE. cbn [numr]. rewrite Hnum'.
      replace (32 + (c + sh - 8)) with ((24 + c) + sh) by lia.
      rewrite (Z.pow_add_r 2 (24 + c) sh) by lia.
      replace (32 + c) with (8 + (24 + c)) by lia. rewrite (Z.pow_add_r 2 8 (24 + c)) by lia.
      change (2^8) with 256.
      assert (P : 0 < 2 ^ (24 + c)) by (apply Z.pow_pos_nonneg; lia).
      rewrite <- (Z.mul_comm (2 ^ (24 + c)) 256). rewrite <- Z.div_div by lia.
      pose proof (Z.div_mod bot2 (2 ^ (24 + c)) ltac:(lia)) as D1.
      set (q := bot2 / 2 ^ (24 + c)) in *.
      pose proof (Z.div_mod q 256 ltac:(lia)) as D2.
      set (m := bot2 mod 2 ^ (24 + c)) in *. set (qq := q / 256) in *. set (qm := q mod 256) in *.
      clearbody m qq qm. rewrite D1. clearbody q. rewrite D2. ring. }
    split.
    + constructor; unfold ival; cbn [be_out be_range be_bottom be_bc].
      * constructor; assumption.
      * lia.
      * lia.
      * unfold wrap. apply Z.mod_pos_bound. lia.
      * rewrite BOT. clear - HC HS EC Hnr.
        pose proof (Z.mod_pos_bound bot2 (2 ^ (24 + c)) ltac:(apply Z.pow_pos_nonneg; lia)).
        destruct HC as [->|[->|[->|[->|[->|[->| ->]]]]]];
        destruct HS as [->|[->|[->|[->|[->|[->| ->]]]]]]; try (exfalso; lia); cbn in *; lia.
      * rewrite VAL, HZ, EV.
        replace (32 + (c + sh - 8)) with ((24 + c) + sh) by lia.
        rewrite (Z.pow_add_r 2 (24 + c) sh) by lia.
        replace (32 + c) with (8 + (24 + c)) in * by lia. rewrite (Z.pow_add_r 2 8 (24 + c)) in * by lia.
        change (2^8) with 256 in *.
        assert (P : 0 < 2 ^ sh) by (apply Z.pow_pos_nonneg; lia).
        rewrite <- Z.mul_add_distr_r.
        rewrite (Z.mul_assoc (256 * 256 ^ zlen out)). apply Z.mul_le_mono_nonneg_r; lia.
    + unfold ival. cbn [be_out be_range be_bottom be_bc]. rewrite VAL, HZ.
      f_equal. lia.
  - (* no byte is emitted *)
    eexists. split; [reflexivity|].
    assert (P : 0 < 2 ^ sh) by (apply Z.pow_pos_nonneg; lia).
    assert (E33 : 2 ^ (33 + (c + sh)) = 2 ^ (33 + c) * 2 ^ sh).
    { rewrite <- Z.pow_add_r by lia. f_equal; lia. }
    assert (E32 : 2 ^ (32 + (c + sh)) = 2 ^ (32 + c) * 2 ^ sh).
    { rewrite <- Z.pow_add_r by lia. f_equal; lia. }
    assert (M : bot2 * 2 ^ sh + r2 * 2 ^ sh <= 2 ^ (33 + c) * 2 ^ sh).
    { rewrite <- Z.mul_add_distr_r. apply Z.mul_le_mono_nonneg_r; lia. }
    assert (BOT : wrap 32 (Z.shiftl bot2 sh) = bot2 * 2 ^ sh).
    { rewrite shl_mul by lia. apply wrap_small. split; [apply Z.mul_nonneg_nonneg; lia|].
      assert (2 ^ (33 + (c + sh)) <= 2^32) by (apply Z.pow_le_mono_r; lia). lia. }
    rewrite BOT.
    assert (VAL : numr out * 2 ^ (32 + (c + sh)) + bot2 * 2 ^ sh = (numr out * 2 ^ (32 + c) + bot2) * 2 ^ sh).
    { rewrite E32. ring. }
    split.
    + constructor; unfold ival; cbn [be_out be_range be_bottom be_bc]; try assumption; try lia.
      * apply Z.mul_nonneg_nonneg; lia.
      * rewrite VAL, E32. rewrite <- Z.mul_add_distr_r.
        rewrite (Z.mul_assoc (256 ^ zlen out)). apply Z.mul_le_mono_nonneg_r; lia.
    + unfold ival. cbn [be_out be_range be_bottom be_bc]. rewrite VAL. f_equal. lia.
Qed.

Lemma bputs_ok evs : forall e, binv e -> Forall event_ok evs ->
  exists e', bputs e evs = Some e' /\ binv e' /\ istate_of e' = irun (istate_of e) evs.
Proof.
  induction evs as [|ev evs IH]; intros e Hi Hok.
  - exists e. repeat split; try apply Hi.
  - inversion_clear Hok as [|? ? H1 H2].
    destruct (bput_ok e ev Hi H1) as (e1 & E1 & I1 & S1).
    destruct (IH e1 I1 H2) as (e2 & E2 & I2 & S2).
    exists e2. cbn [bputs]. rewrite E1. split; [assumption|]. split; [assumption|].
    cbn [irun fold_left]. rewrite <- S1. exact S2.
Qed.

