(** C67: the encoder's counts of the bits coded with each token probability. *)
From Verif Require Import Base BoolCoderModel ParserModel TokenModel TokenProofs MVModel MBModel FrameModel FrameProofs SearchModel CountsModel.
From Verif Require Import PropSearch PropResidue.

(** A table that has, instead of probabilities, the numbers of its entries. The
    fixed probabilities of the writer are below 1000. *)
Definition label_table : list Z := map (fun k => 1000 + Z.of_nat k) (seq 0 (Z.to_nat 1056)).

(** How often the bit [b] is written with entry [i] of the table. *)
Definition writes (evs : list event) (i : Z) (b : bool) : Z :=
  zlen (filter (fun '(x, p) => (p =? 1000 + i) && Bool.eqb x b) evs).

Definition counted (counts : branch_counts) (i : Z) (b : bool) : Z :=
  let '(f, t) := nth (Z.to_nat i) counts (0, 0) in if b then t else f.

(** The bits one after the other. *)
Definition tally1 (c : branch_counts) (e : event) : branch_counts := if snd e <? 1000 then c else bump c (snd e - 1000) (fst e).
Definition tally (evs : list event) (c : branch_counts) : branch_counts := fold_left tally1 evs c.

Definition counts_ok (c : branch_counts) : Prop := length c = Z.to_nat 1056 /\ Forall (fun '(f, t) => 0 <= f < 2 ^ 32 /\ 0 <= t < 2 ^ 32) c.

Lemma tally_app a b c : tally (a ++ b) c = tally b (tally a c).
Proof. apply fold_left_app. Qed.

Lemma label_at i : 0 <= i < 1056 -> nth (Z.to_nat i) label_table 0 = 1000 + i.
Proof.
  intros H. unfold label_table. rewrite (nth_indep _ 0 (1000 + Z.of_nat 0)) by (rewrite map_length, seq_length; lia).
  rewrite (map_nth (fun k => 1000 + Z.of_nat k)), seq_nth by lia. lia.
Qed.

Lemma label_prob type band ctx node : 0 <= type < 4 -> 0 <= band < 8 -> 0 <= ctx < 3 -> 0 <= node < 11 ->
  coeff_prob label_table type band ctx node = 1000 + (count_index type band ctx 0 + node).
Proof. intros. unfold coeff_prob, count_index. rewrite label_at by lia. lia. Qed.

Lemma tally_bump b p i l c : p = 1000 + i -> 0 <= i -> tally ((b, p) :: l) c = tally l (bump c i b).
Proof. intros -> H. unfold tally. cbn [fold_left]. unfold tally1 at 2. cbn [fst snd]. replace (1000 + i <? 1000) with false by lia. f_equal. f_equal. lia. Qed.
Lemma tally_fixed b p l c : p < 1000 -> tally ((b, p) :: l) c = tally l c.
Proof. intros H. unfold tally. cbn [fold_left]. unfold tally1 at 2. cbn [fst snd]. replace (p <? 1000) with true by lia. reflexivity. Qed.
Lemma tally_td ps : Forall (fun p => p < 1000) ps -> forall v l c, tally (td_bit_events ps v ++ l) c = tally l c.
Proof.
  induction ps as [|p ps IH]; intros F v l c; [reflexivity|]. inversion F; subst. cbn [td_bit_events app].
  rewrite tally_fixed by assumption. apply IH. assumption.
Qed.

Lemma count_value_tally type band ctx x : 0 <= type < 4 -> 0 <= band < 8 -> 0 <= ctx < 3 -> x <> 0 ->
  forall c, count_value (count_index type band ctx 0) (Z.abs x) c =
  option_map (fun '(ve, ctx1) => (tally ((true, coeff_prob label_table type band ctx 1) :: ve) c, ctx1)) (value_events (coeff_prob label_table type band ctx) x).
Proof.
  intros Ht Hb Hc Nz c. pose proof (label_prob type band ctx) as L.
  assert (Hi : 0 <= count_index type band ctx 0) by (unfold count_index; lia).
  set (base := count_index type band ctx 0) in *.
  assert (T : forall b n l c, 0 <= n < 11 -> tally ((b, coeff_prob label_table type band ctx n) :: l) c = tally l (bump c (base + n) b)).
  { intros b n l c' Hn. apply tally_bump; [apply L; assumption|lia]. }
  assert (F1 : Forall (fun p => p < 1000) (snd token_decoder_1)) by (repeat constructor).
  assert (F2 : Forall (fun p => p < 1000) (snd token_decoder_2)) by (repeat constructor).
  assert (F3 : Forall (fun p => p < 1000) (snd token_decoder_3)) by (repeat constructor).
  assert (F4 : Forall (fun p => p < 1000) (snd token_decoder_4)) by (repeat constructor).
  assert (F5 : Forall (fun p => p < 1000) (snd token_decoder_5)) by (repeat constructor).
  unfold count_value, value_events, td_events. cbv zeta.
  generalize dependent (coeff_prob label_table type band ctx). intros pr L T.
  repeat match goal with
  | |- context [if ?x then _ else _] => destruct x
  end; cbn [option_map app]; try reflexivity; f_equal; f_equal;
  repeat (rewrite T by lia); rewrite ?app_comm_cons, <- ?app_assoc; rewrite ?tally_td by assumption; repeat (rewrite tally_fixed by lia); try reflexivity.
Qed.

Lemma band_bounds i : 0 <= band_of i < 8.
Proof. unfold band_of. do 16 (destruct i as [|i]; [cbn; lia|]). cbn. destruct i; lia. Qed.

Lemma value_events_ctx prob x ve ctx : value_events prob x = Some (ve, ctx) -> 0 <= ctx < 3.
Proof.
  unfold value_events. intros H. destruct (Z.abs x =? 1); [apply some_eq, pair_equal_spec in H; lia|].
  match type of H with match ?m with _ => _ end = _ => destruct m; [|discriminate] end.
  apply some_eq, pair_equal_spec in H. lia.
Qed.

Lemma count_loop_tally type coefs : 0 <= type < 4 -> forall n index ctx lwz c, 0 <= ctx < 3 ->
  count_loop type coefs n index ctx lwz c =
  option_map (fun '(evs, ctx', lwz') => (tally evs c, ctx', lwz')) (ser_loop (coeff_prob label_table type) coefs n index ctx lwz).
Proof.
  intros Ht. induction n as [|n IH]; intros index ctx lwz c Hc; [reflexivity|].
  cbn [count_loop ser_loop]. cbv zeta. pose proof (band_bounds index) as Hb.
  assert (Hi : 0 <= count_index type (band_of index) ctx 0) by (unfold count_index; lia).
  set (x := nth (zz index) coefs 0) in *.
  set (c1 := if lwz then c else bump c (count_index type (band_of index) ctx 0) true).
  assert (E0 : forall l, tally ((if lwz then [] else [(true, coeff_prob label_table type (band_of index) ctx 0)]) ++ l) c = tally l c1).
  { intros l. unfold c1. destruct lwz; [reflexivity|]. cbn [app]. rewrite (tally_bump _ _ (count_index type (band_of index) ctx 0)); [reflexivity| |exact Hi].
    rewrite label_prob by lia. lia. }
  replace (Z.abs x =? 0) with (x =? 0) by lia. destruct (x =? 0) eqn:Ex.
  - rewrite IH by lia. destruct (ser_loop _ coefs n (S index) 0 true) as [[[evs c'] l']|]; cbn [option_map]; [|reflexivity].
    f_equal. f_equal. f_equal. rewrite E0. cbn [app]. symmetry. apply tally_bump; [apply label_prob; lia|lia].
  - rewrite count_value_tally by lia. destruct (value_events _ x) as [[ve cx]|] eqn:Ev; cbn [option_map]; [|reflexivity].
    apply value_events_ctx in Ev. rewrite IH by exact Ev. destruct (ser_loop _ coefs n (S index) cx false) as [[[evs c'] l']|]; cbn [option_map]; [|reflexivity].
    f_equal. f_equal. f_equal. rewrite E0, app_assoc, tally_app. reflexivity.
Qed.

Lemma ser_loop_ctx prob coefs : forall n index ctx lwz evs ctx' lwz', 0 <= ctx < 3 -> ser_loop prob coefs n index ctx lwz = Some (evs, ctx', lwz') -> 0 <= ctx' < 3.
Proof.
  induction n as [|n IH]; intros index ctx lwz evs ctx' lwz' Hc E; cbn [ser_loop] in E; [apply some_eq, pair_equal_spec in E; destruct E as [E _]; apply pair_equal_spec in E; lia|].
  destruct (_ =? 0) in E.
  - destruct (ser_loop prob coefs n (S index) 0 true) as [[[e c] l]|] eqn:Er in E; [|discriminate].
    apply some_eq, pair_equal_spec in E. destruct E as [E _]. apply pair_equal_spec in E. destruct E as [_ <-]. apply IH in Er; [exact Er|lia].
  - destruct (value_events _ _) as [[ve cx]|] eqn:Ev in E; [|discriminate]. apply value_events_ctx in Ev.
    destruct (ser_loop prob coefs n (S index) cx false) as [[[e c] l]|] eqn:Er in E; [|discriminate].
    apply some_eq, pair_equal_spec in E. destruct E as [E _]. apply pair_equal_spec in E. destruct E as [_ <-]. apply IH in Er; [exact Er|lia].
Qed.

Lemma count_block_tally type ctx coefs c : 0 <= type < 4 -> 0 <= ctx < 3 ->
  count_block type ctx coefs c = option_map (fun evs => tally evs c) (serialize_tokens (coeff_prob label_table type) type ctx coefs).
Proof.
  intros Ht Hc. unfold count_block, serialize_tokens. cbv zeta. rewrite count_loop_tally by assumption.
  destruct (ser_loop _ coefs _ _ ctx false) as [[[evs cx] l]|] eqn:E; cbn [option_map]; [|reflexivity].
  destruct l; [reflexivity|]. apply ser_loop_ctx in E; [|exact Hc].
  destruct (coded_length type coefs <? 16)%nat; [|reflexivity]. cbn [option_map]. f_equal.
  set (b := band_of _). pose proof (band_bounds (Nat.max (coded_length type coefs) (first_index type))) as Hb. fold b in Hb.
  rewrite tally_app, (tally_bump _ _ (count_index type b cx 0)); [reflexivity| |unfold count_index; lia].
  rewrite label_prob by lia. lia.
Qed.

Lemma counted_bump c i j b b' : length c = Z.to_nat 1056 -> 0 <= i < 1056 -> 0 <= j ->
  counted (bump c j b') i b = if (j =? i) && Bool.eqb b' b then wrap 32 (counted c i b + 1) else counted c i b.
Proof.
  intros L Hi Hj. unfold counted, bump. destruct (nth (Z.to_nat j) c (0, 0)) as [f t] eqn:E.
  destruct (Z.eqb_spec j i) as [->|N]; cbn [andb].
  - rewrite nth_set_nth_eq by lia. rewrite E. destruct b, b'; reflexivity.
  - destruct (Z.to_nat j <? length c)%nat eqn:Hl.
    + rewrite nth_set_nth_ne by lia. reflexivity.
    + replace (set_nth c (Z.to_nat j) (if b' then (f, wrap 32 (t + 1)) else (wrap 32 (f + 1), t))) with c; [reflexivity|].
      symmetry. generalize (if b' then (f, wrap 32 (t + 1)) else (wrap 32 (f + 1), t)). intros v. assert (Hl' : (length c <= Z.to_nat j)%nat) by lia. clear -Hl'.
      revert Hl'. generalize (Z.to_nat j). induction c as [|x c IH]; intros n H; [destruct n; reflexivity|]. cbn [length] in H. destruct n; [lia|]. cbn [set_nth]. f_equal. apply IH. lia.
Qed.

Lemma set_nth_length' {A} (l : list A) : forall k v, length (set_nth l k v) = length l.
Proof. induction l as [|x l IH]; intros [|k] v; cbn [set_nth length]; auto. Qed.

Lemma bump_ok c i b : counts_ok c -> counts_ok (bump c i b).
Proof.
  intros [L F]. unfold bump. destruct (nth (Z.to_nat i) c (0, 0)) as [f t] eqn:E. split; [rewrite set_nth_length'; exact L|].
  assert (R : 0 <= f < 2 ^ 32 /\ 0 <= t < 2 ^ 32).
  { destruct (nth_in_or_default (Z.to_nat i) c (0, 0)) as [I|D]; [|rewrite E in D; apply pair_equal_spec in D; destruct D; subst; lia].
    rewrite E in I. rewrite Forall_forall in F. exact (F _ I). }
  set (v := if b then _ else _). assert (Rv : let '(f, t) := v in 0 <= f < 2 ^ 32 /\ 0 <= t < 2 ^ 32).
  { unfold v, wrap. destruct b; split; try apply R; apply Z.mod_pos_bound; lia. }
  clear E. revert Rv. generalize v. clear -F. revert F. generalize (Z.to_nat i). induction c as [|x c IH]; intros n F v Hv; [constructor|].
  inversion F; subst. destruct n; cbn [set_nth]; constructor; auto.
Qed.

Lemma tally_ok evs : forall c, counts_ok c -> counts_ok (tally evs c).
Proof.
  induction evs as [|e evs IH]; intros c H; [exact H|]. unfold tally in *. cbn [fold_left]. apply IH. unfold tally1.
  destruct (snd e <? 1000); [exact H|apply bump_ok; exact H].
Qed.

Lemma counted_range c i b : counts_ok c -> 0 <= counted c i b < 2 ^ 32.
Proof.
  intros [L F]. unfold counted. destruct (nth_in_or_default (Z.to_nat i) c (0, 0)) as [I|D]; [|rewrite D; destruct b; lia].
  rewrite Forall_forall in F. specialize (F _ I). destruct (nth (Z.to_nat i) c (0, 0)) as [f t]. destruct b; lia.
Qed.

Lemma writes_cons e evs i b : writes (e :: evs) i b = (if (snd e =? 1000 + i) && Bool.eqb (fst e) b then 1 else 0) + writes evs i b.
Proof.
  unfold writes. cbn [filter]. destruct e as [x p]. cbn [fst snd]. destruct (_ && _); [|lia]. unfold zlen. cbn [length]. lia.
Qed.
Lemma writes_app a b i x : writes (a ++ b) i x = writes a i x + writes b i x.
Proof. induction a as [|e a IH]; [reflexivity|]. cbn [app]. rewrite !writes_cons, IH. lia. Qed.
Lemma writes_nonneg evs i b : 0 <= writes evs i b.
Proof. unfold writes, zlen. lia. Qed.

Lemma counted_tally evs : forall c i b, counts_ok c -> 0 <= i < 1056 -> counted (tally evs c) i b = wrap 32 (counted c i b + writes evs i b).
Proof.
  induction evs as [|e evs IH]; intros c i b H Hi.
  - cbn. rewrite Z.add_0_r. unfold wrap. symmetry. apply Z.mod_small. apply counted_range. exact H.
  - rewrite writes_cons. unfold tally in *. cbn [fold_left]. rewrite IH; [|unfold tally1; destruct (snd e <? 1000); [exact H|apply bump_ok; exact H]|exact Hi].
    unfold tally1. destruct (snd e <? 1000) eqn:E.
    + replace (snd e =? 1000 + i) with false by lia. reflexivity.
    + rewrite counted_bump by (try lia; apply H). replace (snd e - 1000 =? i) with (snd e =? 1000 + i) by lia.
      destruct (_ && _); [|f_equal; lia]. unfold wrap. rewrite Z.add_mod_idemp_l by lia. f_equal. lia.
Qed.

Lemma no_counts_ok : counts_ok no_counts.
Proof. split; [apply repeat_length|]. apply Forall_forall. intros x Hx. apply repeat_spec in Hx. subst. lia. Qed.
Lemma counted_none i b : counted no_counts i b = 0.
Proof. unfold counted, no_counts. rewrite nth_repeat. destruct b; reflexivity. Qed.

(** * One block *)

(** What is counted for a block is what the block is written with. *)
Theorem C67_block :
  forall type ctx coefs counts, 0 <= type < 4 -> 0 <= ctx < 3 -> counts_ok counts ->
  match count_block type ctx coefs counts, serialize_tokens (coeff_prob label_table type) type ctx coefs with
  | Some counts', Some evs => counts_ok counts' /\ forall i b, 0 <= i < 1056 -> counted counts' i b = wrap 32 (counted counts i b + writes evs i b)
  | None, None => True
  | _, _ => False
  end.
Proof.
  intros type ctx coefs counts Ht Hc H. rewrite count_block_tally by assumption.
  destruct (serialize_tokens _ _ _ _) as [evs|]; cbn [option_map]; [|exact I].
  split; [apply tally_ok; exact H|]. intros i b Hi. apply counted_tally; assumption.
Qed.

(** * A frame *)

(** An event of the table [label_table] with another table. *)
Definition use (tbl : list Z) (e : event) : event := (fst e, if snd e <? 1000 then snd e else nth (Z.to_nat (snd e - 1000)) tbl 0).

Lemma use_prob tbl type band ctx node : 0 <= type < 4 -> 0 <= band < 8 -> 0 <= ctx < 3 -> 0 <= node < 11 -> forall b,
  (b, coeff_prob tbl type band ctx node) = use tbl (b, coeff_prob label_table type band ctx node).
Proof.
  intros. rewrite label_prob by assumption. unfold use. cbn [fst snd]. f_equal. unfold coeff_prob, count_index.
  destruct (_ <? 1000) eqn:E; [lia|]. f_equal. lia.
Qed.
Lemma use_fixed tbl b p : p < 1000 -> use tbl (b, p) = (b, p).
Proof. intros H. unfold use. cbn [fst snd]. replace (p <? 1000) with true by lia. reflexivity. Qed.
Lemma use_td tbl ps : Forall (fun p => p < 1000) ps -> forall v, map (use tbl) (td_bit_events ps v) = td_bit_events ps v.
Proof.
  induction ps as [|p ps IH]; intros F v; [reflexivity|]. inversion F; subst. cbn [td_bit_events map]. rewrite use_fixed by assumption. f_equal. apply IH. assumption.
Qed.

Lemma value_events_use tbl pr pr' x : (forall n b, 0 <= n < 11 -> (b, pr' n) = use tbl (b, pr n)) ->
  value_events pr' x = option_map (fun '(ve, c) => (map (use tbl) ve, c)) (value_events pr x).
Proof.
  intros U.
  assert (F1 : Forall (fun p => p < 1000) (snd token_decoder_1)) by (repeat constructor).
  assert (F2 : Forall (fun p => p < 1000) (snd token_decoder_2)) by (repeat constructor).
  assert (F3 : Forall (fun p => p < 1000) (snd token_decoder_3)) by (repeat constructor).
  assert (F4 : Forall (fun p => p < 1000) (snd token_decoder_4)) by (repeat constructor).
  assert (F5 : Forall (fun p => p < 1000) (snd token_decoder_5)) by (repeat constructor).
  unfold value_events, td_events. cbv zeta. rewrite !(U 2), !(U 3), !(U 4), !(U 5), !(U 6), !(U 7), !(U 8), !(U 9), !(U 10) by lia.
  repeat match goal with
  | |- context [if ?x then _ else _] => destruct x
  end; cbn [option_map app map]; try reflexivity; f_equal; f_equal;
  rewrite ?map_app; cbn [map]; rewrite ?use_td by assumption; rewrite ?map_app; cbn [map]; rewrite ?use_td by assumption; rewrite ?(use_fixed tbl _ 128), ?(use_fixed tbl _ 159) by lia; reflexivity.
Qed.

Lemma ser_loop_use tbl type coefs : 0 <= type < 4 -> forall n index ctx lwz, 0 <= ctx < 3 ->
  ser_loop (coeff_prob tbl type) coefs n index ctx lwz =
  option_map (fun '(evs, c, l) => (map (use tbl) evs, c, l)) (ser_loop (coeff_prob label_table type) coefs n index ctx lwz).
Proof.
  intros Ht. induction n as [|n IH]; intros index ctx lwz Hc; [reflexivity|].
  cbn [ser_loop]. cbv zeta. pose proof (band_bounds index) as Hb.
  assert (U : forall n b, 0 <= n < 11 -> (b, coeff_prob tbl type (band_of index) ctx n) = use tbl (b, coeff_prob label_table type (band_of index) ctx n)).
  { intros k b Hk. apply use_prob; assumption. }
  rewrite (U 0 true), (U 1 true), (U 1 false) by lia. rewrite (value_events_use tbl _ _ _ U).
  destruct (_ =? 0).
  - rewrite IH by lia. destruct (ser_loop _ coefs n (S index) 0 true) as [[[evs c'] l']|]; cbn [option_map]; [|reflexivity].
    destruct lwz; reflexivity.
  - destruct (value_events _ _) as [[ve cx]|] eqn:Ev; cbn [option_map]; [|reflexivity].
    apply value_events_ctx in Ev. rewrite IH by exact Ev. destruct (ser_loop _ coefs n (S index) cx false) as [[[evs c'] l']|]; cbn [option_map]; [|reflexivity].
    rewrite !map_app. destruct lwz; reflexivity.
Qed.

Lemma serialize_use tbl type ctx coefs : 0 <= type < 4 -> 0 <= ctx < 3 ->
  serialize_tokens (coeff_prob tbl type) type ctx coefs = option_map (map (use tbl)) (serialize_tokens (coeff_prob label_table type) type ctx coefs).
Proof.
  intros Ht Hc. unfold serialize_tokens. cbv zeta. rewrite ser_loop_use by assumption.
  destruct (ser_loop _ coefs _ _ ctx false) as [[[evs cx] l]|] eqn:E; cbn [option_map]; [|reflexivity].
  destruct l; [reflexivity|]. apply ser_loop_ctx in E; [|exact Hc].
  destruct (coded_length type coefs <? 16)%nat; [|reflexivity]. cbn [option_map]. rewrite map_app. cbn [map].
  rewrite (use_prob tbl) by (try apply band_bounds; lia). reflexivity.
Qed.

(** The tokens of a macroblock without those of the Y2 block, whether or not
    they are written. *)
Definition mb_yuv_events (tbl : list Z) (W : nat) (cs : list mbcoef) (i : nat) (m : mbinfo) (c : mbcoef) : option (list event) :=
  let a := above_of W cs i in
  let l := left_of W cs i in
  oapp (plane_events tbl (y_type m) 4 (option_map co_y a) (option_map co_y l) (co_y c))
    (oapp (plane_events tbl UV_type 2 (option_map co_u a) (option_map co_u l) (co_u c))
          (plane_events tbl UV_type 2 (option_map co_v a) (option_map co_v l) (co_v c))).

Lemma mb_tokens_split tbl W ms cs i m c : mb_tokens_events tbl W ms cs i m c =
  if skipped m then Some [] else
  oapp (if y2_coded m then serialize_tokens (coeff_prob tbl Y2_type) Y2_type (y2_ctx W ms cs i) (fst (co_y2 c)) else Some []) (mb_yuv_events tbl W cs i m c).
Proof. reflexivity. Qed.

Lemma plane_events_steps tbl type w a l bs : plane_events tbl type w a l bs =
  oconcat (map (fun k => serialize_tokens (coeff_prob tbl type) type (blk_ctx w a l bs k) (fst (nth k bs fresh_block))) (seq 0 (length bs))).
Proof.
  unfold plane_events. f_equal.
  assert (G : forall bs' s, (forall k, (k < length bs')%nat -> nth k bs' fresh_block = nth (s + k) bs fresh_block) ->
    map (fun '(k, b) => serialize_tokens (coeff_prob tbl type) type (blk_ctx w a l bs k) (fst b)) (combine (seq s (length bs')) bs') =
    map (fun k => serialize_tokens (coeff_prob tbl type) type (blk_ctx w a l bs k) (fst (nth k bs fresh_block))) (seq s (length bs'))).
  { induction bs' as [|b bs' IH]; intros s Hn; [reflexivity|]. cbn [length seq combine map]. f_equal.
    - specialize (Hn 0%nat). cbn [length nth] in Hn. rewrite Nat.add_0_r in Hn. rewrite <- Hn by lia. reflexivity.
    - apply IH. intros k Hk. specialize (Hn (S k)). cbn [length nth] in Hn. rewrite Hn by lia. f_equal. lia. }
  apply G. intros k _. reflexivity.
Qed.

Lemma count_plane_tally type w a l bs c : 0 <= type < 4 ->
  count_plane type w a l bs c = option_map (fun evs => tally evs c) (plane_events label_table type w a l bs).
Proof.
  intros Ht. rewrite plane_events_steps. unfold count_plane. generalize (seq 0 (length bs)). intros ks. revert c.
  induction ks as [|k ks IH]; intros c; [reflexivity|]. cbn [count_blocks map oconcat fold_right].
  rewrite count_block_tally by (try exact Ht; pose proof (block_ctx_range w a l bs k); lia).
  destruct (serialize_tokens _ _ _ _) as [evs|]; cbn [option_map oapp]; [|reflexivity].
  rewrite IH. unfold oconcat. destruct (fold_right oapp _ _) as [r|]; cbn [option_map oapp]; [|reflexivity]. rewrite tally_app. reflexivity.
Qed.

Lemma y_type_range m : 0 <= y_type m < 4.
Proof. unfold y_type, Y_after_Y2, Y_without_Y2. destruct (y2_coded m); lia. Qed.

Lemma count_mb_tally W cs i m c counts :
  count_mb W cs i m c counts = option_map (fun evs => tally evs counts) (mb_yuv_events label_table W cs i m c).
Proof.
  unfold count_mb, mb_yuv_events. cbv zeta. rewrite count_plane_tally by apply y_type_range.
  destruct (plane_events _ (y_type m) _ _ _ _) as [e1|]; cbn [option_map oapp]; [|reflexivity].
  rewrite count_plane_tally by (unfold UV_type; lia).
  destruct (plane_events _ UV_type _ _ _ (co_u c)) as [e2|]; cbn [option_map oapp]; [|reflexivity].
  rewrite count_plane_tally by (unfold UV_type; lia).
  destruct (plane_events _ UV_type _ _ _ (co_v c)) as [e3|]; cbn [option_map oapp]; [|reflexivity].
  rewrite !tally_app. reflexivity.
Qed.

(** Which entries of the table a block of a type uses. *)
Definition of_type (type : Z) (e : event) : Prop := snd e < 1000 \/ 1000 + 264 * type <= snd e < 1000 + 264 * (type + 1).

Lemma of_type_prob type band ctx node b : 0 <= type < 4 -> 0 <= band < 8 -> 0 <= ctx < 3 -> 0 <= node < 11 ->
  of_type type (b, coeff_prob label_table type band ctx node).
Proof. intros. right. rewrite label_prob by assumption. cbn [snd]. unfold count_index. lia. Qed.
Lemma of_type_td type ps : Forall (fun p => p < 1000) ps -> forall v, Forall (of_type type) (td_bit_events ps v).
Proof. induction ps as [|p ps IH]; intros F v; [constructor|]. inversion F; subst. cbn [td_bit_events]. constructor; [left; assumption|auto]. Qed.

Lemma value_events_type type pr x ve c : (forall n b, 0 <= n < 11 -> of_type type (b, pr n)) -> value_events pr x = Some (ve, c) -> Forall (of_type type) ve.
Proof.
  intros U.
  assert (F1 : Forall (fun p => p < 1000) (snd token_decoder_1)) by (repeat constructor).
  assert (F2 : Forall (fun p => p < 1000) (snd token_decoder_2)) by (repeat constructor).
  assert (F3 : Forall (fun p => p < 1000) (snd token_decoder_3)) by (repeat constructor).
  assert (F4 : Forall (fun p => p < 1000) (snd token_decoder_4)) by (repeat constructor).
  assert (F5 : Forall (fun p => p < 1000) (snd token_decoder_5)) by (repeat constructor).
  assert (K : forall b p, p < 1000 -> of_type type (b, p)) by (intros; left; assumption).
  unfold value_events, td_events. cbv zeta.
  repeat match goal with
  | |- context [if ?x then _ else _] => destruct x
  end; cbn [option_map app]; intros E; try discriminate; apply some_eq, pair_equal_spec in E; destruct E as [<- _];
  repeat first [apply Forall_nil | apply of_type_td; assumption | apply Forall_app; split | apply Forall_cons; [first [apply U; lia|apply K; lia]|]].
Qed.

Lemma serialize_type type ctx coefs evs : 0 <= type < 4 -> 0 <= ctx < 3 ->
  serialize_tokens (coeff_prob label_table type) type ctx coefs = Some evs -> Forall (of_type type) evs.
Proof.
  intros Ht Hc. unfold serialize_tokens. cbv zeta.
  assert (L : forall n index ctx lwz evs c l, 0 <= ctx < 3 -> ser_loop (coeff_prob label_table type) coefs n index ctx lwz = Some (evs, c, l) -> Forall (of_type type) evs).
  { clear -Ht. induction n as [|n IH]; intros index ctx lwz evs c l Hc E; cbn [ser_loop] in E; cbv zeta in E.
    - apply some_eq, pair_equal_spec in E. destruct E as [E _]. apply pair_equal_spec in E. destruct E as [<- _]. constructor.
    - pose proof (band_bounds index) as Hb.
      assert (U : forall n b, 0 <= n < 11 -> of_type type (b, coeff_prob label_table type (band_of index) ctx n)) by (intros; apply of_type_prob; assumption).
      destruct (_ =? 0) in E.
      + destruct (ser_loop _ coefs n (S index) 0 true) as [[[e c'] l']|] eqn:Er in E; [|discriminate].
        apply IH in Er; [|lia]. apply some_eq, pair_equal_spec in E. destruct E as [E _]. apply pair_equal_spec in E. destruct E as [<- _].
        apply Forall_app. split; [destruct lwz; [apply Forall_nil|apply Forall_cons; [apply U; lia|apply Forall_nil]]|]. apply Forall_app. split; [apply Forall_cons; [apply U; lia|apply Forall_nil]|exact Er].
      + destruct (value_events _ _) as [[ve cx]|] eqn:Ev in E; [|discriminate]. pose proof (value_events_ctx _ _ _ _ Ev) as Hx.
        apply (value_events_type type) in Ev; [|exact U].
        destruct (ser_loop _ coefs n (S index) cx false) as [[[e c'] l']|] eqn:Er in E; [|discriminate].
        apply IH in Er; [|exact Hx]. apply some_eq, pair_equal_spec in E. destruct E as [E _]. apply pair_equal_spec in E. destruct E as [<- _].
        apply Forall_app. split; [destruct lwz; [apply Forall_nil|apply Forall_cons; [apply U; lia|apply Forall_nil]]|]. apply Forall_app. split; [apply Forall_cons; [apply U; lia|apply Forall_nil]|].
        apply Forall_app. split; assumption. }
  destruct (ser_loop _ coefs _ _ ctx false) as [[[evs' cx] l]|] eqn:E; [|discriminate].
  destruct l; [discriminate|]. pose proof (ser_loop_ctx _ _ _ _ _ _ _ _ _ Hc E) as Hx. apply L in E; [|exact Hc].
  destruct (coded_length type coefs <? 16)%nat; intros Q; apply some_eq in Q; subst; [|exact E].
  apply Forall_app. split; [exact E|]. apply Forall_cons; [|apply Forall_nil]. apply of_type_prob; try lia. apply band_bounds.
Qed.

Lemma writes_other evs type i b : Forall (of_type type) evs -> 0 <= i -> ~ (264 * type <= i < 264 * (type + 1)) -> writes evs i b = 0.
Proof.
  intros F Hi N. induction F as [|e evs He F IH]; [reflexivity|]. rewrite writes_cons, IH.
  replace (snd e =? 1000 + i) with false; [reflexivity|]. destruct He; lia.
Qed.

Lemma oconcat_forall {A} (P : A -> Prop) l r : Forall (fun o => forall x, o = Some x -> Forall P x) l -> oconcat l = Some r -> Forall P r.
Proof.
  revert r. induction l as [|o l IH]; intros r F E; cbn [oconcat fold_right] in E; [apply some_eq in E; subst; constructor|].
  inversion F as [|? ? Ho Fl]; subst. destruct o as [x|]; [|discriminate]. unfold oconcat in IH. destruct (fold_right oapp (Some []) l) as [y|]; [|discriminate].
  cbn [oapp] in E. apply some_eq in E. subst. apply Forall_app. split; [apply Ho; reflexivity|apply IH; auto].
Qed.

Lemma plane_type type w a l bs evs : 0 <= type < 4 -> plane_events label_table type w a l bs = Some evs -> Forall (of_type type) evs.
Proof.
  intros Ht. rewrite plane_events_steps. apply oconcat_forall. apply Forall_forall. intros o Ho x E. apply in_map_iff in Ho. destruct Ho as (k & Hk & _). subst o.
  apply serialize_type in E; [exact E|exact Ht|]. pose proof (block_ctx_range w a l bs k). lia.
Qed.

Definition not_y2 (e : event) : Prop := of_type Y_after_Y2 e \/ of_type UV_type e \/ of_type Y_without_Y2 e.

Lemma oapp_some {A} (a b : option (list A)) r : oapp a b = Some r -> exists x y, a = Some x /\ b = Some y /\ r = x ++ y.
Proof. destruct a as [x|], b as [y|]; cbn [oapp]; intros E; try discriminate. apply some_eq in E. eauto. Qed.

Lemma yuv_type W cs i m c evs : mb_yuv_events label_table W cs i m c = Some evs -> Forall not_y2 evs.
Proof.
  intros E. unfold mb_yuv_events in E. cbv zeta in E. apply oapp_some in E. destruct E as (e1 & r & E1 & E & ->). apply oapp_some in E. destruct E as (e2 & e3 & E2 & E3 & ->).
  apply plane_type in E1; [|apply y_type_range]. apply plane_type in E2; [|unfold UV_type; lia]. apply plane_type in E3; [|unfold UV_type; lia].
  apply Forall_app. split; [|apply Forall_app; split].
  - unfold y_type in E1. destruct (y2_coded m); (eapply Forall_impl; [|exact E1]); intros e He; unfold not_y2; auto.
  - eapply Forall_impl; [|exact E2]. intros e He. unfold not_y2. auto.
  - eapply Forall_impl; [|exact E3]. intros e He. unfold not_y2. auto.
Qed.

Lemma writes_y2 evs i b : Forall not_y2 evs -> 264 <= i < 528 -> writes evs i b = 0.
Proof.
  intros F Hi. induction F as [|e evs He F IH]; [reflexivity|]. rewrite writes_cons, IH. replace (snd e =? 1000 + i) with false; [reflexivity|].
  unfold not_y2, of_type, Y_after_Y2, UV_type, Y_without_Y2 in He. lia.
Qed.

Definition end_only (e : event) : Prop := fst e = false /\ (snd e - 1000) mod 11 = 0.
Definition zero_block (b : block) : Prop := Forall (fun x => x = 0) (fst b).
Definition zero_mb (c : mbcoef) : Prop := Forall zero_block (co_y c) /\ Forall zero_block (co_u c) /\ Forall zero_block (co_v c).

Lemma nth_zero coefs k : Forall (fun x => x = 0) coefs -> nth k coefs 0 = 0.
Proof. intros F. destruct (nth_in_or_default k coefs 0) as [I|E]; [|exact E]. rewrite Forall_forall in F. exact (F _ I). Qed.

Lemma coded_length_zero type coefs : Forall (fun x => x = 0) coefs -> coded_length type coefs = 0%nat.
Proof.
  intros F. unfold coded_length. generalize (16 - first_index type)%nat. intros n. generalize (first_index type). induction n as [|n IH]; intros s; [reflexivity|].
  cbn [coded_length_from]. rewrite nth_zero by exact F. apply IH.
Qed.

Lemma serialize_zero type ctx coefs evs : 0 <= type < 4 -> 0 <= ctx < 3 -> Forall (fun x => x = 0) coefs ->
  serialize_tokens (coeff_prob label_table type) type ctx coefs = Some evs -> Forall end_only evs.
Proof.
  intros Ht Hc F. unfold serialize_tokens. cbv zeta. rewrite coded_length_zero by exact F. cbn [Nat.sub ser_loop].
  change (0 <? 16)%nat with true. cbv iota. intros E. apply some_eq in E. subst. apply Forall_cons; [|apply Forall_nil]. split; [reflexivity|].
  cbn [snd]. rewrite label_prob by (try apply band_bounds; lia). unfold count_index. lia.
Qed.

Lemma plane_zero type w a l bs evs : 0 <= type < 4 -> Forall zero_block bs -> plane_events label_table type w a l bs = Some evs -> Forall end_only evs.
Proof.
  intros Ht F. rewrite plane_events_steps. apply oconcat_forall. apply Forall_forall. intros o Ho x E. apply in_map_iff in Ho. destruct Ho as (k & Hk & _). subst o.
  apply serialize_zero in E; [exact E|exact Ht|pose proof (block_ctx_range w a l bs k); lia|].
  destruct (nth_in_or_default k bs fresh_block) as [I| ->]; [rewrite Forall_forall in F; exact (F _ I)|]. cbn. repeat constructor.
Qed.

Lemma yuv_zero W cs i m c evs : zero_mb c -> mb_yuv_events label_table W cs i m c = Some evs -> Forall end_only evs.
Proof.
  intros (Z1 & Z2 & Z3) E. unfold mb_yuv_events in E. cbv zeta in E. apply oapp_some in E. destruct E as (e1 & r & E1 & E & ->). apply oapp_some in E. destruct E as (e2 & e3 & E2 & E3 & ->).
  apply plane_zero in E1; [|apply y_type_range|exact Z1]. apply plane_zero in E2; [|unfold UV_type; lia|exact Z2]. apply plane_zero in E3; [|unfold UV_type; lia|exact Z3].
  apply Forall_app. split; [exact E1|apply Forall_app; split; assumption].
Qed.

Lemma writes_end evs i b : Forall end_only evs -> b = true \/ i mod 11 <> 0 -> writes evs i b = 0.
Proof.
  intros F Hi. induction F as [|e evs [He1 He2] F IH]; [reflexivity|]. rewrite writes_cons, IH. rewrite He1.
  destruct Hi as [->|N]; [rewrite Bool.andb_false_r; reflexivity|]. replace (snd e =? 1000 + i) with false; [reflexivity|]. symmetry. apply Z.eqb_neq. intros Q. apply N. rewrite <- He2. f_equal. lia.
Qed.

Lemma writes_part : forall parts k evs i b, (k < length parts)%nat ->
  writes (concat (set_nth parts k (nth k parts [] ++ evs))) i b = writes (concat parts) i b + writes evs i b.
Proof.
  induction parts as [|p parts IH]; intros k evs i b Hk; cbn [length] in Hk; [lia|]. destruct k as [|k]; cbn [set_nth nth concat].
  - rewrite !writes_app. lia.
  - rewrite !writes_app, IH by lia. lia.
Qed.

Lemma count_frame_steps W ms cs : forall todo i counts counts' parts parts',
  count_frame W cs i todo counts = Some counts' -> tokens_events label_table W ms cs i todo parts = Some parts' ->
  (0 < length parts)%nat -> Forall (fun mc => skipped (fst mc) = true -> zero_mb (snd mc)) todo -> counts_ok counts ->
  counts_ok counts' /\ forall k b, 0 <= k < 1056 ->
  exists extra, 0 <= extra /\ (Forall (fun mc => skipped (fst mc) = false) todo -> extra = 0) /\ (b = true \/ k mod 11 <> 0 -> extra = 0) /\
    counted counts' k b = wrap 32 (counted counts k b + (if (264 <=? k) && (k <? 528) then 0 else writes (concat parts') k b - writes (concat parts) k b + extra)).
Proof.
  induction todo as [|[m c] todo IH]; intros i counts counts' parts parts' Ec Et Lp Zs Ok; cbn [count_frame tokens_events] in Ec, Et.
  - apply some_eq in Ec, Et. subst. split; [exact Ok|]. intros k b Hk. exists 0. repeat split; try lia.
    rewrite Z.sub_diag. replace (counted counts' k b + _) with (counted counts' k b) by (destruct (_ && _); lia). unfold wrap. symmetry. apply Z.mod_small, counted_range. exact Ok.
  - rewrite count_mb_tally in Ec. destruct (mb_yuv_events label_table W cs i m c) as [yuv|] eqn:Ey in Ec; cbn [option_map] in Ec; [|discriminate].
    destruct (mb_tokens_events label_table W ms cs i m c) as [evs|] eqn:Em in Et; [|discriminate]. rewrite mb_tokens_split, Ey in Em.
    inversion Zs as [|? ? Zm Zr]; subst. cbn [fst snd] in Zm.
    set (kp := ((i / W) mod length parts)%nat) in *. assert (Hkp : (kp < length parts)%nat) by (apply Nat.mod_upper_bound; lia).
    destruct (IH _ _ _ _ _ Ec Et ltac:(rewrite set_nth_length'; exact Lp) Zr (tally_ok _ _ Ok)) as [Ok' R]. split; [exact Ok'|].
    intros k b Hk. destruct (R k b Hk) as (extra & X0 & X1 & X2 & X3). clear R. pose proof (yuv_type _ _ _ _ _ _ Ey) as Ty.
    rewrite X3, counted_tally by assumption. rewrite writes_part by exact Hkp. clear X3.
    exists (extra + (if skipped m then writes yuv k b else 0)). pose proof (writes_nonneg yuv k b) as Wn.
    split; [destruct (skipped m); lia|]. split.
    { intros F. inversion F as [|? ? Fm Fr]; subst. cbn [fst] in Fm. rewrite Fm, X1 by exact Fr. lia. }
    split.
    { intros Hb. rewrite X2 by exact Hb. destruct (skipped m); [|lia]. rewrite writes_end; [lia| |exact Hb]. exact (yuv_zero _ _ _ _ _ _ (Zm eq_refl) Ey). }
    unfold wrap. rewrite Z.add_mod_idemp_l by lia. f_equal.
    destruct ((264 <=? k) && (k <? 528)) eqn:Y2; [rewrite writes_y2 by (try exact Ty; lia); lia|].
    destruct (skipped m).
    + apply some_eq in Em. subst evs. change (writes [] k b) with 0. lia.
    + apply oapp_some in Em. destruct Em as (y2 & y & Ey2 & Q & ->). apply some_eq in Q. subst y. rewrite writes_app.
      replace (writes y2 k b) with 0; [lia|]. destruct (y2_coded m); [|apply some_eq in Ey2; subst; reflexivity].
      apply serialize_type in Ey2; [|unfold Y2_type; lia|pose proof (y2_ctx_range W ms cs i); lia]. symmetry. apply (writes_other _ Y2_type); [exact Ey2|lia|]. unfold Y2_type. lia.
Qed.

(** The counts of a frame, if only macroblocks without coefficients are
    skipped: nothing for the entries of the Y2 blocks; for the others what is
    written, and in addition the ends of the blocks that are skipped. *)
Theorem C67_frame :
  forall W ms cs n counts parts, (0 < n)%nat ->
  Forall (fun mc => skipped (fst mc) = true -> zero_mb (snd mc)) (combine ms cs) ->
  count_frame W cs 0 (combine ms cs) no_counts = Some counts ->
  tokens_events label_table W ms cs 0 (combine ms cs) (repeat [] n) = Some parts ->
  forall type band ctx node b, 0 <= type < 4 -> 0 <= band < 8 -> 0 <= ctx < 3 -> 0 <= node < 11 ->
  let i := count_index type band ctx node in
  if type =? Y2_type then counted counts i b = 0
  else exists extra, 0 <= extra /\ counted counts i b = wrap 32 (writes (concat parts) i b + extra) /\
    (b = true \/ node <> 0 -> extra = 0) /\ (Forall (fun mc => skipped (fst mc) = false) (combine ms cs) -> extra = 0).
Proof.
  intros W ms cs n counts parts Hn Zs Ec Et type band ctx node b Ht Hb Hc Hd i.
  destruct (count_frame_steps W ms cs _ _ _ _ _ _ Ec Et ltac:(rewrite repeat_length; exact Hn) Zs no_counts_ok) as [_ R].
  assert (Hi : 0 <= i < 1056) by (unfold i, count_index; lia). destruct (R i b Hi) as (extra & X0 & X1 & X2 & X3). clear R.
  rewrite counted_none in X3. replace (concat (repeat [] n)) with (@nil event) in X3 by (clear; induction n; [reflexivity|assumption]).
  change (writes [] i b) with 0 in X3. rewrite Z.add_0_l, Z.sub_0_r in X3.
  destruct (Z.eqb_spec type Y2_type) as [->|N].
  - replace ((264 <=? i) && (i <? 528)) with true in X3 by (unfold i, count_index, Y2_type; lia). exact X3.
  - replace ((264 <=? i) && (i <? 528)) with false in X3 by (unfold i, count_index, Y2_type in *; lia).
    exists extra. split; [exact X0|]. split; [exact X3|]. split; [|exact X1].
    intros H. apply X2. destruct H as [H|H]; [left; exact H|right]. unfold i, count_index. lia.
Qed.

(** ** Sizes from the counts *)

(** A size, when a bit [b] coded with probability [p] takes [w b p]. *)
Definition size_with (w : bool -> Z -> Z) (evs : list event) : Z := fold_right (fun '(b, p) s => w b p + s) 0 evs.
Definition predicted (w : bool -> Z -> Z) (tbl : list Z) (counts : branch_counts) : Z :=
  fold_right (fun '(p, (f, t)) s => f * w false p + t * w true p + s) 0 (combine tbl counts).

Lemma size_with_app w a b : size_with w (a ++ b) = size_with w a + size_with w b.
Proof. induction a as [|[x p] a IH]; [reflexivity|]. cbn [size_with fold_right app] in *. unfold size_with in *. lia. Qed.

Lemma oapp_use tbl a b : oapp (option_map (map (use tbl)) a) (option_map (map (use tbl)) b) = option_map (map (use tbl)) (oapp a b).
Proof. destruct a, b; cbn [option_map oapp]; try reflexivity. rewrite map_app. reflexivity. Qed.

Lemma plane_use tbl type w a l bs : 0 <= type < 4 -> plane_events tbl type w a l bs = option_map (map (use tbl)) (plane_events label_table type w a l bs).
Proof.
  intros Ht. rewrite !plane_events_steps. generalize (seq 0 (length bs)). intros ks. induction ks as [|k ks IH]; [reflexivity|]. cbn [map oconcat fold_right].
  rewrite serialize_use by (try exact Ht; pose proof (block_ctx_range w a l bs k); lia). unfold oconcat in IH. rewrite IH. apply oapp_use.
Qed.

Lemma mb_use tbl W ms cs i m c : mb_tokens_events tbl W ms cs i m c = option_map (map (use tbl)) (mb_tokens_events label_table W ms cs i m c).
Proof.
  rewrite !mb_tokens_split. destruct (skipped m); [reflexivity|]. rewrite <- oapp_use. f_equal.
  - destruct (y2_coded m); [|reflexivity]. apply serialize_use; [unfold Y2_type; lia|]. pose proof (y2_ctx_range W ms cs i). lia.
  - unfold mb_yuv_events. cbv zeta. rewrite <- !oapp_use.
    rewrite !(plane_use tbl) by (try apply y_type_range; unfold UV_type; lia). reflexivity.
Qed.

Lemma map_set_nth {A B} (f : A -> B) l : forall k v, map f (set_nth l k v) = set_nth (map f l) k (f v).
Proof. induction l as [|x l IH]; intros [|k] v; cbn [set_nth map]; f_equal; auto. Qed.

Lemma frame_use tbl W ms cs : forall todo i parts,
  tokens_events tbl W ms cs i todo (map (map (use tbl)) parts) = option_map (map (map (use tbl))) (tokens_events label_table W ms cs i todo parts).
Proof.
  induction todo as [|[m c] todo IH]; intros i parts; [reflexivity|]. cbn [tokens_events]. rewrite mb_use.
  destruct (mb_tokens_events label_table W ms cs i m c) as [evs|]; cbn [option_map]; [|reflexivity]. rewrite map_length, <- IH. f_equal.
  rewrite map_set_nth, map_app. f_equal. f_equal. exact (map_nth (map (use tbl)) parts [] _).
Qed.

(** The sum over the entries of a table of what is written with them. *)
Definition sum_to (n : nat) (g : Z -> Z) : Z := fold_right (fun k s => g (Z.of_nat k) + s) 0 (seq 0 n).

Lemma sum_to_step n g : sum_to (S n) g = sum_to n g + g (Z.of_nat n).
Proof.
  unfold sum_to. rewrite seq_S. cbn [Nat.add]. induction (seq 0 n) as [|k l IH]; cbn [app fold_right]; lia.
Qed.
Lemma sum_to_ext n g h : (forall i, 0 <= i < Z.of_nat n -> g i = h i) -> sum_to n g = sum_to n h.
Proof. induction n as [|n IH]; intros E; [reflexivity|]. rewrite !sum_to_step, IH, E; [reflexivity|lia|]. intros i Hi. apply E. lia. Qed.
Lemma sum_to_plus n g h : sum_to n (fun i => g i + h i) = sum_to n g + sum_to n h.
Proof. induction n as [|n IH]; [reflexivity|]. rewrite !sum_to_step, IH. lia. Qed.
Lemma sum_to_pick n i x : sum_to n (fun k => if k =? i then x else 0) = if (0 <=? i) && (i <? Z.of_nat n) then x else 0.
Proof. induction n as [|n IH]; [cbn; destruct (0 <=? i) eqn:E; cbn; [destruct (i <? 0) eqn:E2; [lia|]|]; reflexivity|]. rewrite sum_to_step, IH. destruct (Z.of_nat n =? i) eqn:E; destruct ((0 <=? i) && (i <? Z.of_nat n)) eqn:E1; destruct ((0 <=? i) && (i <? Z.of_nat (S n))) eqn:E2; lia. Qed.

Definition in_table (e : event) : Prop := snd e < 2056.
Definition fixed_part (evs : list event) : list event := filter (fun e => snd e <? 1000) evs.

Lemma size_use w tbl evs : Forall in_table evs ->
  size_with w (map (use tbl) evs) = size_with w (fixed_part evs)
    + sum_to (Z.to_nat 1056) (fun i => writes evs i false * w false (nth (Z.to_nat i) tbl 0) + writes evs i true * w true (nth (Z.to_nat i) tbl 0)).
Proof.
  intros F. induction F as [|e evs He F IH].
  - cbn [map size_with fold_right fixed_part filter]. rewrite (sum_to_ext _ _ (fun k => if k =? -1 then 0 else 0)); [rewrite sum_to_pick; reflexivity|].
    intros i Hi. change (writes [] i false) with 0. change (writes [] i true) with 0. destruct (i =? -1); lia.
  - cbn [map size_with fold_right fixed_part filter]. fold (size_with w (map (use tbl) evs)). fold (fixed_part evs). destruct e as [x p]. unfold use at 1. cbn [fst snd] in *. rewrite IH. clear IH.
    unfold in_table in He. cbn [snd] in He.
    rewrite (sum_to_ext _ (fun i => writes ((x, p) :: evs) i false * _ + _)
      (fun i => (if i =? p - 1000 then w x (nth (Z.to_nat (p - 1000)) tbl 0) else 0)
                + (writes evs i false * w false (nth (Z.to_nat i) tbl 0) + writes evs i true * w true (nth (Z.to_nat i) tbl 0)))).
    2:{ intros i Hi. rewrite !writes_cons. cbn [fst snd]. replace (p =? 1000 + i) with (i =? p - 1000) by lia. destruct (Z.eqb_spec i (p - 1000)) as [->|N]; [|cbn [andb]; lia]. destruct x; cbn [andb Bool.eqb]; lia. }
    rewrite (sum_to_plus _ (fun i => if i =? p - 1000 then _ else 0)), sum_to_pick. rewrite Z2Nat.id by lia. destruct (p <? 1000) eqn:Ep.
    + replace (0 <=? p - 1000) with false by lia. cbn [andb size_with fold_right]. fold (size_with w (fixed_part evs)). unfold event in *. ring.
    + replace ((0 <=? p - 1000) && (p - 1000 <? 1056)) with true by lia. fold (size_with w (fixed_part evs)). unfold event in *. ring.
Qed.

Lemma predicted_sum w : forall tbl counts, length tbl = length counts ->
  predicted w tbl counts = sum_to (length counts) (fun i => counted counts i false * w false (nth (Z.to_nat i) tbl 0) + counted counts i true * w true (nth (Z.to_nat i) tbl 0)).
Proof.
  intros tbl counts. revert tbl. apply (rev_ind (fun counts => forall tbl, length tbl = length counts -> predicted w tbl counts = sum_to (length counts) (fun i => counted counts i false * w false (nth (Z.to_nat i) tbl 0) + counted counts i true * w true (nth (Z.to_nat i) tbl 0)))).
  - intros tbl L. destruct tbl; [reflexivity|discriminate].
  - intros [f t] l IH tbl L. rewrite app_length, Nat.add_1_r in L |- *. destruct (exists_last (l := tbl)) as (tl & p & ->); [destruct tbl; discriminate|].
    rewrite app_length, Nat.add_1_r in L. apply Nat.succ_inj in L. rewrite sum_to_step. unfold predicted.
    assert (Cb : combine (tl ++ [p]) (l ++ [(f, t)]) = combine tl l ++ [(p, (f, t))]).
    { clear -L. revert l L. induction tl as [|x tl IH]; intros [|y l] L; try discriminate; [reflexivity|]. cbn [app combine]. f_equal. apply IH. injection L as L. exact L. }
    rewrite Cb. replace (fold_right _ 0 (combine tl l ++ _)) with (predicted w tl l + (f * w false p + t * w true p)).
    2:{ unfold predicted. clear. induction (combine tl l) as [|[q [a b]] r IH]; cbn [app fold_right]; lia. }
    rewrite IH by exact L. f_equal.
    + apply sum_to_ext. intros i Hi. unfold counted. rewrite !app_nth1 by lia. reflexivity.
    + unfold counted. rewrite !app_nth2 by lia. rewrite L, !Nat2Z.id, Nat.sub_diag. reflexivity.
Qed.

Lemma writes_le evs i b : writes evs i b <= zlen evs.
Proof. induction evs as [|e evs IH]; [cbn; lia|]. rewrite writes_cons. unfold zlen in *. cbn [length]. destruct (_ && _); lia. Qed.

Lemma count_frame_ok W cs : forall todo i counts counts', counts_ok counts -> count_frame W cs i todo counts = Some counts' -> counts_ok counts'.
Proof.
  induction todo as [|[m c] todo IH]; intros i counts counts' Ok E; cbn [count_frame] in E; [apply some_eq in E; subst; exact Ok|].
  rewrite count_mb_tally in E. destruct (mb_yuv_events label_table W cs i m c) as [yuv|] in E; cbn [option_map] in E; [|discriminate].
  apply IH in E; [exact E|]. apply tally_ok. exact Ok.
Qed.

Lemma in_table_frame W ms cs : forall todo i parts parts', tokens_events label_table W ms cs i todo parts = Some parts' ->
  Forall (Forall in_table) parts -> Forall (Forall in_table) parts'.
Proof.
  induction todo as [|[m c] todo IH]; intros i parts parts' E F; cbn [tokens_events] in E; [apply some_eq in E; subst; exact F|].
  destruct (mb_tokens_events label_table W ms cs i m c) as [evs|] eqn:Em in E; [|discriminate]. apply IH in E; [exact E|].
  set (k := ((i / W) mod length parts)%nat). assert (Fe : Forall in_table evs).
  { rewrite mb_tokens_split in Em. destruct (skipped m); [apply some_eq in Em; subst; constructor|]. apply oapp_some in Em. destruct Em as (a & b & Ea & Eb & ->). apply Forall_app. split.
    - destruct (y2_coded m); [|apply some_eq in Ea; subst; constructor]. apply serialize_type in Ea; [|unfold Y2_type; lia|pose proof (y2_ctx_range W ms cs i); lia].
      eapply Forall_impl; [|exact Ea]. intros e He. unfold of_type, in_table, Y2_type in *. lia.
    - apply yuv_type in Eb. eapply Forall_impl; [|exact Eb]. intros e He. unfold not_y2, of_type, in_table, Y_after_Y2, UV_type, Y_without_Y2 in *. lia. }
  assert (Fn : Forall in_table (nth k parts [])).
  { destruct (nth_in_or_default k parts []) as [I| ->]; [rewrite Forall_forall in F; exact (F _ I)|constructor]. }
  assert (Fv : Forall in_table (nth k parts [] ++ evs)) by (apply Forall_app; auto). revert Fv. generalize (nth k parts [] ++ evs). clearbody k. clear -F. revert k.
  induction F as [|p parts Hp F IH]; intros k v Hv; [constructor|]. destruct k; cbn [set_nth]; constructor; auto.
Qed.

(** Without skipped macroblocks, the counts say for any two tables that agree
    on the entries of the Y2 blocks how much one is better than the other,
    whatever a coded bit is taken to cost. *)
Theorem C67_size :
  forall w W ms cs n counts tbl1 tbl2 parts1 parts2, (0 < n)%nat ->
  Forall (fun mc => skipped (fst mc) = false) (combine ms cs) ->
  count_frame W cs 0 (combine ms cs) no_counts = Some counts ->
  tokens_events tbl1 W ms cs 0 (combine ms cs) (repeat [] n) = Some parts1 ->
  tokens_events tbl2 W ms cs 0 (combine ms cs) (repeat [] n) = Some parts2 ->
  zlen (concat parts1) < 2 ^ 32 -> zlen tbl1 = 1056 -> zlen tbl2 = 1056 ->
  (forall band ctx node, 0 <= band < 8 -> 0 <= ctx < 3 -> 0 <= node < 11 -> coeff_prob tbl1 Y2_type band ctx node = coeff_prob tbl2 Y2_type band ctx node) ->
  size_with w (concat parts2) - size_with w (concat parts1) = predicted w tbl2 counts - predicted w tbl1 counts.
Proof.
  intros w W ms cs n counts tbl1 tbl2 parts1 parts2 Hn Ns Ec E1 E2 Hl L1 L2 Ag.
  assert (Rp : forall tbl, repeat (@nil event) n = map (map (use tbl)) (repeat [] n)) by (intros; clear; induction n; cbn; f_equal; auto).
  rewrite (Rp tbl1), frame_use in E1. rewrite (Rp tbl2), frame_use in E2.
  destruct (tokens_events label_table W ms cs 0 (combine ms cs) (repeat [] n)) as [parts|] eqn:Et; [|discriminate]. cbn [option_map] in E1, E2. apply some_eq in E1, E2.
  pose proof (in_table_frame _ _ _ _ _ _ _ Et ltac:(apply Forall_forall; intros x Hx; apply repeat_spec in Hx; subst; constructor)) as It.
  assert (It' : Forall in_table (concat parts)).
  { clear -It. induction It; [constructor|]. cbn [concat]. apply Forall_app. auto. }
  destruct (count_frame_steps W ms cs _ _ _ _ _ _ Ec Et ltac:(rewrite repeat_length; exact Hn)
    ltac:(eapply Forall_impl; [|exact Ns]; intros a Ha Hb; cbn beta in Ha; congruence) no_counts_ok) as [Ok R].
  subst parts1 parts2. rewrite <- !concat_map in *. rewrite !size_use by exact It'.
  destruct Ok as [Lc _]. rewrite !predicted_sum by (unfold zlen in *; lia). rewrite Lc.
  assert (Z : forall g1 g2 h1 h2, (forall i, 0 <= i < 1056 -> g2 i - g1 i = h2 i - h1 i) -> sum_to (Z.to_nat 1056) g2 - sum_to (Z.to_nat 1056) g1 = sum_to (Z.to_nat 1056) h2 - sum_to (Z.to_nat 1056) h1).
  { intros g1 g2 h1 h2 Hg. assert (Q : sum_to (Z.to_nat 1056) (fun i => g2 i + h1 i) = sum_to (Z.to_nat 1056) (fun i => h2 i + g1 i)).
    { apply sum_to_ext. intros i Hi. specialize (Hg i ltac:(lia)). lia. }
    rewrite !sum_to_plus in Q. lia. }
  assert (Q : sum_to (Z.to_nat 1056) (fun i => writes (concat parts) i false * w false (nth (Z.to_nat i) tbl2 0) + writes (concat parts) i true * w true (nth (Z.to_nat i) tbl2 0))
     - sum_to (Z.to_nat 1056) (fun i => writes (concat parts) i false * w false (nth (Z.to_nat i) tbl1 0) + writes (concat parts) i true * w true (nth (Z.to_nat i) tbl1 0))
     = sum_to (Z.to_nat 1056) (fun i => counted counts i false * w false (nth (Z.to_nat i) tbl2 0) + counted counts i true * w true (nth (Z.to_nat i) tbl2 0))
     - sum_to (Z.to_nat 1056) (fun i => counted counts i false * w false (nth (Z.to_nat i) tbl1 0) + counted counts i true * w true (nth (Z.to_nat i) tbl1 0))); [|lia].
  apply Z. intros i Hi. destruct ((264 <=? i) && (i <? 528)) eqn:Ey.
  - specialize (Ag ((i - 264) / 33) ((i - 264) / 11 mod 3) ((i - 264) mod 11) ltac:(lia) ltac:(lia) ltac:(lia)). unfold coeff_prob, Y2_type in Ag.
    replace (((1 * 8 + (i - 264) / 33) * 3 + (i - 264) / 11 mod 3) * 11 + (i - 264) mod 11) with i in Ag by lia. rewrite Ag. lia.
  - assert (C : forall b, counted counts i b = writes (concat parts) i b).
    { intros b. destruct (R i b Hi) as (extra & X0 & X1 & X2 & X3). rewrite X1, counted_none, Ey in X3 by exact Ns.
      replace (concat (repeat [] n)) with (@nil event) in X3 by (clear; induction n; [reflexivity|assumption]). change (writes [] i b) with 0 in X3.
      rewrite X3. unfold wrap. rewrite Z.mod_small; [lia|]. pose proof (writes_nonneg (concat parts) i b). pose proof (writes_le (concat parts) i b).
      unfold zlen in *. rewrite map_length in Hl. lia. }
    rewrite !C. lia.
Qed.

(** ** The updates of the header *)

Theorem C67_tables :
  forall tbl old counts, length old = length tbl -> length counts = length tbl ->
  Forall (fun '(f, t) => 0 <= f < 2 ^ 24 /\ 0 <= t < 2 ^ 31) counts ->
  exists ups, optimize_tables tbl old counts = Some ups /\ length ups = length tbl /\
  forall k, (k < length tbl)%nat ->
    let f := counted counts (Z.of_nat k) false in
    let t := counted counts (Z.of_nat k) true in
    let p := nth k tbl 0 in
    let o := nth k old None in
    nth k ups None = o /\ (f = 0 \/ branch_prob f t = Some p) \/
    exists v, nth k ups None = Some v /\ 1 <= v <= 255 /\ v <> p /\ Z.abs (256 * f - v * (f + t)) <= f + t.
Proof.
  induction tbl as [|p tbl IH]; intros old counts Lo Lc F.
  - exists []. destruct old; [|discriminate]. destruct counts; [|discriminate]. split; [reflexivity|]. split; [reflexivity|]. cbn [length]. lia.
  - destruct old as [|o old]; [discriminate|]. destruct counts as [|[f t] counts]; [discriminate|]. injection Lo as Lo. injection Lc as Lc. inversion F as [|? ? Hf Fr]; subst.
    destruct (IH old counts Lo Lc Fr) as (ups & E & Lu & R). unfold optimize_tables in *. cbn [combine omap].
    destruct (C46_token p f t (proj1 Hf) (proj2 Hf)) as (u & -> & Hu).
    exists ((match u with None => o | Some v => Some v end) :: ups). rewrite E. split; [destruct u; reflexivity|]. split; [cbn [length]; lia|].
    intros k Hk. destruct k as [|k].
    + cbn. destruct u as [v|]; [|left; auto]. right. exists v. destruct Hu as (Hv & Hp & Eb). destruct (C46_prob f t (proj1 Hf) (proj2 Hf)) as (v' & Ev & _ & Hz & Ha).
      rewrite Eb in Ev. apply some_eq in Ev. subst v'. repeat split; try lia. apply Ha. destruct (Z.eq_dec f 0) as [Q|Q]; [apply Hz in Q; lia|lia].
    + specialize (R k ltac:(cbn [length] in Hk; lia)). unfold counted in R |- *. rewrite !Nat2Z.id in *. exact R.
Qed.

(** ** What the counts are not *)

(** An intra macroblock with a Y2 block. *)
Definition small_mb (skip : bool) : mbinfo := mkMB None (Some skip) false None None false None 0 (repeat 0 16) (repeat mv_zero 16) 0.
(** Coefficients 1, 0, 6 in the order of coding, after the first. *)
Definition small_block : block := ([0; 1; 0; 0; 0; 0; 0; 0; 6; 0; 0; 0; 0; 0; 0; 0], true).
Definition small_coef : mbcoef := mkCoef ([7; 0; 0; 0; 0; 0; 0; 0; 0; 0; 0; 0; 0; 0; 0; 0], true) (small_block :: repeat fresh_block 15) (repeat fresh_block 4) (repeat fresh_block 4).

(** The bits of a macroblock that is skipped are counted although they are not
    written. *)
Theorem C67_skipped_refuted : exists W ms cs counts parts i,
  Forall (fun mc => skipped (fst mc) = true -> zero_mb (snd mc)) (combine ms cs) /\
  count_frame W cs 0 (combine ms cs) no_counts = Some counts /\
  tokens_events label_table W ms cs 0 (combine ms cs) [[]] = Some parts /\
  0 <= i < 1056 /\ writes (concat parts) i false = 0 /\ counted counts i false = 16.
Proof.
  exists 1%nat, [small_mb true], [fresh_coef].
  eexists. eexists. exists (count_index Y_after_Y2 1 0 0). split; [|split; [vm_compute; reflexivity|split; [vm_compute; reflexivity|split; [vm_compute; split; [discriminate|reflexivity]|split; vm_compute; reflexivity]]]].
  constructor; [|constructor]. intros _. split; [|split]; repeat constructor.
Qed.

(** The probability that the counts suggest is not always the one in force
    with the new header: if it is the one in force without it, an update for
    an earlier frame stays in the header. *)
Theorem C67_stale_refuted : exists tbl old counts ups,
  optimize_tables tbl old counts = Some ups /\ branch_prob (fst (nth 0 counts (0, 0))) (snd (nth 0 counts (0, 0))) = Some 128 /\
  nth 0 tbl 0 = 128 /\ nth 0 ups None = Some 1.
Proof. exists [128], [Some 1], [(1, 1)], [Some 1]. repeat split. Qed.

(** ** Examples *)

(** The bits of a block: 1 in context 0, then 0, then 6. *)
Example counts_block :
  serialize_tokens (coeff_prob label_table Y_after_Y2) Y_after_Y2 0 (fst small_block) =
  Some [(true, 1033); (true, 1034); (false, 1035); (false, 128); (true, 1077); (false, 1078);
        (true, 1100); (true, 1101); (true, 1102); (false, 1105); (false, 1106); (true, 159); (false, 128); (false, 1220)].
Proof. vm_compute. reflexivity. Qed.

(** A frame of one macroblock: the coefficients of its first block, and the
    ends of all of its blocks but the Y2 block. *)
Example counts_frame :
  match count_frame 1 [small_coef] 0 [(small_mb false, small_coef)] no_counts, tokens_events label_table 1 [small_mb false] [small_coef] 0 [(small_mb false, small_coef)] [[]] with
  | Some counts, Some parts =>
      map (fun '(i, b) => (counted counts i b, writes (concat parts) i b)) [(33, false); (33, true); (44, false); (78, false); (106, false); (220, false); (264, true)]
  | _, _ => []
  end = [(13, 13); (1, 1); (2, 2); (1, 1); (1, 1); (1, 1); (0, 1)].
Proof. vm_compute. reflexivity. Qed.

Example counts_tables :
  optimize_tables [128; 200; 17; 3] [None; None; Some 9; None] [(3, 1); (0, 5); (17, 239); (0, 0)] = Some [Some 192; None; Some 9; None].
Proof. reflexivity. Qed.

Print Assumptions C67_block.
Print Assumptions C67_frame.
Print Assumptions C67_size.
Print Assumptions C67_tables.
Print Assumptions C67_skipped_refuted.
Print Assumptions C67_stale_refuted.
