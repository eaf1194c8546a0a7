(** Round-trip lemmas for parsers and primitive fields. *)
From Verif Require Import Base BoolCoderModel BoolEncProofs BoolCoderProofs ParserModel.

(** [parses m evs x]: whenever the decoder is about to deliver [evs], the
    parser [m] returns [x] and stops exactly behind [evs]. *)
Definition parses {A} (m : dec A) (evs : list event) (x : A) : Prop :=
  forall d rest, ready d (evs ++ rest) -> exists d', m d = (x, d') /\ ready d' rest.

Lemma parses_ret {A} (a : A) : parses (dret a) [] a.
Proof. intros d rest H. exists d. split; [reflexivity|exact H]. Qed.

Lemma parses_bind {A B} (m : dec A) (f : A -> dec B) e1 e2 x y :
  parses m e1 x -> parses (f x) e2 y -> parses (dbind m f) (e1 ++ e2) y.
Proof.
  intros H1 H2 d rest H. rewrite <- app_assoc in H.
  destruct (H1 d _ H) as (d1 & E1 & R1). destruct (H2 d1 _ R1) as (d2 & E2 & R2).
  exists d2. unfold dbind. rewrite E1. split; assumption.
Qed.

Lemma parses_bind_ret {A B} (m : dec A) (g : A -> B) e x :
  parses m e x -> parses (dbind m (fun a => dret (g a))) e (g x).
Proof.
  intros H. rewrite <- (app_nil_r e). apply (parses_bind m _ e [] x); [exact H|apply parses_ret].
Qed.

Lemma parses_get p b : parses (bget p) [(b, p)] b.
Proof.
  intros d rest H. cbn [app ready] in H. destruct H as [H1 H2].
  destruct (bget p d) as [b' d']. cbn [fst snd] in *. subst b'. exists d'. auto.
Qed.

Lemma parses_bind_get {B} p b (f : bool -> dec B) e y :
  parses (f b) e y -> parses (dbind (bget p) f) ((b, p) :: e) y.
Proof. intros H. apply (parses_bind (bget p) f [(b, p)] e b y); [apply parses_get|exact H]. Qed.

Lemma parses_eq {A} (m : dec A) e x y : parses m e x -> x = y -> parses m e y.
Proof. intros H <-. exact H. Qed.

Lemma parses_evs {A} (m : dec A) e e' x : parses m e x -> e = e' -> parses m e' x.
Proof. intros H <-. exact H. Qed.

Lemma parses_ext {A} (m m' : dec A) evs x : (forall d, m d = m' d) -> parses m evs x -> parses m' evs x.
Proof. intros E H d rest R. destruct (H d rest R) as (d' & E1 & R1). exists d'. rewrite <- E. auto. Qed.

Lemma parses_dmap {A B} (f : A -> dec B) (w : A -> B -> list event) l : forall bs,
  length bs = length l ->
  (forall a b, In (a, b) (combine l bs) -> parses (f a) (w a b) b) ->
  parses (dmap f l) (concat (map (fun '(a, b) => w a b) (combine l bs))) bs.
Proof.
  induction l as [|a l IH]; intros bs HL H; destruct bs as [|b bs]; try discriminate.
  - apply parses_ret.
  - cbn [combine map concat dmap]. apply (parses_bind _ _ _ _ b).
    + apply H. left. reflexivity.
    + apply (parses_bind_ret _ (fun bs => b :: bs)). apply IH; [cbn in HL; lia|].
      intros a' b' Hin. apply H. right. exact Hin.
Qed.

Lemma parses_drep {A} (m : dec A) (w : A -> list event) xs :
  (forall x, In x xs -> parses m (w x) x) ->
  parses (drep (length xs) m) (concat (map w xs)) xs.
Proof.
  induction xs as [|x xs IH]; intros H.
  - apply parses_ret.
  - cbn [length drep map concat]. apply (parses_bind _ _ _ _ x); [apply H; left; reflexivity|].
    apply (parses_bind_ret _ (fun r => x :: r)). apply IH. intros y Hy. apply H. right. exact Hy.
Qed.

(** ** Trees *)

(** Following a path (bit, probability index) from node [i]; the probability
    index must be the one the decoder uses. Returns the symbol. *)
Fixpoint tree_walk (nodes : list Z) (i : Z) (path : list (bool * Z)) : option Z :=
  match path with
  | [] => None
  | (b, pi) :: r =>
      if pi =? Z.shiftr i 1 then
        let n := nth (Z.to_nat (i + (if b then 1 else 0))) nodes 1 in
        match r with
        | [] => if 0 <? n then None else Some (- n)
        | _ => if 0 <? n then tree_walk nodes n r else None
        end
      else None
  end.

Lemma tree_loop_walk nodes probs path : forall fuel i s,
  tree_walk nodes i path = Some s -> (length path <= fuel)%nat ->
  parses (tree_loop fuel nodes probs i) (map (fun '(b, pi) => (b, nth (Z.to_nat pi) probs 0)) path) s.
Proof.
  induction path as [|[b pi] path IH]; intros fuel i s HW HF; cbn [tree_walk] in HW; [discriminate|].
  destruct (pi =? Z.shiftr i 1) eqn:EP; [|discriminate]. apply Z.eqb_eq in EP. subst pi.
  destruct fuel as [|fuel]; [cbn in HF; lia|].
  cbn [map tree_loop]. apply parses_bind_get.
  set (n := nth (Z.to_nat (i + (if b then 1 else 0))) nodes 1) in *.
  destruct path as [|x path].
  - destruct (0 <? n) eqn:EN; [discriminate|]. injection HW as <-. apply parses_ret.
  - destruct (0 <? n) eqn:EN; [|discriminate]. apply IH; [exact HW|cbn in *; lia].
Qed.

(** Decidable correctness of the encoder path for a symbol. *)
Definition symbol_ok (nodes : list Z) (s : Z) : bool :=
  match tree_path nodes s with
  | None => false
  | Some path => match tree_walk nodes 0 path with
                 | Some s' => (s' =? s) && (length path <=? length nodes)%nat
                 | None => false
                 end
  end.

Lemma tree_round_trip nodes probs s : symbol_ok nodes s = true ->
  exists evs, tree_encode nodes probs s = Some evs /\ parses (tree_decode nodes probs) evs s.
Proof.
  unfold symbol_ok, tree_encode. destruct (tree_path nodes s) as [path|]; [|discriminate].
  destruct (tree_walk nodes 0 path) as [s'|] eqn:EW; [|discriminate].
  intros H. apply andb_true_iff in H. destruct H as [H1 H2]. apply Z.eqb_eq in H1. subst s'.
  apply Nat.leb_le in H2. cbn [option_map]. eexists. split; [reflexivity|].
  apply tree_loop_walk; assumption.
Qed.

Lemma tree_events_ok nodes probs s evs : Forall prob_ok probs -> tree_encode nodes probs s = Some evs ->
  Forall event_ok evs.
Proof.
  unfold tree_encode. intros HP. destruct (tree_path nodes s) as [path|]; [|discriminate].
  cbn [option_map]. intros E. injection E as <-. apply Forall_forall. intros ev Hev.
  apply in_map_iff in Hev. destruct Hev as ([b i] & <- & _). unfold event_ok. cbn [snd].
  destruct (nth_in_or_default (Z.to_nat i) probs 0) as [Hin| ->].
  - rewrite Forall_forall in HP. apply HP. exact Hin.
  - unfold prob_ok. lia.
Qed.

(** Symbols that can come out of the decoder, by exploring the tree. *)
Fixpoint tree_leaves (fuel : nat) (nodes : list Z) (i : Z) : option (list Z) :=
  match fuel with
  | O => None
  | S f =>
      let sub n := if 0 <? n then tree_leaves f nodes n else Some [- n] in
      match sub (nth (Z.to_nat i) nodes 1), sub (nth (Z.to_nat (i + 1)) nodes 1) with
      | Some a, Some b => Some (a ++ b)
      | _, _ => None
      end
  end.

Lemma tree_loop_total nodes probs fuel : forall i ls d,
  tree_leaves fuel nodes i = Some ls -> In (fst (tree_loop fuel nodes probs i d)) ls.
Proof.
  induction fuel as [|f IH]; intros i ls d H; cbn [tree_leaves] in H; [discriminate|].
  cbn [tree_loop]. unfold dbind. destruct (bget _ d) as [b d1].
  set (n0 := nth (Z.to_nat i) nodes 1) in *. set (n1 := nth (Z.to_nat (i + 1)) nodes 1) in *.
  assert (Hn : nth (Z.to_nat (i + (if b then 1 else 0))) nodes 1 = if b then n1 else n0).
  { destruct b; [reflexivity|]. rewrite Z.add_0_r. reflexivity. }
  rewrite Hn.
  assert (SUB : forall n l, (if 0 <? n then tree_leaves f nodes n else Some [- n]) = Some l ->
     In (fst ((if 0 <? n then tree_loop f nodes probs n else dret (- n)) d1)) l).
  { intros n l E. destruct (0 <? n).
    - apply IH. exact E.
    - injection E as <-. left. reflexivity. }
  destruct (if 0 <? n0 then tree_leaves f nodes n0 else Some [- n0]) as [a|] eqn:E0; [|discriminate].
  destruct (if 0 <? n1 then tree_leaves f nodes n1 else Some [- n1]) as [c|] eqn:E1; [|discriminate].
  injection H as <-. apply in_or_app. destruct b.
  - right. apply (SUB n1 c E1).
  - left. apply (SUB n0 a E0).
Qed.

Lemma tree_decode_total nodes probs ls d :
  tree_leaves (length nodes) nodes 0 = Some ls -> In (fst (tree_decode nodes probs d)) ls.
Proof. apply tree_loop_total. Qed.

(** ** Fields *)

Lemma bit_lor w r b : 0 <= w -> 0 <= r < 2 ^ w ->
  Z.lor (Z.shiftl (if b : bool then 1 else 0) w) r = (if b then 2 ^ w else 0) + r.
Proof.
  intros Hw Hr. rewrite Z.shiftl_mul_pow2 by lia. destruct b.
  - rewrite Z.mul_1_l.
    assert (HL : Z.land (2 ^ w) r = 0).
    { apply Z.bits_inj'. intros n Hn. rewrite Z.land_spec, Z.testbit_0_l.
      destruct (Z.eq_dec n w) as [->|N].
      - destruct (Z.eq_dec r 0) as [->|]; [rewrite Z.testbit_0_l; apply andb_false_r|].
        rewrite (Z.bits_above_log2 r w); [apply andb_false_r|lia|apply Z.log2_lt_pow2; lia].
      - rewrite Z.pow2_bits_false by lia. reflexivity. }
    rewrite Z.add_nocarry_lxor, Z.lxor_lor by exact HL. reflexivity.
  - rewrite Z.mul_0_l. apply Z.lor_0_l.
Qed.

Lemma land_bit num w : 0 <= w -> negb (Z.land num (Z.shiftl 1 w) =? 0) = Z.testbit num w.
Proof.
  intros Hw. rewrite Z.shiftl_1_l. destruct (Z.testbit num w) eqn:T.
  - apply negb_true_iff, Z.eqb_neq. intros E.
    assert (Z.testbit (Z.land num (2 ^ w)) w = false) by (rewrite E; apply Z.testbit_0_l).
    rewrite Z.land_spec, T, Z.pow2_bits_true in H by lia. discriminate.
  - apply negb_false_iff, Z.eqb_eq. apply Z.bits_inj'. intros n Hn.
    rewrite Z.land_spec, Z.testbit_0_l. destruct (Z.eq_dec n w) as [->|N].
    + rewrite T. reflexivity.
    + rewrite Z.pow2_bits_false by lia. apply andb_false_r.
Qed.

Lemma mod_succ_bit num w : 0 <= w ->
  num mod 2 ^ (Z.succ w) = (if Z.testbit num w then 2 ^ w else 0) + num mod 2 ^ w.
Proof.
  intros Hw. rewrite Z.pow_succ_r by lia.
  assert (P : 0 < 2 ^ w) by (apply Z.pow_pos_nonneg; lia).
  rewrite Z.mul_comm. rewrite Z.rem_mul_r by lia.
  rewrite <- Z.bit0_mod, <- Z.shiftr_div_pow2 by lia.
  rewrite Z.shiftr_spec by lia. rewrite Z.add_0_l. destruct (Z.testbit num w); cbn [Z.b2z]; lia.
Qed.

Lemma parses_unsigned_mod w num : parses (unsigned_decode w) (unsigned_events w num) (num mod 2 ^ Z.of_nat w).
Proof.
  induction w as [|w IH].
  - cbn [unsigned_decode unsigned_events]. rewrite Z.mod_1_r. apply parses_ret.
  - cbn [unsigned_decode unsigned_events]. apply parses_bind_get.
    rewrite Nat2Z.inj_succ, mod_succ_bit, land_bit by lia.
    rewrite <- bit_lor; [|lia|apply Z.mod_pos_bound; apply Z.pow_pos_nonneg; lia].
    apply (parses_bind_ret _ (fun r => Z.lor (Z.shiftl (if Z.testbit num (Z.of_nat w) then 1 else 0) (Z.of_nat w)) r)).
    exact IH.
Qed.

Lemma parses_unsigned w num : 0 <= num < 2 ^ Z.of_nat w ->
  parses (unsigned_decode w) (unsigned_events w num) num.
Proof. intros H. pose proof (parses_unsigned_mod w num) as P. rewrite Z.mod_small in P by exact H. exact P. Qed.

Lemma parses_signed w num : Z.abs num < 2 ^ Z.of_nat w ->
  parses (signed_decode w) (signed_events w num) num.
Proof.
  intros H. unfold signed_decode, signed_events.
  apply (parses_bind _ _ _ _ (Z.abs num)); [apply parses_unsigned; lia|].
  eapply parses_eq.
  - apply (parses_bind_ret _ (fun s : bool => Z.abs num * (if s then -1 else 1))). apply parses_get.
  - destruct (num <? 0) eqn:E; lia.
Qed.

Lemma parses_flagged {A} p (m : dec A) w (o : option A) :
  (forall a, o = Some a -> parses m (w a) a) ->
  parses (flagged_decode p m) (flagged_events p w o) o.
Proof.
  intros H. unfold flagged_decode, flagged_events. destruct o as [a|]; apply parses_bind_get.
  - apply (parses_bind_ret m Some). apply H. reflexivity.
  - apply parses_ret.
Qed.

Lemma parses_optional {A} c (m : dec A) w (o : option A) :
  (c = true <-> o <> None) -> (forall a, o = Some a -> parses m (w a) a) ->
  parses (optional_decode c m) (optional_events w o) o.
Proof.
  intros HC H. unfold optional_decode, optional_events. destruct o as [a|].
  - assert (c = true) as -> by (apply HC; discriminate). apply (parses_bind_ret m Some). apply H. reflexivity.
  - destruct c; [exfalso; apply HC; reflexivity|]. apply parses_ret.
Qed.

(** Probabilities of the events stay legal. *)
Lemma unsigned_events_ok w num : Forall event_ok (unsigned_events w num).
Proof. induction w; cbn; constructor; auto. unfold event_ok, prob_ok. cbn. lia. Qed.

Lemma signed_events_ok w num : Forall event_ok (signed_events w num).
Proof.
  apply Forall_app. split; [apply unsigned_events_ok|]. repeat constructor; cbn; lia.
Qed.

Lemma flagged_events_ok {A} p (w : A -> list event) o : prob_ok p -> (forall a, Forall event_ok (w a)) ->
  Forall event_ok (flagged_events p w o).
Proof. intros Hp H. destruct o; cbn; constructor; auto. Qed.

Lemma optional_events_ok {A} (w : A -> list event) o : (forall a, Forall event_ok (w a)) ->
  Forall event_ok (optional_events w o).
Proof. intros H. destruct o; cbn; auto. Qed.
